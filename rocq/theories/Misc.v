(** * shr_appdata, shr_stat and shr_ctl as calls (C14, C30, C36). *)
From Verif Require Export AppFacts.

Lemma pend_pc_app w evs c g s z : PI w evs -> pending c evs = Some (CApp g s z) -> c_pc (cli w c) = RunApp g s z.
Proof.
  intros HP E. specialize (HP c). rewrite E in HP.
  destruct (c_pc (cli w c)) as [ |[| | |] ? ? ?|[| | |] ? ? ?|? ?| | | | |]; cbn [pc_for] in HP; try discriminate;
    try (destruct HP as (? & HP & ?); discriminate); try (destruct HP as [HP ?]; discriminate).
  injection HP as -> -> ->. reflexivity.
Qed.
Lemma pend_pc_stat w evs c o : PI w evs -> pending c evs = Some (CStat o) -> c_pc (cli w c) = RunStat o.
Proof.
  intros HP E. specialize (HP c). rewrite E in HP.
  destruct (c_pc (cli w c)) as [ |[| | |] ? ? ?|[| | |] ? ? ?|? ?| | | | |]; cbn [pc_for] in HP; try discriminate;
    try (destruct HP as (? & HP & ?); discriminate); try (destruct HP as [HP ?]; discriminate).
  injection HP as ->. reflexivity.
Qed.

(** shr_appdata *)
Theorem app_call w0 w evs c e g s z w' ev :
  WI w0 w evs -> PI w evs -> pending c evs = Some (CApp g s z) ->
  step w (ARun c e) = Ok (w', ev) ->
  let r := w_ring w in
  exists v out z', ev = [ERet c (RetApp v out z')] /\ (v = 0 \/ v = -1)
  /\ (forall c', c' <> c -> cli w' c' = cli w c')
  /\ w_ring w' = r <| r_app := r_app (w_ring w') |>
  /\ match g, s with
     | GAlloc, None | GBuf _, None =>
         r_app (w_ring w') = r_app r /\ (v = 0 -> out = Some (r_app r) /\ z' = zlen (r_app r))
     | GNull, Some s | GBuf _, Some s =>
         (zlen s <> zlen (r_app r) -> v = -1 /\ r_app (w_ring w') = r_app r)
         /\ (v = 0 -> r_app (w_ring w') = s /\ (g = GNull \/ out = Some (r_app r)))
         /\ (v = -1 -> e_msync e = true -> r_app (w_ring w') = r_app r)
     | _, _ => r_app (w_ring w') = r_app r
     end
  /\ (e_lock e = true -> e_alloc e = true -> e_msync e = true -> r_app r <> [] ->
      match g, s with
      | GBuf b, None => zlen b = zlen (r_app r)
      | GBuf b, Some s => zlen b = zlen (r_app r) /\ zlen s = zlen (r_app r)
      | GNull, Some s => zlen s = zlen (r_app r)
      | _, _ => True
      end -> v = 0).
Proof.
  intros W HP Pd HS r. pose proof (pend_pc_app _ _ _ _ _ _ HP Pd) as Hpc. pose proof (pend_live _ _ _ _ _ W HP Pd) as Hl.
  destruct (wi_cl _ _ _ W c Hl) as [ms C]. pose proof (ci_pc _ _ _ _ C) as P. unfold pc_ok in P. rewrite Hpc in P.
  cbn [step] in HS. rewrite Hl in HS. unfold run_client in HS. rewrite Hpc in HS.
  apply obind_ok in HS. destruct HS as ([r1 x] & E & HS). injection HS as <- <-. fold r in E.
  pose proof (wi_app _ _ _ W) as HL. fold r in HL, P.
  destruct (do_app_ok e _ _ _ _ HL P) as (r2 & x2 & E' & ER & EL & Hx & _).
  rewrite E in E'. injection E' as <- <-.
  destruct (do_app_cases _ _ _ _ _ _ _ P HL E) as (v & out & z' & -> & Hv & M).
  exists v, out, z'. cbn [w_ring setc set].
  split; [reflexivity|]. split; [exact Hv|]. split; [intros c' N; rewrite cli_setc_other by exact N; reflexivity|].
  split; [exact ER|].
  assert (SY : e_msync e = true -> forall r, shr_sync e r = true).
  { intros H r0. unfold shr_sync. rewrite H. apply orb_true_r. }
  split.
  - rewrite HL. destruct g as [| |b], s as [s|]; try (rewrite M; reflexivity).
    + destruct M as [(-> & -> & D)|(-> & -> & D)].
      * repeat split; auto; discriminate.
      * split; [intros N; congruence|]. split; [auto|]. intros H H1. rewrite SY in H by exact H1. discriminate.
    + destruct M as [-> M]. split; [reflexivity|exact M].
    + destruct M as [(-> & -> & D)|(-> & -> & D & Eo)].
      * repeat split; auto; discriminate.
      * split; [intros N; congruence|]. split; [auto|]. intros H H1. rewrite SY in H by exact H1. discriminate.
    + destruct M as [-> M]. split; [reflexivity|exact M].
  - intros H1 H2 H3 H4 H5.
    assert (H6 : r_app_len r <> 0).
    { rewrite <- HL. intros H. destruct (r_app r) as [|? ?]; [congruence|]. rewrite zlen_cons in H. pose proof (zlen_nonneg l). lia. }
    rewrite HL in H5. destruct P as [Hsz P].
    unfold do_app in E. rewrite H1, H2 in E. cbn [negb] in E. destruct (Z.eqb_spec (r_app_len r) 0) as [|_]; [congruence|].
    destruct g as [| |b], s as [s|].
    + assert (EZ : z = r_app_len r) by lia. destruct (Z.eqb_spec z (r_app_len r)); [|congruence]. cbn [negb] in E.
      apply obind_ok in E. destruct E as (? & _ & E). apply obind_ok in E. destruct E as (? & _ & E). rewrite SY in E by exact H3. injection E as _ <- _ _. reflexivity.
    + rewrite SY in E by exact H3. injection E as _ <- _ _. reflexivity.
    + rewrite SY in E by exact H3. injection E as _ <- _ _. reflexivity.
    + apply obind_ok in E. destruct E as (? & _ & E). rewrite SY in E by exact H3. injection E as _ <- _ _. reflexivity.
    + assert (EZ : z = r_app_len r) by lia. destruct (Z.eqb_spec z (r_app_len r)); [|congruence]. cbn [negb] in E.
      repeat (apply obind_ok in E; destruct E as (? & _ & E)). rewrite SY in E by exact H3. injection E as _ <- _ _. reflexivity.
    + destruct P as [P1 P2]. destruct (Z.ltb_spec z (r_app_len r)); [lia|].
      repeat (apply obind_ok in E; destruct E as (? & _ & E)). rewrite SY in E by exact H3. injection E as _ <- _ _. reflexivity.
Qed.

(** shr_stat *)
Theorem stat_call w0 w evs c e o w' ev :
  WI w0 w evs -> PI w evs -> pending c evs = Some (CStat o) ->
  step w (ARun c e) = Ok (w', ev) ->
  let r := w_ring w in let r' := w_ring w' in
  (forall c', c' <> c -> cli w' c' = cli w c')
  /\ ring_unread r' = ring_unread r /\ ring_retained r' = ring_retained r /\ r_app r' = r_app r /\ r_q r' = r_q r
  /\ c_q (cli w' c) = c_q (cli w c)
  /\ ((e_lock e = false /\ r' = r /\ ev = [ERet c (RetStat false (-1) None)])
   \/ (e_lock e = true /\ exists v so, ev = [ERet c (RetStat (match o with Some _ => true | None => false end) v (Some so))]
       /\ (e_msync e = true -> v = 0)
       /\ so_mu so = zlen (ring_unread r) /\ so_bu so = nbytes (ring_unread r)
       /\ so_mm so = r_mm r /\ so_bn so = r_n r
       /\ so_mu so <= so_mm so /\ so_bu so <= so_bn so
       /\ so_cm so = zlen (cache_msgs (c_cache (cli w c))) /\ so_cb so = nbytes (cache_msgs (c_cache (cli w c)))
       /\ so_stat so = r_stat r
       /\ r_stat r' = match o with Some t => stat0 <| st_start := t |> | None => r_stat r end)).
Proof.
  intros W HP Pd HS r r'. pose proof (pend_pc_stat _ _ _ _ HP Pd) as Hpc. pose proof (pend_live _ _ _ _ _ W HP Pd) as Hl.
  pose proof (wi_ring _ _ _ W) as I. pose proof (i_inv0 _ _ I) as I0. pose proof (live_bound _ _ Hl) as LB.
  cbn [step] in HS. rewrite Hl in HS. unfold run_client in HS. rewrite Hpc in HS.
  destruct (do_stat e (w_ring w) (cli w c) o) as [r1 x] eqn:E. injection HS as HW <-. subst r'. rewrite <- HW.
  split; [intros c' N; rewrite cli_setc_other by exact N; reflexivity|]. cbn [w_ring setc set]. fold r in E.
  unfold cli at 1. cbn [w_cl setc set].
  assert (CQ : c_q (nth c (set_nat (w_cl w) c (cli w c <| c_pc := Idle |>)) client0) = c_q (cli w c)).
  { pose proof (cli_setc_same w c (cli w c <| c_pc := Idle |>) LB) as H. unfold cli at 1 in H. cbn [w_cl setc set] in H. rewrite H. reflexivity. }
  rewrite CQ. unfold do_stat in E.
  destruct (e_lock e) eqn:El; cbn [negb] in E.
  - destruct (cache_bounds _ _ _ _ W Hl) as (_ & _ & _ & CB1 & CB2).
    pose proof (unread_len _ _ I0) as UL. pose proof (unread_bytes _ _ I0) as UB. fold r in UL, UB.
    assert (B1 : r_m r <= r_mm r) by (pose proof (i_m _ _ I0) as Q1; pose proof (w_cnt _ _ _ (i_win _ _ I0)) as Q2; fold r in Q1, Q2; lia).
    assert (B2 : r_u r <= r_n r) by (apply (inv_u_le _ _ I0)).
    injection E as <- <-. destruct o as [t|]; cbn [r_app r_q set].
    + repeat (split; [first [reflexivity | apply unread_ext; reflexivity | apply retained_ext; reflexivity]|]). right. split; [reflexivity|].
      eexists _, _. split; [reflexivity|]. split; [intros Hm; unfold shr_sync; rewrite Hm, orb_true_r; reflexivity|].
      cbn [stat_of so_mu so_bu so_mm so_bn so_cm so_cb so_stat r_stat set]. rewrite CB1, CB2, UL, UB. repeat split; assumption.
    + repeat (split; [reflexivity|]). right. split; [reflexivity|].
      eexists _, _. split; [reflexivity|]. split; [intros Hm; unfold shr_sync; rewrite Hm, orb_true_r; reflexivity|].
      cbn [stat_of so_mu so_bu so_mm so_bn so_cm so_cb so_stat r_stat set]. rewrite CB1, CB2, UL, UB. repeat split; assumption.
  - injection E as <- <-. repeat (split; [reflexivity|]). left. auto.
Qed.
