(** * What can go wrong when a process is killed: a sleeping process is not
    woken although it could proceed only in the cases C54 names. *)
From Verif Require Import MicroFacts Crash Effects Final Pending Trace StepInv PollFacts ReadCall Calls.
From Verif Require Export KillBwFinal.

Definition NAP2 (w : world) (evs : list event) : Prop :=
  (forall c buf niov n s, c_pc (cli w c) = WaitR buf niov -> wt true w c n s -> available (w_ring w) (c_q (cli w c)) <> [] ->
     0 < k_pend (sk (w_ks w) s) \/ orphaned evs)
  /\ (forall c k iov len nb n s, c_pc (cli w c) = WaitW k iov len nb -> wt false w c n s ->
       room (r_n (w_ring w)) (r_mm (w_ring w)) iov (ring_unread (w_ring w)) = true -> 0 < k_pend (sk (w_ks w) s) \/ robbed evs).

Lemma orphaned_app evs ev : committed ev = [] -> orphaned evs -> orphaned (evs ++ ev).
Proof.
  intros H (e1 & c & ms & e2 & -> & E). exists e1, c, ms, (e2 ++ ev). rewrite <- !app_assoc. split; [reflexivity|]. rewrite committed_app, E, H. reflexivity.
Qed.
Definition got (ev : list event) : Prop := exists c v buf io, In (ERet c (RetRead v buf io)) ev /\ 0 < v.
Lemma robbed_app evs ev : ~ got ev -> robbed evs -> robbed (evs ++ ev).
Proof.
  intros H (e1 & c & buf & niov & e2 & -> & P & E). exists e1, c, buf, niov, (e2 ++ ev). rewrite <- !app_assoc. split; [reflexivity|]. split; [exact P|].
  intros c' v b i I. apply in_app_or in I. destruct I as [I|I]; [apply (E _ _ _ _ I)|].
  destruct (Z.le_gt_cases v 0) as [L|L]; [exact L|]. elim H. exists c', v, b, i. auto.
Qed.
Lemma got_dec ev : got ev \/ ~ got ev.
Proof.
  unfold got. induction ev as [|x t IH]; [right; intros (c & v & b & i & [] & _)|].
  destruct IH as [(c & v & b & i & H & L)|N]; [left; exists c, v, b, i; split; [right; exact H|exact L]|].
  assert (D : (exists c v b i, x = ERet c (RetRead v b i) /\ 0 < v) \/ ~ (exists c v b i, x = ERet c (RetRead v b i) /\ 0 < v)).
  { destruct x as [| |c y| |]; try (right; intros (? & ? & ? & ? & Q & _); discriminate).
    destruct y as [v0 b0 i0| | | | | | | |]; try (right; intros (? & ? & ? & ? & Q & _); discriminate).
    destruct (Z.lt_ge_cases 0 v0) as [L|L]; [left; eauto 8|]. right. intros (? & ? & ? & ? & Q & L'). injection Q as _ <- _ _. lia. }
  destruct D as [(c & v & b & i & -> & L)|D]; [left; exists c, v, b, i; split; [left; reflexivity|exact L]|].
  right. intros (c & v & b & i & [->|H] & L); [apply D|apply N]; eauto 8.
Qed.

Lemma fit_nil n mm iov : fit_suffix n mm iov [] = [].
Proof. cbn. destruct (room _ _ _ _); reflexivity. Qed.

(** what a killed process leaves is no more than there was to read, unless it
    had stored messages *)
Lemma kill_avail w0 w evs c e line m q : WI w0 w evs -> seq_bound (w_ring w) evs -> c_live (cli w c) = true ->
  dies_at (section e (cli w c)) (shared w) line m -> untorn w c m line = true -> (r_farm (w_ring w) = true -> 0 <= q <= zlen (committed evs)) ->
  available (sh_ring m) q <> [] -> available (w_ring w) q <> [] \/ exists ms, kill_events w c line = [ECommit c ms; ECrash c].
Proof.
  intros W HB Hl D U Hq HA. pose proof (section_ring _ _ _ _ _ _ _ W HB Hl D U) as L. pose proof (wi_ring _ _ _ W) as I.
  unfold left_ring_of in L. unfold kill_events.
  assert (SAME : abs (sh_ring m) = abs (w_ring w) -> available (w_ring w) q <> []).
  { unfold abs. intros E. injection E as _ _ _ E1 E2 E3 E4. unfold available in *. rewrite E1, E2, E3, E4 in HA. exact HA. }
  destruct (c_pc (cli w c)) as [ |k iov len nb|k iov len nb|buf niov|buf niov| | |reset|get st sz];
    try (left; apply SAME; destruct L as (st' & a & Za & E); rewrite E, abs_app; apply abs_stat).
  - destruct L as [(Hlt & Is & SF & LL)|(Hge & _)].
    + left. destruct LL as [E|(RM & [E|E])]; [apply SAME, E| |].
      * unfold abs, discarded in E. cbn [q_n q_mm q_drop q_farm q_seq q_kept q_unread] in E. injection E as _ _ _ E1 E2 E3 E4. unfold available in *. rewrite E1, E2, E3, E4 in HA.
        destruct (r_farm (w_ring w)); [exact HA|]. intros Q. rewrite Q, fit_nil in HA. apply HA. reflexivity.
      * unfold abs, evicted in E. cbn [q_n q_mm q_drop q_farm q_seq q_kept q_unread] in E. injection E as _ _ _ E1 _ E3 E4.
        destruct (r_farm (w_ring w)) eqn:Hf.
        -- intros Q. apply HA. specialize (HB Hf). specialize (Hq eq_refl).
           apply (avail_end _ _ _ Is); [intros _; lia|]. rewrite E1.
           apply (avail_end _ _ _ I) in Q; [|intros _; lia]. rewrite Hf in Q. destruct Q as [Q|Q]; [left; exact Q|right].
           assert (RE : ring_retained (sh_ring m) = []).
           { rewrite E3. rewrite (retained_eq _ _ (i_inv0 _ _ I)), Q. unfold lastn. rewrite Z.sub_0_r. unfold zlen. rewrite Nat2Z.id, skipn_all. apply fit_nil. }
           rewrite (retained_eq _ _ (i_inv0 _ _ Is)) in RE. unfold lastn in RE. rewrite skipn_is_nil in RE.
           pose proof (w_old _ _ _ (i_win _ _ (i_inv0 _ _ Is))). unfold zlen in *. pose proof (i_m _ _ (i_inv0 _ _ Is)). lia.
        -- unfold available in *. rewrite E1, E4, ?Hf in *. intros Q. rewrite Q, fit_nil in HA. apply HA. reflexivity.
    + right. destruct (Z.leb_spec 1004 line); [|lia]. exists iov. reflexivity.
  - left. destruct L as (Is & SF & [E|(Hf & j & Hj & E)]); [apply SAME, E|].
    unfold abs, taken_by in E. cbn [q_n q_mm q_drop q_farm q_seq q_kept q_unread] in E. injection E as _ _ _ E1 _ _ E4.
    unfold available in *. rewrite E1, E4, Hf in *. intros Q. rewrite Q, skipn_nil in HA. apply HA. reflexivity.
Qed.
(** nor is there more room, unless it was a reader *)
Lemma kill_room w0 w evs c e line m iov : WI w0 w evs -> PI w evs -> seq_bound (w_ring w) evs -> c_live (cli w c) = true -> r_drop (w_ring w) = false ->
  dies_at (section e (cli w c)) (shared w) line m -> untorn w c m line = true ->
  room (r_n (sh_ring m)) (r_mm (sh_ring m)) iov (ring_unread (sh_ring m)) = true ->
  room (r_n (w_ring w)) (r_mm (w_ring w)) iov (ring_unread (w_ring w)) = true \/ (kill_events w c line = [ECrash c] /\ exists buf niov, pending c evs = Some (CRead buf niov)).
Proof.
  intros W HP HB Hl Hd D U HR. pose proof (section_ring _ _ _ _ _ _ _ W HB Hl D U) as L. pose proof (wi_ring _ _ _ W) as I.
  destruct (wi_cl _ _ _ W c Hl) as [ms C]. pose proof (ci_pc _ _ _ _ C) as P. unfold pc_ok in P. specialize (HP c).
  unfold left_ring_of in L. unfold kill_events.
  assert (SAME : abs (sh_ring m) = abs (w_ring w) -> room (r_n (w_ring w)) (r_mm (w_ring w)) iov (ring_unread (w_ring w)) = true).
  { unfold abs. intros E. injection E as E1 E2 _ _ _ _ E4. rewrite E1, E2, E4 in HR. exact HR. }
  destruct (c_pc (cli w c)) as [ |k iov0 len nb|k iov0 len nb|buf niov|buf niov| | |reset|get st sz];
    try (left; apply SAME; destruct L as (st' & a & Za & E); rewrite E, abs_app; apply abs_stat).
  - left. destruct L as [(Hlt & Is & SF & LL)|(Hge & r' & st & E & Es)].
    + destruct LL as [E|(RM & [E|E])]; [apply SAME, E| |].
      all: unfold abs, discarded, evicted in E; cbn [q_n q_mm q_drop q_farm q_seq q_kept q_unread] in E; injection E as E1 E2 _ _ _ _ E4;
        rewrite Hd, orb_false_r in RM; rewrite E1, E2, E4, (fit_room _ _ _ _ RM) in HR; exact HR.
    + destruct P as (Hw & Hi & -> & Hk & _). destruct (ring_write_ok _ _ iov0 I Hi) as [WA WB].
      assert (HD : r_drop (w_ring w) = true \/ room (r_n (w_ring w)) (r_mm (w_ring w)) iov0 (ring_unread (w_ring w)) = true).
      { destruct (room _ _ iov0 _) eqn:Q; [auto|]. rewrite (WA Hd eq_refl) in E. discriminate E. }
      assert (RM : room (r_n (w_ring w)) (r_mm (w_ring w)) iov0 (ring_unread (w_ring w)) = true) by (destruct HD; congruence).
      destruct (WB HD) as (r1 & E1 & _ & SF & U1 & _). rewrite E in E1. injection E1 as <-.
      destruct (same_fixed_dims _ _ SF) as (_ & F1 & F2 & _).
      rewrite Es in HR. change (r_n (r' <| r_stat := st |>)) with (r_n r') in HR. change (r_mm (r' <| r_stat := st |>)) with (r_mm r') in HR.
      replace (ring_unread (r' <| r_stat := st |>)) with (ring_unread r') in HR by (symmetry; apply unread_ext; reflexivity).
      rewrite F1, F2, U1, (fit_room _ _ _ _ RM) in HR.
      rewrite !room_iff, nbytes_app, zlen_app in *. pose proof (zlen_nonneg iov0). assert (0 <= nbytes iov0) by apply zlen_nonneg. lia.
  - right. split; [reflexivity|]. cbn [pc_for] in HP. eauto.
Qed.

Lemma steady_reach_flaky r w evs : kreach steady r w evs -> kreach flaky r w evs.
Proof. apply kreach_mono, steady_flaky. Qed.
Lemma seq_bound_ring w0 w evs evs' : WI w0 w evs -> seq_bound (w_ring w0) evs' -> seq_bound (w_ring w) evs'.
Proof. intros W HB Hf. rewrite (same_dims_farm _ _ (wi_dims _ _ _ W)) in Hf. apply HB, Hf. Qed.

Lemma kexec_sleepW r fsz w evs : fresh r fsz -> kexec contract (world0 r fsz) w evs -> seq_bound r evs -> forall c, sleepW w c.
Proof.
  intros F X. induction X as [|w evs a w' ev X IH Pa S|w evs c e line m X IH Pa Hl D U|w evs e flags pid line m X IH Pa D]; intros HB.
  - intros c. unfold sleepW. rewrite world0_cli. exact Logic.I.
  - destruct (kexec_inv contract r fsz (fun w a h => h) F _ _ X (seq_bound_app _ _ _ HB)) as (W & _ & _).
    destruct (kexec_inv contract r fsz (fun w a h => h) F _ _ (kx_step _ _ _ _ _ _ _ X Pa S) HB) as (W' & _ & _).
    apply (step_sleepW _ _ _ _ _ _ W W' Pa (step_inv _ _ _ _ S) (IH (seq_bound_app _ _ _ HB))).
  - destruct (kexec_inv contract r fsz (fun w a h => h) F _ _ X (seq_bound_app _ _ _ HB)) as (W & _ & _).
    destruct (kexec_inv contract r fsz (fun w a h => h) F _ _ (kx_kill _ _ _ _ _ _ _ _ X Pa Hl D U) HB) as (W' & _ & _).
    intros c'. specialize (IH (seq_bound_app _ _ _ HB) c'). destruct (Nat.eq_dec c' c) as [->|N].
    + apply notW_sleep. rewrite cli_killed_same by (apply live_bound; exact Hl). exact Logic.I.
    + unfold sleepW in *. rewrite cli_killed_other by exact N.
      rewrite (same_dims_drop _ _ (wi_dims _ _ _ W')), <- (same_dims_drop _ _ (wi_dims _ _ _ W)). exact IH.
  - intros c. specialize (IH HB c). unfold sleepW in *. rewrite cli_opening. change (w_ring (killed_opening w m)) with (sh_ring m). rewrite (open_ring _ _ _ _ _ _ D). exact IH.
Qed.

Lemma kexec_NAP2 r fsz w evs : fresh r fsz -> kexec steady (world0 r fsz) w evs -> seq_bound r evs -> NAP2 w evs.
Proof.
  intros F X. induction X as [|w evs a w' ev X IH Pa S|w evs c0 e line m X IH Pa Hl D U|w evs e flags pid line m X IH Pa D]; intros HB.
  - split; intros c; intros; rewrite world0_cli in *; discriminate.
  - pose proof (seq_bound_app _ _ _ HB) as HB0. destruct (IH HB0) as [QR QW]. clear IH.
    destruct (kexec_inv steady r fsz steady_contract F _ _ X HB0) as (W & HP & _).
    destruct (kexec_inv steady r fsz steady_contract F _ _ (kx_step _ _ _ _ _ _ _ X Pa S) HB) as (W' & _ & _).
    assert (KF : kexec flaky (world0 r fsz) w evs) by (apply (kexec_mono steady); [exact steady_flaky|exact X]).
    assert (KC : kexec contract (world0 r fsz) w evs) by (apply (kexec_mono steady); [exact steady_contract|exact X]).
    assert (RF : kreach flaky r w evs) by (exists fsz; auto).
    destruct (k_ST _ _ _ _ _ _ RF (steady_flaky _ _ Pa) S) as (c0 & HC0 & T).
    pose proof (steady_contract _ _ Pa) as HCC. pose proof (step_inv _ _ _ _ S) as SI. pose proof (wi_ring _ _ _ W) as I.
    pose proof (seq_bound_ring (world0 r fsz) w evs _ W HB) as HBr.
    pose proof (step_effect _ _ _ _ _ _ W (seq_bound_app _ _ _ HBr) HCC S) as EF.
    assert (HG : good_env w a) by apply Pa.
    assert (OTH : forall b c n s, actor a <> Some c -> wt b w c n s -> k_pend (sk (w_ks w) s) <= k_pend (sk (w_ks w') s)).
    { intros b c n s HA Hw. apply (sr_other _ _ _ (st_sr _ _ _ _ _ T) b c n s); [|exact Hw].
      destruct HC0 as [Q|[_ ->]]; [congruence|]. intros ->. destruct Hw as [L _]. rewrite dead_out in L. discriminate. }
    assert (DM : same_dims (w_ring w) (w_ring w')).
    { destruct (wi_dims _ _ _ W) as (A1 & A2 & A3 & A4 & A5 & A6), (wi_dims _ _ _ W') as (B1 & B2 & B3 & B4 & B5 & B6). repeat split; congruence. }
    split.
    + intros c buf niov n s Hpc Hw Hav.
      destruct (commit_or ev) as [(c1 & ms & HE)|HE]; [left; apply (st_commit _ _ _ _ _ T _ _ HE (or_introl HG) c n s Hw)|].
      assert (Hav0 : available (w_ring w) (c_q (cli w' c)) <> []).
      { apply (avail_mono _ (w_ring w') (committed evs) _ (good_env w a) ev); auto.
        - pose proof (wi_ring _ _ _ W') as I'. rewrite committed_app, HE, app_nil_r in I'. exact I'.
        - apply same_dims_farm. exact DM.
        - intros Hf. apply (seq_bound_app _ _ _ HBr). exact Hf. }
      pose proof Hw as [L' _].
      destruct (who _ _ _ _ _ _ _ W HCC S L') as [HA|[(HA & EC)|(e & fl & pid & _ & _ & Hid)]]; [| |congruence].
      * destruct (own_step _ _ _ _ _ _ _ W SI HA L') as [->|[(NS & _)|[(e & b & v & -> & He & HNB & P1 & P2)|(e & k & iov & len & _ & _ & P2 & _)]]].
        -- destruct (QR c buf niov n s Hpc Hw Hav) as [Q|Q]; [left; exact Q|right; apply orphaned_app; assumption].
        -- rewrite Hpc in NS. destruct NS.
        -- exfalso. assert (PP : pending c evs = Some (CRead b v)).
           { specialize (HP c). rewrite P1 in HP. cbn [pc_for] in HP. exact HP. }
           assert (AS0 : asleep w c = false) by (unfold asleep; rewrite P1; reflexivity).
           destruct (read_step _ _ _ _ _ _ _ _ _ W HP (seq_bound_app _ _ _ HBr) PP AS0 S He) as (_ & _ & _ & _ & _ & _ & RR).
           destruct RR as [(EA & ER & EQ & _)|(_ & _ & AS & _)]; [|unfold asleep in AS; rewrite P2 in AS; discriminate].
           assert (EA' : available (w_ring w) (c_q (cli w' c)) = []); [|congruence].
           destruct (r_farm (w_ring w)) eqn:Hf; [|unfold available in *; rewrite Hf in *; exact EA].
           rewrite (EQ eq_refl). apply (avail_end _ _ _ I); [intros _; split; [apply (seq_bound_app _ _ _ HBr); exact Hf|pose proof (zlen_nonneg (committed evs)); lia]|].
           rewrite Hf. left. reflexivity.
        -- congruence.
      * assert (Hw0 : wt true w c n s) by (destruct Hw as [L Q]; rewrite EC in L, Q; split; assumption).
        rewrite EC in Hpc, Hav0. destruct (QR _ _ _ _ _ Hpc Hw0 Hav0) as [Q|Q]; [left|right; apply orphaned_app; assumption].
        pose proof (OTH _ _ _ _ HA Hw0). lia.
    + intros c k iov len nb n s Hpc Hw Hrm. pose proof Hw as [L' _].
      destruct (got_dec ev) as [GT|NG]; [left; apply (st_read _ _ _ _ _ T GT HG c n s Hw)|].
      assert (DN : r_n (w_ring w') = r_n (w_ring w) /\ r_mm (w_ring w') = r_mm (w_ring w)) by (destruct DM as (_ & ? & ? & _); auto).
      assert (RM : r_drop (w_ring w) = false -> room (r_n (w_ring w)) (r_mm (w_ring w)) iov (ring_unread (w_ring w)) = true).
      { intros Hd. destruct (room_mono _ _ _ _ _ iov I (proj1 DN) (proj2 DN) Hd EF Hrm) as [R|R]; [exact R|]. elim (NG R). }
      destruct (who _ _ _ _ _ _ _ W HCC S L') as [HA|[(HA & EC)|(e & fl & pid & _ & _ & Hid)]]; [| |congruence].
      * destruct (own_step _ _ _ _ _ _ _ W SI HA L') as [->|[(NS & _)|[(e & b & v & _ & _ & _ & P1 & P2)|(e & k1 & iov1 & len1 & -> & P1 & P2 & P3 & P4)]]].
        -- destruct (QW c k iov len nb n s Hpc Hw Hrm) as [Q|Q]; [left; exact Q|right; apply robbed_app; assumption].
        -- rewrite Hpc in NS. destruct NS.
        -- congruence.
        -- exfalso. rewrite P2 in Hpc. injection Hpc as -> -> -> <-. rewrite P3 in Hrm.
           assert (L : c_live (cli w c) = true) by (destruct (c_live (cli w c)) eqn:L; [reflexivity|pose proof (wi_dead _ _ _ W c L); congruence]).
           destruct (wi_cl _ _ _ W c L) as [ms C]. pose proof (ci_pc _ _ _ _ C) as P. unfold pc_ok in P. rewrite P1 in P.
           destruct P as (_ & Hi & -> & _). rewrite (ci_mm _ _ _ _ C) in P4.
           destruct (ring_write_total _ _ iov I Hi) as [(_ & _ & E')|(r1 & E' & _)]; congruence.
      * assert (Hw0 : wt false w c n s) by (destruct Hw as [L Q]; rewrite EC in L, Q; split; assumption).
        rewrite EC in Hpc. pose proof (kexec_sleepW _ _ _ _ F KC HB0 c) as SW. unfold sleepW in SW. rewrite Hpc in SW. destruct SW as (_ & Hd & _).
        destruct (QW _ _ _ _ _ _ _ Hpc Hw0 (RM Hd)) as [Q|Q]; [left|right; apply robbed_app; assumption].
        pose proof (OTH _ _ _ _ HA Hw0). lia.
  - pose proof (seq_bound_app _ _ _ HB) as HB0. destruct (IH HB0) as [QR QW]. clear IH.
    destruct (kexec_inv steady r fsz steady_contract F _ _ X HB0) as (W & HP & _).
    assert (KC : kexec contract (world0 r fsz) w evs) by (apply (kexec_mono steady); [exact steady_contract|exact X]).
    assert (RF : kreach flaky r w evs) by (apply steady_reach_flaky; exists fsz; auto).
    destruct (kreach_BI2 _ _ _ RF) as (w0 & _ & _ & _ & B). destruct (steady_flaky _ _ Pa) as (_ & HG & HN).
    pose proof (kill_SR _ _ _ _ _ B HG HN Hl D) as T. pose proof (seq_bound_ring (world0 r fsz) w evs _ W HB0) as HBr.
    split.
    + intros c buf niov n s Hpc Hw Hav. destruct (Nat.eq_dec c c0) as [->|N].
      { rewrite cli_killed_same in Hpc by (apply live_bound; exact Hl). discriminate Hpc. }
      assert (Hw0 : wt true w c n s) by (destruct Hw as [L Q]; rewrite cli_killed_other in L, Q by exact N; split; assumption).
      rewrite cli_killed_other in Hpc, Hav by exact N. rewrite ring_killed in Hav.
      assert (Hq : r_farm (w_ring w) = true -> 0 <= c_q (cli w c) <= zlen (committed evs)).
      { intros Hf. destruct (wi_cl _ _ _ W c (proj1 Hw0)) as [ms C]. destruct (CI_qok _ _ _ _ C HBr Hf) as [_ Q]. exact Q. }
      destruct (kill_avail _ _ _ _ _ _ _ _ W HBr Hl D U Hq Hav) as [A|(ms & E)].
      * destruct (QR _ _ _ _ _ Hpc Hw0 A) as [Q|Q].
        -- left. destruct (sr_other _ _ _ T _ _ _ _ N Hw0) as [_ LE]. lia.
        -- right. unfold kill_events. destruct (c_pc (cli w c0)) as [ |k iov len nb| | | | | | | ]; try (apply orphaned_app; [reflexivity|exact Q]).
           destruct (1004 <=? line); [|apply orphaned_app; [reflexivity|exact Q]].
           exists evs, c0, iov, []. split; reflexivity.
      * right. rewrite E. exists evs, c0, ms, []. split; reflexivity.
    + intros c k iov len nb n s Hpc Hw Hrm. destruct (Nat.eq_dec c c0) as [->|N].
      { rewrite cli_killed_same in Hpc by (apply live_bound; exact Hl). discriminate Hpc. }
      assert (Hw0 : wt false w c n s) by (destruct Hw as [L Q]; rewrite cli_killed_other in L, Q by exact N; split; assumption).
      rewrite cli_killed_other in Hpc by exact N. rewrite ring_killed in Hrm.
      pose proof (kexec_sleepW _ _ _ _ F KC HB0 c) as SW. unfold sleepW in SW. rewrite Hpc in SW. destruct SW as (_ & Hd & _).
      destruct (kill_room _ _ _ _ _ _ _ _ W HP HBr Hl Hd D U Hrm) as [R|(E & b & i & PD)].
      * destruct (QW _ _ _ _ _ _ _ Hpc Hw0 R) as [Q|Q].
        -- left. destruct (sr_other _ _ _ T _ _ _ _ N Hw0) as [_ LE]. lia.
        -- right. apply robbed_app; [|exact Q]. intros (c1 & v & b & i & HI & _). unfold kill_events in HI. apply in_app_or in HI.
           destruct HI as [HI|[HI|[]]]; [|discriminate]. destruct (c_pc (cli w c0)); try destruct HI. destruct (1004 <=? line); [|destruct HI]. destruct HI as [HI|[]]; discriminate.
      * right. rewrite E. exists evs, c0, b, i, []. split; [reflexivity|]. split; [exact PD|]. intros ? ? ? ? [].
  - destruct (IH HB) as [QR QW]. clear IH.
    assert (RF : kreach flaky r w evs) by (apply steady_reach_flaky; exists fsz; auto).
    destruct (kreach_BI2 _ _ _ RF) as (w0 & _ & _ & _ & B). destruct (steady_flaky _ _ Pa) as (_ & HG & HN).
    pose proof (kill_open_SR _ _ _ _ _ _ B HG HN D) as T.
    assert (LE : forall b c n s, wt b w c n s -> k_pend (sk (w_ks w) s) <= k_pend (sk (w_ks (killed_opening w m)) s)).
    { intros b c n s Hw. apply (sr_other _ _ _ T b c n s); [|exact Hw]. intros ->. destruct Hw as [L _]. rewrite dead_out in L. discriminate. }
    assert (ER : w_ring (killed_opening w m) = w_ring w) by apply (open_ring _ _ _ _ _ _ D).
    split.
    + intros c buf niov n s Hpc Hw Hav. rewrite cli_opening in Hpc, Hav. rewrite ER in Hav. change (wt true w c n s) in Hw.
      destruct (QR _ _ _ _ _ Hpc Hw Hav) as [Q|Q]; [left|right; exact Q]. pose proof (LE _ _ _ _ Hw). lia.
    + intros c k iov len nb n s Hpc Hw Hrm. rewrite cli_opening in Hpc. rewrite ER in Hrm. change (wt false w c n s) in Hw.
      destruct (QW _ _ _ _ _ _ _ Hpc Hw Hrm) as [Q|Q]; [left|right; exact Q]. pose proof (LE _ _ _ _ Hw). lia.
Qed.

Theorem k_lost_reader r w evs c buf niov : kreach steady r w evs -> pending c evs = Some (CRead buf niov) -> asleep w c = true ->
  available (w_ring w) (c_q (cli w c)) <> [] -> (exists s, data_sock w c = Some s /\ readable w s) \/ orphaned evs.
Proof.
  intros R Pd A Hav. pose proof R as (fsz & F & X & B). destruct (kexec_inv steady r fsz steady_contract F _ _ X B) as (W & HP & _).
  destruct (kexec_NAP2 _ _ _ _ F X B) as [QR _].
  assert (Hpc : c_pc (cli w c) = WaitR buf niov).
  { pose proof (HP c) as Q. rewrite Pd in Q. unfold asleep in A.
    destruct (c_pc (cli w c)) as [ |[| | |] ? ? ?|[| | |] ? ? ?|? ?|? ?| | |?|g0 s0 z0]; cbn [pc_for] in Q; try discriminate A;
      try (destruct Q as (? & Q & ?); discriminate); try (destruct Q as [Q ?]; discriminate).
    injection Q as -> ->. reflexivity. }
  assert (L : c_live (cli w c) = true) by (destruct (c_live (cli w c)) eqn:L; [reflexivity|pose proof (wi_dead _ _ _ W c L); congruence]).
  destruct (wi_cl _ _ _ W c L) as [ms C]. pose proof (ci_pc _ _ _ _ C) as P. unfold pc_ok in P. rewrite Hpc in P. destruct P as (Hr & _).
  destruct (ci_rd _ _ _ _ C Hr) as [(n & s & p & E) _].
  destruct (QR c buf niov n s Hpc) as [Q|Q]; [split; [exact L|exists p; exact E]|exact Hav| |right; exact Q].
  left. exists s. split; [unfold data_sock; rewrite L, E; reflexivity|exact Q].
Qed.
Theorem k_lost_writer r w evs c : kreach steady r w evs -> blocked_msgs w c <> [] ->
  nbytes (ring_unread (w_ring w)) + nbytes (blocked_msgs w c) <= r_n (w_ring w) ->
  zlen (ring_unread (w_ring w)) + zlen (blocked_msgs w c) <= r_mm (w_ring w) ->
  (exists s, space_sock w c = Some s /\ readable w s) \/ robbed evs.
Proof.
  intros R HB0 R1 R2. pose proof R as (fsz & F & X & B). destruct (kexec_inv steady r fsz steady_contract F _ _ X B) as (W & HP & _).
  destruct (kexec_NAP2 _ _ _ _ F X B) as [_ QW].
  assert (KC : kexec contract (world0 r fsz) w evs) by (apply (kexec_mono steady); [exact steady_contract|exact X]).
  pose proof (kexec_sleepW _ _ _ _ F KC B c) as SW. unfold sleepW in SW. unfold blocked_msgs in *.
  destruct (c_pc (cli w c)) as [ |? ? ? ?|k iov len nb|? ?|? ?| | |?|g0 s0 z0] eqn:Hpc; try contradiction.
  destruct SW as (_ & _ & n & s & p & E).
  assert (L : c_live (cli w c) = true) by (destruct (c_live (cli w c)) eqn:L; [reflexivity|pose proof (wi_dead _ _ _ W c L); congruence]).
  assert (RM : room (r_n (w_ring w)) (r_mm (w_ring w)) iov (ring_unread (w_ring w)) = true) by (apply room_iff; auto).
  destruct (QW c k iov len nb n s Hpc) as [Q|Q]; [split; [exact L|exists p; exact E]|exact RM| |right; exact Q].
  left. exists s. split; [unfold space_sock; rewrite L, E; reflexivity|exact Q].
Qed.
