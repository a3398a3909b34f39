(** * shr_writev, shr_flush, shr_close as calls (C03-C06, C16-C18), and the
    matching of returns with calls. *)
From Verif Require Export ReadCall.

(** ** returns match calls *)
Definition ret_of (x : ret) (k : call) : Prop :=
  match x, k with
  | RetRead _ _ _, CRead _ _ => True
  | RetWrite iov _, CWrite iov' => iov = iov'
  | RetFlush _, CFlush _ => True
  | RetClosed, CClose => True
  | RetStat _ _ _, CStat _ => True
  | RetFarm b _, CFarmStat b' => b = b'
  | RetApp _ _ _, CApp _ _ _ => True
  | RetInt _, CCtl _ => True
  | RetSel _, CSelFd => True
  | _, _ => False
  end.

Lemma go_write_ret cl iov len cl' rs : go_write cl iov len = Ok (cl', rs) ->
  rs = [] \/ exists v, rs = [RetWrite iov v].
Proof.
  unfold go_write.
  destruct (has (c_flags cl) SHR_BUFFERED); [|intros H; inj H; auto].
  destruct (_ && _).
  - intros H. apply obind_ok in H. destruct H as (ca & _ & H). inj H. eauto.
  - destruct (ca_n (c_cache cl) =? 0); [intros H; inj H; auto|].
    intros H. apply obind_ok in H. destruct H as (ms & _ & H).
    destruct (wr_check _ _ _); inj H; eauto.
Qed.
Lemma flush_write_ret cl k nb cl' rs : flush_write cl k nb = Ok (cl', rs) ->
  rs = [] \/ (k <> KClose /\ exists v, rs = [RetFlush v]).
Proof.
  unfold flush_write. intros H. apply obind_ok in H. destruct H as (ms & _ & H).
  destruct (wr_check _ _ _); [inj H; auto|]. destruct k; inj H; auto; right; split; eauto; discriminate.
Qed.
Lemma end_write_ret cl k iov v cl' rs : end_write cl k iov v = Ok (cl', rs) ->
  rs = [] \/ exists x, rs = [x] /\ match k with KDirect => x = RetWrite iov v | KThen iov' _ => exists v, x = RetWrite iov' v
                     | KFlush => x = RetFlush v | KClose => False end.
Proof.
  destruct k; cbn [end_write]; intros H; try (inj H; eauto; fail).
  destruct (v <=? 0); [inj H; right; eauto|]. apply go_write_ret in H. destruct H as [|[v' ->]]; eauto.
Qed.
Lemma start_call_ret cl x cl' rs : start_call cl x = Ok (cl', rs) -> rs = [] \/ exists y, rs = [y] /\ ret_of y x.
Proof.
  destruct x as [buf niov|iov|wait| |reset|reset|get st sz|fd| ]; cbn [start_call]; intros H; try (inj H; eauto).
  - destruct (has _ _); [|discriminate]. destruct (_ || _); inj H; eauto. right. eexists; split; [reflexivity|exact I].
  - unfold start_write in H. destruct (has _ _); [|discriminate].
    destruct (wr_check _ _ _); [apply go_write_ret in H; destruct H as [|[v ->]]; eauto|inj H; right; eexists; split; reflexivity].
    right. eexists; split; reflexivity.
  - unfold start_flush in H. destruct (has _ _); [|discriminate].
    destruct (_ =? _); [inj H; right; eexists; split; [reflexivity|exact I]|].
    destruct (_ && _); [destruct (c_r2w cl)|];
      try (apply flush_write_ret in H; destruct H as [|(_ & v & ->)]; [auto|right; eexists; split; [reflexivity|exact I]]).
    inj H; auto.
  - unfold start_close in H. destruct (_ =? _); [inj H; auto|].
    destruct (has _ SHR_WRONLY); [|discriminate]. apply flush_write_ret in H. destruct H as [|(H & _)]; [auto|congruence].
  - unfold do_farm_stat in H. destruct (has _ _); [|discriminate]. cbn [obind] in H. inj H. right; eexists; split; reflexivity.
  - apply obind_ok in H. destruct H as ([cl1 r] & E & H). inj H. right; eexists; split; [reflexivity|exact I].
  - right; eexists; split; [reflexivity|exact I].
Qed.
Lemma do_app_ret e r get st sz r' x : do_app e r get st sz = Ok (r', x) -> exists a b c, x = RetApp a b c.
Proof.
  intros E. unfold do_app in E. destruct (negb (e_lock e)); [inj E; eauto|].
  destruct (r_app_len r =? 0); [inj E; eauto|].
  destruct get, st; repeat match type of E with
        | (if ?b then _ else _) = _ => destruct b
        | obind _ _ = _ => apply obind_ok in E; destruct E as (? & _ & E) end; inj E; eauto.
Qed.

(** Calls and returns are well bracketed: a return answers the call the
    client is in. *)
Theorem step_bracket w evs a w' ev c x : PI w evs -> step w a = Ok (w', ev) -> In (ERet c x) ev ->
  (exists k, a = ACall c k /\ ret_of x k /\ ev = [ECall c k; ERet c x])
  \/ ((forall k, a <> ACall c k) /\ exists k, pending c evs = Some k /\ ret_of x k).
Proof.
  intros HP HS Hin. apply step_inv in HS.
  assert (IR : forall c' rs, In (ERet c x) (rets c' rs) -> c' = c /\ In x rs).
  { intros c' rs H. unfold rets in H. apply in_map_iff in H. destruct H as (y & E & H). injection E as -> ->. auto. }
  assert (HE : forall c' k iov v cl cl' rs l nb, end_write cl k iov v = Ok (cl', rs) -> c_flags cl = c_flags (cli w c') ->
     pc_for (c_flags (cli w c')) (RunW k iov l nb) (pending c' evs) -> In (ERet c x) (rets c' rs) ->
     exists k, pending c evs = Some k /\ ret_of x k).
  { intros c' k iov v cl cl' rs l nb E EF HPc H. apply IR in H. destruct H as [-> H].
    apply end_write_ret in E. destruct E as [->|(y & -> & Hy)]; [destruct H|]. destruct H as [->|[]].
    destruct k; cbn [pc_for] in HPc.
    - destruct HPc as [-> _]. subst. eexists; split; reflexivity.
    - destruct HPc as [-> _]. destruct Hy as [v' ->]. eexists; split; reflexivity.
    - destruct HPc as (wt & -> & _). subst. eexists; split; [reflexivity|exact I].
    - destruct Hy. }
  destruct HS as
   [ a
   | e flags pid w' E
   | e flags pid w' cl E
   | c' k cl' rs Hl Hpc E
   | c' e k iov len nb v cl' rs Hl Hpc Hv E
   | c' e k iov len n s p Hl Hpc He E Er
   | c' e k iov len nb r1 hw ks bh hw' wok r2 rv cl' rs Hl Hpc He E Ew Eb E2 Ev Ee
   | c' e buf niov Hl Hpc He
   | c' e buf niov q md h ks ok Hl Hpc He Hnb E Eh Ef
   | c' e buf niov q md n s p Hl Hpc He Hnb E Eh
   | c' e buf niov q md x' cur' hr r2w' ks1 bh1 ks2 ok h Hl Hpc He E Eh Er Hn0 Hn1 Ef
   | c' e w' Hl Hpc Hw'
   | c' e ks h b cl' rs Hl Hpc He E Ee
   | c' e Hl Hpc
   | c' e reset r x' Hl Hpc E
   | c' e get st sz r x' Hl Hpc E
   | c' sid polls Hs Hp
   | a c' sc k iov len nb cl' rs Ha Hpc E
   | a c' sc buf niov Ha Hpc
   | c' Hl ]; try (destruct Hin; fail); try (destruct Hin as [Hin|[]]; discriminate); try (pose proof (HP c') as HPc; rewrite Hpc in HPc).
  - destruct Hin as [Hin|Hin]; [discriminate|]. apply IR in Hin. destruct Hin as [-> Hin].
    apply start_call_ret in E. destruct E as [->|(y & -> & Hy)]; [destruct Hin|]. destruct Hin as [->|[]].
    left. exists k. auto.
  - right. split; [discriminate|]. apply (HE c' k iov v _ _ _ len nb E eq_refl HPc Hin).
  - destruct Hin as [Hin|Hin]; [discriminate|]. right. split; [discriminate|]. apply (HE c' k iov rv _ _ _ len nb Ee eq_refl HPc Hin).
  - destruct Hin as [Hin|[]]. injection Hin as -> <-. right. split; [discriminate|]. cbn [pc_for] in HPc. eexists; split; [exact HPc|exact I].
  - destruct Hin as [Hin|[]]. injection Hin as -> <-. right. split; [discriminate|]. cbn [pc_for] in HPc. eexists; split; [exact HPc|exact I].
  - destruct Hin as [Hin|[]]. injection Hin as -> <-. right. split; [discriminate|]. cbn [pc_for] in HPc. eexists; split; [exact HPc|exact I].
  - destruct Hin as [Hin|[]]. injection Hin as -> <-. right. split; [discriminate|]. destruct HPc as [HPc _]. eexists; split; [exact HPc|exact I].
  - right. split; [discriminate|]. apply IR in Hin. destruct Hin as [-> Hin].
    apply flush_write_ret in Ee. destruct Ee as [->|(_ & v & ->)]; [destruct Hin|]. destruct Hin as [<-|[]].
    destruct HPc as [HPc _]. eexists; split; [exact HPc|exact I].
  - destruct Hin as [Hin|[]]. injection Hin as -> <-. right. split; [discriminate|]. cbn [pc_for] in HPc. eexists; split; [exact HPc|exact I].
  - destruct Hin as [Hin|[]]. injection Hin as -> <-. right. split; [discriminate|]. cbn [pc_for] in HPc. eexists; split; [exact HPc|].
    unfold do_stat in E. destruct (negb (e_lock e)); inj E; exact I.
  - destruct Hin as [Hin|[]]. injection Hin as -> <-. right. split; [discriminate|]. cbn [pc_for] in HPc. eexists; split; [exact HPc|].
    apply do_app_ret in E. destruct E as (? & ? & ? & ->). exact I.
  - right. split; [destruct Ha as [[-> _]|[[fd ->] _]]; discriminate|]. apply (HE c' k iov sc _ _ _ len nb E eq_refl HPc Hin).
  - right. split; [destruct Ha as [[-> _]|[[fd ->] _]]; discriminate|]. destruct Hin as [Hin|[]]. injection Hin as -> <-.
    cbn [pc_for] in HPc. eexists; split; [exact HPc|exact I].
Qed.

(** ** one pass of the write loop under the lock *)
Lemma write_crit w0 w evs c e k iov len nb w' ev :
  WI w0 w evs -> c_live (cli w c) = true -> c_pc (cli w c) = RunW k iov len nb ->
  step w (ARun c e) = Ok (w', ev) -> e_lock e = true ->
  let r := w_ring w in
  iov_ok (r_n r) (r_mm r) iov /\ len = nbytes iov /\
  ((r_drop r = false /\ room (r_n r) (r_mm r) iov (ring_unread r) = false /\ w_ring w' = r
    /\ (if nb then exists cl' rs, end_write (cli w c) k iov 0 = Ok (cl', rs) /\ ev = rets c rs /\ cli w' c = cl'
                              /\ w_cl w' = set_nat (w_cl w) c cl'
        else ev = [] /\ asleep w' c = true /\ cli w' c = (cli w c) <| c_pc := WaitW k iov len false |>))
   \/ ((r_drop r = true \/ room (r_n r) (r_mm r) iov (ring_unread r) = true)
    /\ ring_unread (w_ring w') = fit_suffix (r_n r) (r_mm r) iov (ring_unread r) ++ iov
    /\ ring_retained (w_ring w') = fit_suffix (r_n r) (r_mm r) iov (ring_retained r) ++ iov
    /\ exists hw' cl' rs v, end_write ((cli w c) <| c_w2r := Some hw' |>) k iov v = Ok (cl', rs)
         /\ ev = ECommit c iov :: rets c rs /\ cli w' c = cl'
         /\ (v = nbytes iov \/ v = -1)
         /\ (good_sockets (w_ks w) e -> e_msync e = true -> v = nbytes iov))).
Proof.
  intros W Hl Hpc HS He r. pose proof (wi_ring _ _ _ W) as I.
  destruct (wi_cl _ _ _ W c Hl) as [ms C]. pose proof (ci_pc _ _ _ _ C) as P. unfold pc_ok in P. rewrite Hpc in P.
  destruct P as (Hw & Hi & -> & Hk & Hb). split; [exact Hi|]. split; [reflexivity|].
  pose proof (live_bound _ _ Hl) as LB.
  assert (SAME : forall w1 cl1, w_cl w1 = w_cl w -> cli (setc w1 c cl1) c = cl1).
  { intros w1 cl1 E. apply cli_setc_same. rewrite E. exact LB. }
  destruct (ring_write_ok _ _ iov I Hi) as [A B]. fold r in A, B.
  cbn [step] in HS. rewrite Hl in HS. unfold run_client in HS. rewrite Hpc in HS. unfold crit_write in HS.
  rewrite He in HS. cbn [negb] in HS. rewrite (ci_mm _ _ _ _ C) in HS. fold r in HS.
  assert (DEC : (r_drop r = false /\ room (r_n r) (r_mm r) iov (ring_unread r) = false)
     \/ (r_drop r = true \/ room (r_n r) (r_mm r) iov (ring_unread r) = true)).
  { destruct (r_drop r), (room _ _ _ _); auto. }
  destruct DEC as [[D1 D2]|D].
  - left. split; [exact D1|]. split; [exact D2|]. rewrite (A D1 D2) in HS. cbn [obind] in HS. destruct nb.
    + cbn [obind] in HS. apply obind_ok in HS. destruct HS as ([cl' rs] & E & HS). inj HS. split; [reflexivity|].
      exists cl', rs. split; [exact E|]. split; [reflexivity|]. split; [apply SAME|]; reflexivity.
    + destruct (Hb eq_refl D1) as (n & s & p & Er). rewrite Er in HS. cbn [obind] in HS. inj HS. split; [reflexivity|].
      split; [reflexivity|]. unfold asleep. rewrite SAME by reflexivity. split; reflexivity.
  - right. split; [exact D|]. destruct (B D) as (r' & E' & I' & S' & U & RT & dropped & DD & _ & ST).
    rewrite E' in HS. cbn [obind] in HS. destruct (ci_wr _ _ _ _ C Hw) as [(sq & cs & Ewr) _]. rewrite Ewr in HS.
    apply obind_ok in HS. destruct HS as (res & E & HS). apply obind_ok in E. destruct E as ([[[ks bh] hw'] wok] & Eb & E).
    assert (G : good_sockets (w_ks w) e -> wok = true) by (intros G; apply (bw_wake_good _ _ _ _ _ _ _ _ G Eb)).
    destruct wok.
    + inj E. apply obind_ok in HS. destruct HS as ([cl' rs] & E & HS). inj HS. cbn [w_ring setc set].
      split; [rewrite <- U; apply unread_ext; reflexivity|]. split; [rewrite <- RT; apply retained_ext; reflexivity|].
      exists hw', cl', rs. eexists. split; [exact E|]. split; [reflexivity|]. split; [apply SAME; reflexivity|].
      split; [destruct (shr_sync _ _); auto|]. intros _ Hm. unfold shr_sync. rewrite Hm, orb_true_r. reflexivity.
    + inj E. apply obind_ok in HS. destruct HS as ([cl' rs] & E & HS). inj HS. cbn [w_ring setc set].
      split; [exact U|]. split; [exact RT|].
      exists hw', cl', rs. eexists. split; [exact E|]. split; [reflexivity|]. split; [apply SAME; reflexivity|].
      split; [auto|]. intros Gd. specialize (G Gd). discriminate.
Qed.
