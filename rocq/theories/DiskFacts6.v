(** * Facts about Disk.v, continued: the power fails during shr_write (C84) *)
From Verif Require Import MicroFacts Crash Effects Final Pending PollFacts StepInv WorldFacts FineStep FineSect RingFacts QueueFacts KillFacts.
From Verif Require Export DiskFacts5.

(** ** the lines of shr_writev when nothing is dropped *)
Definition lge {S A} (p : prog S A) : Prop := forall s l s', dies_at p s l s' -> 929 <= l.
Lemma lge_ret {S A} (x : A) : lge (@Ret S A x).
Proof. intros s l s' D. apply dies_ret in D. contradiction. Qed.
Lemma lge_at {S A} line (f : S -> outcome (S * prog S A)) : 929 <= line -> (forall s s' p', f s = Ok (s', p') -> lge p') -> lge (At line f).
Proof. intros L H s l s' D. apply dies_at_inv in D. destruct D as [[-> _]|(s1 & p1 & E & D)]; [exact L|exact (H _ _ _ E _ _ _ D)]. Qed.
Ltac lstep := apply lge_at; [lia|]; let E := fresh "E" in intros ? ? ? E; cbn [obind] in E;
  repeat match type of E with
  | (if ?b then _ else _) = Ok _ => destruct b; try discriminate E
  | obind _ _ = Ok _ => apply obind_ok in E; let y := fresh "y" in destruct E as (y & ? & E); cbn [obind] in E
  | (let '(_, _) := ?x in _) = Ok _ => destruct x
  end; try discriminate E; apply ok_pair in E; destruct E as [<- <-].
Lemma lge_evict {R} smm len niov n i (k : Z -> Z -> Z -> prog ring R) : (forall e a mp, lge (k e a mp)) ->
  forall mp e a, lge (evict_p smm len mp n niov i e a k).
Proof. intros K. induction mp as [|mp IH]; intros e a; cbn [evict_p]; [apply K|]. lstep; first [apply K|apply IH]. Qed.
Lemma lge_bytes {R} line (k : prog ring R) : 929 <= line -> lge k -> forall bs pos, lge (bytes_p line pos bs k).
Proof. intros L K. induction bs as [|x t IH]; intros pos; cbn [bytes_p]; [exact K|]. lstep. apply IH. Qed.
Lemma lge_copy {R} (k : prog ring R) : lge k -> forall iov p, lge (copy_p iov p k).
Proof.
  intros K. induction iov as [|b t IH]; intros p; cbn [copy_p]; [exact K|]. cbv zeta. do 3 lstep; (apply lge_bytes; [lia|]; apply lge_bytes; [lia|]); lstep; apply IH.
Qed.
Lemma lge_commit smm iov len : lge (commit_p smm iov len false).
Proof. unfold commit_p. cbv zeta. lstep. apply lge_evict. intros e a mp. do 4 lstep. apply lge_copy. do 4 lstep. apply lge_ret. Qed.
Lemma write_lines smm iov len r l s : r_drop r = false -> dies_at (write_p smm iov len false) r l s -> 929 <= l.
Proof.
  intros ND D. apply dies_at_inv in D. destruct D as [[-> _]|(s1 & p1 & E & D)]; [lia|]. rewrite ND in E.
  destruct (wr_space _ _ _); apply ok_pair in E; destruct E as [<- <-]; [exact (lge_commit _ _ _ _ _ _ D)|apply dies_ret in D; contradiction].
Qed.

(** ** what stays in place *)
Definition keeps (r : ring) (h iov : list bytes) (s : ring) : Prop :=
  r_r s = r_r r /\ (r_m s = r_m r /\ ring_unread s = ring_unread r \/ r_m s = r_m r + zlen iov /\ ring_unread s = ring_unread r ++ iov)
  /\ (forall k, zlen h - r_m r <= k < zlen h -> znth slot0 (r_mv s) (k mod r_mm r) = mkslot (start h k mod r_n r) (zlen (hmsg h k)))
  /\ (forall b, start h (zlen h - r_m r) <= b < zlen (concat h) -> znth 0 (r_d s) (b mod r_n r) = znth 0 (concat h) b).
Lemma keeps_inv0 r h iov s s0 hh : Inv0 r h -> agree s s0 -> Inv0 s0 hh -> same_fixed r s0 ->
  (hh = h /\ r_m s0 = r_m r \/ hh = h ++ iov /\ r_m s0 = r_m r + zlen iov) -> keeps r h iov s.
Proof.
  intros I A I0 (_ & Fn & Fm & _) H. pose proof (unread_agree _ _ A) as EU. destruct A as (_ & A2 & A3 & A4 & A5 & A6 & A7).
  pose proof (i_win _ _ I) as W. pose proof (i_win _ _ I0) as W0. pose proof (i_m _ _ I) as M. pose proof (i_m _ _ I0) as M0.
  pose proof (w_old _ _ _ W) as O. pose proof (w_old _ _ _ W0) as O0.
  assert (L : zlen hh - r_m s0 = zlen h - r_m r) by (destruct H as [[-> E]|[-> E]]; [lia|rewrite zlen_app; lia]).
  assert (X : exists t, hh = h ++ t) by (destruct H as [[-> _]|[-> _]]; [exists []; rewrite app_nil_r; reflexivity|eauto]). destruct X as [t X].
  assert (Zh : zlen hh = zlen h + zlen t) by (rewrite X; apply zlen_app). pose proof (zlen_nonneg t) as Zt.
  split; [rewrite A6, (i_r _ _ I0), (i_r _ _ I), L, Fm; reflexivity|]. split; [|split].
  - rewrite EU, A7. rewrite (unread_eq _ _ I0), (unread_eq _ _ I). destruct H as [[-> E]|[-> E]]; [left|right]; (split; [exact E|]); rewrite E; [reflexivity|]. apply lastn_app. lia.
  - intros k Hk. rewrite A5, <- Fm, <- Fn. rewrite (w_slot _ _ _ W0) by lia. rewrite X, start_app, hmsg_app1 by lia. reflexivity.
  - intros b Hb. rewrite A4, <- Fn. rewrite (w_data _ _ _ W0).
    + rewrite X, concat_app, znth_app1 by (pose proof (start_nonneg h (zlen h - r_m r)); lia). reflexivity.
    + assert (start hh (zlen hh - r_mp s0) <= start h (zlen h - r_m r)).
      { rewrite <- L. rewrite <- (start_app h t (zlen hh - r_m s0)) by lia. rewrite <- X. apply start_mono; lia. }
      pose proof (zlen_nonneg (concat t)). assert (zlen (concat hh) = zlen (concat h) + zlen (concat t)) by (rewrite X, concat_app, zlen_app; reflexivity). lia.
Qed.
Lemma keeps_stat r h iov s st : keeps r h iov s -> keeps r h iov (s <| r_stat := st |>).
Proof. unfold keeps. rewrite (unread_agree (s <| r_stat := st |>) s) by (repeat split). intros H. exact H. Qed.
Lemma writer_dies r h iov l s : Inv r h -> iov_ok (r_n r) (r_mm r) iov -> r_drop r = false -> dies_at (write_p (r_mm r) iov (nbytes iov) false) r l s -> keeps r h iov s.
Proof.
  intros I Hi ND D. pose proof (write_lines _ _ _ _ _ _ ND D) as L. pose proof (i_inv0 _ _ I) as I0.
  destruct (always_dies _ _ _ _ _ D (write_always r h iov false I Hi) ltac:(lia) ltac:(lia)) as (s0 & hh & A & _ & Is & SF & HH & U & _ & R).
  apply (keeps_inv0 r h iov s s0 hh I0 A Is SF). rewrite ND in R. unfold unread_at in U.
  assert (Zu : zlen (ring_unread s) = r_m s0).
  { rewrite (unread_agree _ _ A), (unread_eq _ _ Is). apply zlen_lastn. pose proof (i_m _ _ Is). pose proof (w_old _ _ _ (i_win _ _ Is)). lia. }
  assert (Zr : zlen (ring_unread r) = r_m r).
  { rewrite (unread_eq _ _ I0). apply zlen_lastn. pose proof (i_m _ _ I0). pose proof (w_old _ _ _ (i_win _ _ I0)). lia. }
  destruct (Z.eqb_spec l 929) as [->|N]; [cbn [orb] in U; left; split; [destruct HH as [[-> _]|[_ HH]]; [reflexivity|lia]|congruence]|].
  destruct R as [R|[R|[R|R]]]; try lia; try discriminate R. rewrite (fit_room _ _ _ _ R) in U. destruct (Z.leb_spec l 662); [lia|]. cbn [orb] in U.
  destruct (Z.ltb_spec l 1004), HH as [[-> HH]|[-> HH]]; try lia; [left|right]; (split; [reflexivity|]); rewrite <- Zu, U, ?zlen_app; lia.
Qed.
Lemma writer_points w0 w evs c e k iov len nb m : WI w0 w evs -> c_live (cli w c) = true -> c_pc (cli w c) = RunW k iov len nb -> r_drop (w_ring w) = false ->
  point (section e (cli w c)) (shared w) m -> keeps (w_ring w) (committed evs) iov (sh_ring m).
Proof.
  intros W Hl Ep ND P. pose proof (wi_ring _ _ _ W) as I. destruct (wi_cl _ _ _ W c Hl) as [ms C]. pose proof (i_inv0 _ _ I) as I0.
  pose proof (ci_pc _ _ _ _ C) as Q. unfold pc_ok in Q. rewrite Ep in Q. destruct Q as (Hw & Hi & -> & _).
  assert (SELF : keeps (w_ring w) (committed evs) iov (w_ring w)).
  { apply (keeps_inv0 _ _ _ _ (w_ring w) (committed evs)); auto; [apply agree_refl|apply same_fixed_refl]. }
  unfold section in P. rewrite Ep, (ci_mm _ _ _ _ C) in P. destruct (e_lock e); cbn [negb] in P.
  2:{ destruct P as [[l D]|[x X]]; [apply dies_ret in D; contradiction|injection X as <- _; exact SELF]. }
  destruct (ring_write_ok (w_ring w) _ iov I Hi) as [WA WB].
  destruct P as [[l D]|[x X]].
  - apply dies_bind in D. destruct D as [D|(m1 & stored & E & D)].
    { apply dies_ring in D. destruct D as (s & D & ->). cbn [put_ring sh_ring shared] in *. eapply writer_dies; eassumption. }
    rewrite exec_ring in E. cbn [shared sh_ring] in E. destruct (room (r_n (w_ring w)) (r_mm (w_ring w)) iov (ring_unread (w_ring w))) eqn:Er.
    2:{ rewrite (write_exec _ _ _ false _ _ (WA ND eq_refl)) in E. cbn [obind] in E. apply ok_pair in E. destruct E as [<- <-]. apply dies_ret in D. contradiction. }
    destruct (WB (or_intror eq_refl)) as (r' & E' & I' & SF & U & _). rewrite (write_exec _ _ _ false _ _ E') in E. cbn [obind] in E. apply ok_pair in E. destruct E as [<- <-].
    assert (K : forall st, keeps (w_ring w) (committed evs) iov (r' <| r_stat := st |>)).
    { intros st. apply keeps_stat. apply (keeps_inv0 _ _ _ _ r' (committed evs ++ iov)); auto; [apply agree_refl|exact (i_inv0 _ _ I')|]. right. split; [reflexivity|].
      rewrite (fit_room _ _ _ _ Er) in U. pose proof (f_equal zlen U) as ZU. rewrite (unread_eq _ _ I0), (unread_eq _ _ (i_inv0 _ _ I')), zlen_app, !zlen_lastn in ZU; [exact ZU|..];
        [pose proof (i_m _ _ I0); pose proof (w_old _ _ _ (i_win _ _ I0))|pose proof (i_m _ _ (i_inv0 _ _ I')); pose proof (w_old _ _ _ (i_win _ _ (i_inv0 _ _ I')))]; lia. }
    assert (K0 : keeps (w_ring w) (committed evs) iov r') by (generalize (K (r_stat r')); destruct r'; exact (fun H => H)).
    destruct (c_w2r (cli w c)) as [h|].
    2:{ apply dies_at_inv in D. destruct D as [[-> ->]|(? & ? & E & _)]; [exact K0|discriminate E]. }
    apply dies_bind in D. destruct D as [D|(m2 & x & E & D)]; [rewrite (bw_ring_dies _ _ _ _ _ D); exact K0|].
    pose proof (bw_ring_exec _ _ _ _ _ E) as E2. cbn [put_ring sh_ring] in E2.
    destruct (snd x); [|apply dies_ret in D; contradiction].
    apply dies_ring in D. destruct D as (s & D & ->). cbn [put_ring sh_ring]. rewrite E2 in D. unfold wrote_p in D.
    apply dies_at_inv in D. destruct D as [[-> ->]|(s1 & p1 & E3 & D)]; [exact K0|]. apply ok_pair in E3. destruct E3 as [<- <-].
    apply dies_at_inv in D. destruct D as [[-> ->]|(s1 & p1 & E3 & D)]; [apply K|]. apply ok_pair in E3. destruct E3 as [<- <-]. apply dies_ret in D. contradiction.
  - rewrite exec_bind, exec_ring in X. cbn [shared sh_ring] in X. destruct (room (r_n (w_ring w)) (r_mm (w_ring w)) iov (ring_unread (w_ring w))) eqn:Er.
    2:{ rewrite (write_exec _ _ _ false _ _ (WA ND eq_refl)) in X. cbn [obind exec_all] in X. apply ok_pair in X. destruct X as [<- _]. exact SELF. }
    destruct (WB (or_intror eq_refl)) as (r' & E' & I' & SF & U & _). rewrite (write_exec _ _ _ false _ _ E') in X. cbn [obind] in X.
    assert (K : forall st, keeps (w_ring w) (committed evs) iov (r' <| r_stat := st |>)).
    { intros st. apply keeps_stat. apply (keeps_inv0 _ _ _ _ r' (committed evs ++ iov)); auto; [apply agree_refl|exact (i_inv0 _ _ I')|]. right. split; [reflexivity|].
      rewrite (fit_room _ _ _ _ Er) in U. pose proof (f_equal zlen U) as ZU. rewrite (unread_eq _ _ I0), (unread_eq _ _ (i_inv0 _ _ I')), zlen_app, !zlen_lastn in ZU; [exact ZU|..];
        [pose proof (i_m _ _ I0); pose proof (w_old _ _ _ (i_win _ _ I0))|pose proof (i_m _ _ (i_inv0 _ _ I')); pose proof (w_old _ _ _ (i_win _ _ (i_inv0 _ _ I')))]; lia. }
    assert (K0 : keeps (w_ring w) (committed evs) iov r') by (generalize (K (r_stat r')); destruct r'; exact (fun H => H)).
    destruct (c_w2r (cli w c)) as [h|]; [|discriminate X]. rewrite exec_bind in X.
    destruct (exec_all (on_bw true (bw_wake_p e h)) _) as [[m2 y]| | |] eqn:E; cbn [obind] in X; try discriminate X.
    pose proof (bw_ring_exec _ _ _ _ _ E) as E2. cbn [put_ring sh_ring] in E2.
    destruct (snd y); [|apply ok_pair in X; destruct X as [<- _]; rewrite E2; exact K0].
    unfold wrote_p in X. rewrite exec_ring, MicroFacts.exec_at in X. cbn [obind] in X. rewrite MicroFacts.exec_at in X. cbn [obind exec_all] in X. apply ok_pair in X. destruct X as [<- _].
    cbn [put_ring sh_ring]. rewrite E2. apply K.
Qed.
