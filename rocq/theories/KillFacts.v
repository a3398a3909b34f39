(** * What a killed process leaves in the ring (proofs about Kill.v) *)
From Verif Require Import MicroFacts Crash ReadCall Effects Final Trace Pending.
From Verif Require Export Kill TraceSpec.

(** ** programs in sequence, and on a part of the state *)
Lemma exec_bind {S A B} (p : prog S A) (k : A -> prog S B) : forall s,
  exec_all (bindp p k) s = do (s1, x) <- exec_all p s; exec_all (k x) s1.
Proof.
  revert p k. fix IH 1. destruct p as [x|l f]; intros k s; cbn [bindp exec_all obind]; [reflexivity|].
  destruct (f s) as [[s' p']| | |]; try reflexivity. apply IH.
Qed.
Lemma dies_ret {S A} (x : A) (s : S) l s' : ~ dies_at (Ret x) s l s'.
Proof. intros H. inversion H. Qed.
Lemma dies_at_inv {S R} line (f : S -> outcome (S * prog S R)) s l s' : dies_at (At line f) s l s' ->
  (l = line /\ s' = s) \/ exists s1 p1, f s = Ok (s1, p1) /\ dies_at p1 s1 l s'.
Proof. intros H. inversion H; subst; [left; auto|right; eauto]. Qed.
Lemma dies_bind {S A B} (p : prog S A) (k : A -> prog S B) : forall s l s', dies_at (bindp p k) s l s' ->
  dies_at p s l s' \/ exists s1 x, exec_all p s = Ok (s1, x) /\ dies_at (k x) s1 l s'.
Proof.
  revert p k. fix IH 1. destruct p as [x|ln f]; intros k s l s' D; cbn [bindp] in D.
  - right. exists s, x. split; [reflexivity|exact D].
  - apply dies_at_inv in D. destruct D as [[-> ->]|(s1 & p1 & E & D)]; [left; constructor|].
    destruct (f s) as [[s2 p2]| | |] eqn:Ef; try discriminate E. injection E as <- <-.
    destruct (IH p2 k _ _ _ D) as [D1|(s3 & x & E3 & D3)]; [left; econstructor; eassumption|].
    right. exists s3, x. split; [|exact D3]. cbn [exec_all]. rewrite Ef. exact E3.
Qed.
Section Lift.
Context {S T A : Type} (get : T -> S) (put : T -> S -> T).
Hypothesis gp : forall t s, get (put t s) = s.
Hypothesis pp : forall t s s', put (put t s) s' = put t s'.
Hypothesis pg : forall t, put t (get t) = t.
Lemma exec_lift (p : prog S A) : forall t, exec_all (liftp get put p) t = do (s, x) <- exec_all p (get t); Ok (put t s, x).
Proof.
  revert p. fix IH 1. destruct p as [x|l f]; intros t; cbn [liftp exec_all obind]; [rewrite pg; reflexivity|].
  destruct (f (get t)) as [[s' p']| | |]; try reflexivity. rewrite IH, gp.
  destruct (exec_all p' s') as [[s2 x]| | |]; cbn [obind]; rewrite ?pp; reflexivity.
Qed.
Lemma dies_lift (p : prog S A) : forall t l t', dies_at (liftp get put p) t l t' ->
  exists s', dies_at p (get t) l s' /\ t' = put t s'.
Proof.
  revert p. fix IH 1. destruct p as [x|ln f]; intros t l t' D; cbn [liftp] in D; [apply dies_ret in D; contradiction|].
  apply dies_at_inv in D. destruct D as [[-> ->]|(s1 & p1 & E & D)]; [exists (get t); split; [constructor|rewrite pg; reflexivity]|].
  destruct (f (get t)) as [[s2 p2]| | |] eqn:Ef; try discriminate E. injection E as <- <-.
  destruct (IH p2 _ _ _ D) as (s3 & D3 & ->). rewrite gp in D3. exists s3. split; [econstructor; eassumption|apply pp].
Qed.
End Lift.
Definition put_ring (m : shm) (r : ring) : shm := mksh r (sh_w2r m) (sh_r2w m) (sh_ks m).
Lemma dies_ring {A} (p : prog ring A) m l m' : dies_at (on_ring p) m l m' -> exists s, dies_at p (sh_ring m) l s /\ m' = put_ring m s.
Proof. intros D. apply dies_lift in D; [exact D|reflexivity|reflexivity|destruct t; reflexivity]. Qed.
Lemma exec_ring {A} (p : prog ring A) m : exec_all (on_ring p) m = do (s, x) <- exec_all p (sh_ring m); Ok (put_ring m s, x).
Proof. unfold on_ring. rewrite exec_lift; [reflexivity|reflexivity|reflexivity|destruct t; reflexivity]. Qed.
Lemma bk_gp b t s : get_bk b (put_bk b t s) = s. Proof. destruct b, s; reflexivity. Qed.
Lemma bk_pp b t s s' : put_bk b (put_bk b t s) s' = put_bk b t s'. Proof. destruct b; reflexivity. Qed.
Lemma bk_pg b t : put_bk b t (get_bk b t) = t. Proof. destruct b, t; reflexivity. Qed.
Lemma dies_bw {A} b (p : prog bks A) m l m' : dies_at (on_bw b p) m l m' -> exists s, dies_at p (get_bk b m) l s /\ m' = put_bk b m s.
Proof. intros D. apply dies_lift in D; [exact D|apply bk_gp|apply bk_pp|apply bk_pg]. Qed.
Lemma exec_bw {A} b (p : prog bks A) m : exec_all (on_bw b p) m = do (s, x) <- exec_all p (get_bk b m); Ok (put_bk b m s, x).
Proof. unfold on_bw. rewrite exec_lift; [reflexivity|apply bk_gp|apply bk_pp|apply bk_pg]. Qed.
Lemma ring_bk b m s : sh_ring (put_bk b m s) = sh_ring m.
Proof. destruct b; reflexivity. Qed.

Lemma some_pair {A B} (a a' : A) (b b' : B) : Some (a, b) = Some (a', b') -> a = a'.
Proof. intros E; injection E; auto. Qed.
Lemma ok_pair {A B} (a a' : A) (b b' : B) : Ok (a, b) = Ok (a', b') -> a = a' /\ b = b'.
Proof. intros E; injection E; auto. Qed.
(** ** the lines of lib/bw.c *)
Definition bwl {S A} (p : prog S A) : Prop := forall s l s', dies_at p s l s' -> 10000 <= l.
Lemma bwl_ret {S A} (x : A) : bwl (@Ret S A x).
Proof. intros s l s' D. apply dies_ret in D. contradiction. Qed.
Lemma bwl_at {S A} line (f : S -> outcome (S * prog S A)) : 10000 <= line -> (forall s s' p', f s = Ok (s', p') -> bwl p') -> bwl (At line f).
Proof. intros L H s l s' D. apply dies_at_inv in D. destruct D as [[-> _]|(s1 & p1 & E & D)]; [exact L|exact (H _ _ _ E _ _ _ D)]. Qed.
Lemma bwl_bind {S A B} (p : prog S A) (k : A -> prog S B) : bwl p -> (forall x, bwl (k x)) -> bwl (bindp p k).
Proof. intros Hp Hk s l s' D. apply dies_bind in D. destruct D as [D|(s1 & x & _ & D)]; [exact (Hp _ _ _ D)|exact (Hk _ _ _ _ D)]. Qed.
Ltac bwl1 := match goal with
  | |- bwl (Ret _) => apply bwl_ret
  | |- bwl (At _ _) => apply bwl_at; [lia|intros ? ? ? E; cbv beta zeta in E; try discriminate E]
  | |- bwl (bindp _ _) => apply bwl_bind; [|intros ?]
  | E : Ok _ = Ok _ |- _ => apply ok_pair in E; destruct E as [<- <-]
  | E : (if ?b then _ else _) = Ok _ |- _ => destruct b; try discriminate E
  | E : match ?x with Some _ => _ | None => _ end = Ok _ |- _ => destruct x; try discriminate E
  | |- bwl (if ?b then _ else _) => destruct b
  end.
Lemma bwl_prune e m : forall n, bwl (prune_p e m n).
Proof. induction m as [|m IH]; intros n; cbn [prune_p]; repeat first [bwl1|apply IH]. Qed.
Lemma bwl_sync_p e m : forall n cs, bwl (sync_p e m n cs).
Proof. induction m as [|m IH]; intros n cs; cbn [sync_p]; repeat first [bwl1|apply IH]. Qed.
Lemma bwl_sync e seq cs : bwl (bw_sync_p e seq cs).
Proof. unfold bw_sync_p. repeat first [bwl1|apply bwl_sync_p]. Qed.
Lemma bwl_wake_p e m : forall n cs, bwl (wake_p e m n cs).
Proof. induction m as [|m IH]; intros n cs; cbn [wake_p]; repeat first [bwl1|apply IH]. Qed.
Lemma bwl_wake e w : bwl (bw_wake_p e w).
Proof.
  destruct w as [seq cs|n sid pl]; cbn [bw_wake_p]; [|bwl1].
  apply bwl_bind; [apply bwl_sync|]. intros [[q c] ok]. destruct ok; [|bwl1]. apply bwl_bind; [apply bwl_wake_p|intros; bwl1].
Qed.
Lemma bwl_open_wait e pid name : bwl (bw_open_wait_p e pid name).
Proof. unfold bw_open_wait_p. repeat first [bwl1|apply bwl_prune]. Qed.
Lemma bwl_open_wake e : bwl (bw_open_wake_p e).
Proof.
  unfold bw_open_wake_p. bwl1; [bwl1|]. bwl1; [apply bwl_prune|]. apply bwl_bind; [apply bwl_sync|]. intros [[q c] ok]. bwl1.
Qed.
Lemma bwl_force e w want : bwl (bw_force_p e w want).
Proof. destruct w; cbn [bw_force_p]; repeat bwl1. Qed.
Lemma bwl_close w : bwl (bw_close_p w).
Proof. destruct w; cbn [bw_close_p]; repeat bwl1. Qed.
Lemma bwl_on {A} b (p : prog bks A) : bwl p -> bwl (on_bw b p).
Proof. intros H s l s' D. apply dies_bw in D. destruct D as (x & D & _). exact (H _ _ _ D). Qed.

(** lib/bw.c does not touch the ring *)
Lemma bw_ring_dies {A} b (p : prog bks A) m l m' : dies_at (on_bw b p) m l m' -> sh_ring m' = sh_ring m.
Proof. intros D. apply dies_bw in D. destruct D as (s & _ & ->). apply ring_bk. Qed.
Lemma bw_ring_exec {A} b (p : prog bks A) m m' x : exec_all (on_bw b p) m = Ok (m', x) -> sh_ring m' = sh_ring m.
Proof.
  rewrite exec_bw. destruct (exec_all p (get_bk b m)) as [[s y]| | |]; cbn [obind]; try discriminate. intros E; injection E as <- <-. apply ring_bk.
Qed.

(** ** the end of the write section: at l.1004 the ring is as Ring.v says *)
Fixpoint alwaysp {S R} (P : Z -> S -> prog S R -> Prop) (p : prog S R) (s : S) : Prop :=
  match p with
  | Ret _ => True
  | At l f => P l s p /\ match f s with Ok sp => let '(s', p') := sp in alwaysp P p' s' | _ => True end
  end.
Lemma alwaysp_dies {S R} (P : Z -> S -> prog S R -> Prop) (p : prog S R) s l s' : dies_at p s l s' -> alwaysp P p s ->
  exists p', P l s' p' /\ exec_all p s = exec_all p' s'.
Proof.
  intros D. induction D as [line f s|line f s s1 p1 l s2 E D IH]; cbn [alwaysp]; intros [H1 H2].
  - eauto.
  - rewrite E in H2. destruct (IH H2) as (p' & H3 & H4). exists p'. split; [exact H3|]. cbn [exec_all]. rewrite E. exact H4.
Qed.
Definition final (l : Z) (s : ring) (p : prog ring bool) : Prop := l < 1004 \/ exec_all p s = Ok (s, true).
Definition w_ends (p : prog ring bool) : Prop := forall s, alwaysp final p s.
Lemma ends_ret x : w_ends (Ret x). Proof. intros s. exact Logic.I. Qed.
Lemma ends_at line f : line < 1004 -> (forall s s' p', f s = Ok (s', p') -> w_ends p') -> w_ends (At line f).
Proof.
  intros L H s. cbn [alwaysp]. split; [left; exact L|]. destruct (f s) as [[s' p']| | |] eqn:E; try exact Logic.I. apply (H _ _ _ E).
Qed.
Ltac ends1 := match goal with
  | |- w_ends (Ret _) => apply ends_ret
  | |- w_ends (At _ _) => apply ends_at; [lia|intros ? ? ? E; cbv beta zeta in E]
  | E : Ok _ = Ok _ |- _ => apply ok_pair in E; destruct E as [<- <-]
  | E : (if ?b then _ else _) = Ok _ |- _ => destruct b; try discriminate E
  | E : obind _ _ = Ok _ |- _ => apply obind_ok in E; destruct E as (? & ? & E)
  end.
Lemma drop_loop_ends smm k fuel niov need am ab : (forall i z p, w_ends (k i z p)) -> forall i z p,
  w_ends (drop_loop_p smm fuel niov need am ab i z p k).
Proof. intros HK. induction fuel as [|fuel IH]; intros i z p; cbn [drop_loop_p]; destruct (_ || _); try apply HK; ends1; [discriminate|repeat ends1; apply IH]. Qed.
Lemma evict_ends smm len k n niov i : (forall e a mp, w_ends (k e a mp)) -> forall mp e a, w_ends (evict_p smm len mp n niov i e a k).
Proof. intros HK. induction mp as [|mp IH]; intros e a; cbn [evict_p]; [apply HK|]. repeat ends1; [apply HK|apply IH]. Qed.
Lemma bytes_ends line k : line < 1004 -> w_ends k -> forall bs pos, w_ends (bytes_p line pos bs k).
Proof. intros L HK. induction bs as [|b bs IH]; intros pos; cbn [bytes_p]; [exact HK|]. ends1. ends1. ends1. apply IH. Qed.
Lemma copy_ends k : w_ends k -> forall iov p, w_ends (copy_p iov p k).
Proof.
  intros HK. induction iov as [|b t IH]; intros p; cbn [copy_p]; [exact HK|].
  repeat ends1; (apply bytes_ends; [lia|]; apply bytes_ends; [lia|]; repeat ends1; apply IH).
Qed.
Lemma commit_ends smm iov len : w_ends (commit_p smm iov len false).
Proof.
  unfold commit_p. ends1. repeat ends1. apply evict_ends. intros e a mp. repeat ends1. apply copy_ends.
  repeat ends1. intros z. cbn [alwaysp]. split; [right; reflexivity|exact Logic.I].
Qed.
Lemma write_ends smm iov len : w_ends (write_p smm iov len false).
Proof.
  unfold write_p. ends1. repeat ends1; [apply commit_ends|]. unfold drop_p. repeat ends1.
  apply drop_loop_ends. intros. repeat ends1. apply commit_ends.
Qed.
Lemma write_final smm iov len r l s o : dies_at (write_p smm iov len false) r l s -> 1004 <= l -> ring_write r smm iov len = Ok o -> o = Some s.
Proof.
  intros D L E. destruct (alwaysp_dies _ _ _ _ _ D (write_ends smm iov len r)) as (p' & [F|F] & X); [lia|].
  rewrite (write_exec _ _ _ false _ _ E), F in X. destruct o; congruence.
Qed.

(** ** what is left of the ring *)
Lemma abs_eq s h : Inv0 s h -> abs s = mkaq (r_n s) (r_mm s) (r_drop s) (r_farm s) (u64 (zlen h - r_mp s)) (lastn (r_mp s) h) (lastn (r_m s) h).
Proof. intros I. unfold abs. rewrite (retained_eq _ _ I), (unread_eq _ _ I), (i_q _ _ I). reflexivity. Qed.
Lemma zlen_fit n mm iov : forall l, 0 <= zlen l - zlen (fit_suffix n mm iov l).
Proof.
  induction l as [|x t IH]; cbn [fit_suffix]; destruct (room _ _ _ _); rewrite ?zlen_cons; try lia.
Qed.

Definition w_left (r : ring) (h iov : list bytes) (line : Z) (s : ring) : Prop :=
  (line < 1004 /\ Inv s h /\ same_fixed r s
   /\ (abs s = abs r \/ (room (r_n r) (r_mm r) iov (ring_unread r) || r_drop r = true
                         /\ (abs s = discarded (abs r) iov \/ abs s = evicted (abs r) iov))))
  \/ (1004 <= line /\ exists r' st, ring_write r (r_mm r) iov (nbytes iov) = Ok (Some r') /\ s = r' <| r_stat := st |>).

Lemma write_left r h iov line s : Inv r h -> iov_ok (r_n r) (r_mm r) iov ->
  dies_at (write_p (r_mm r) iov (nbytes iov) false) r line s -> torn r s line = false -> w_left r h iov line s.
Proof.
  intros I Hi D T. pose proof (i_inv0 _ _ I) as I0.
  pose proof (always_dies _ _ _ _ _ D (write_always r h iov false I Hi)) as L.
  assert (N1 : line <> 663) by (intros ->; discriminate T). assert (N2 : line <> 664) by (intros ->; discriminate T).
  destruct (L N1 N2) as (s0 & hh & _ & X & Is0 & SF & HH & U & MP & RM). destruct (X T) as [<- Is].
  destruct (ring_write_ok r h iov I Hi) as [WA WB].
  destruct (Z_lt_ge_dec line 1004) as [Hl|Hl].
  - left. split; [exact Hl|]. destruct HH as [[-> _]|[_ ?]]; [|lia]. split; [exact Is|]. split; [exact SF|].
    pose proof SF as (_ & En & Emm & _). pose proof (same_fixed_farm _ _ SF) as Ef. pose proof (same_fixed_drop _ _ SF) as Ed.
    rewrite (abs_eq s h (i_inv0 _ _ Is)), En, Emm, Ef, Ed, <- (unread_eq _ _ (i_inv0 _ _ Is)), U. unfold unread_at.
    pose proof (w_old _ _ _ (i_win _ _ I0)) as Ho. pose proof (i_m _ _ I0) as Hm.
    pose proof (w_old _ _ _ (i_win _ _ (i_inv0 _ _ Is))) as Ho'.
    destruct ((line =? 929) || (line <=? 662)) eqn:E9.
    + left. assert (r_mp s = r_mp r).
      { destruct (MP Hl) as [G|(G1 & G2 & _)]; [exact G|]. destruct (Z.eqb_spec line 929), (Z.leb_spec line 662); try discriminate E9; lia. }
      rewrite (abs_eq r h I0), (unread_eq _ _ I0). congruence.
    + right. apply orb_false_iff in E9. destruct E9 as [E9 E6]. apply Z.eqb_neq in E9. apply Z.leb_gt in E6.
      destruct (Z.ltb_spec line 1004); [|lia]. split; [destruct RM as [?|[?|[-> | ->]]]; try lia; rewrite ?orb_true_r; reflexivity|].
      destruct (MP Hl) as [G|(_ & _ & G)].
      * left. rewrite (abs_eq r h I0). unfold discarded. cbn [q_n q_mm q_drop q_farm q_seq q_kept q_unread]. rewrite G, (unread_eq _ _ I0). reflexivity.
      * right. rewrite (abs_eq r h I0). unfold evicted. cbn [q_n q_mm q_drop q_farm q_seq q_kept q_unread]. rewrite <- G, (unread_eq _ _ I0).
        rewrite !zlen_lastn, u64_add_l by lia. do 2 f_equal. lia.
  - right. split; [lia|].
    assert (HD : r_drop r = true \/ room (r_n r) (r_mm r) iov (ring_unread r) = true).
    { destruct RM as [?|[?|[?|?]]]; try lia; auto. }
    destruct (WB HD) as (r' & E & _). pose proof (write_final _ _ _ _ _ _ _ D ltac:(lia) E) as F. injection F as ->.
    exists s, (r_stat s). split; [exact E|]. destruct s; reflexivity.
Qed.

Definition r_left (r : ring) (h : list bytes) (buf : bytes) (niov : Z) (s : ring) : Prop :=
  Inv s h /\ same_fixed r s
  /\ (abs s = abs r \/ (r_farm r = false /\ exists j, (j <= length (take_fit (Z.to_nat niov) (usable buf) (ring_unread r)))%nat
                                             /\ abs s = taken_by (abs r) j)).
Lemma skipn_lastn (h : list bytes) j m : 0 <= j <= m -> m <= zlen h -> skipn (Z.to_nat j) (lastn m h) = lastn (m - j) h.
Proof. intros Hj Hm. unfold lastn. rewrite skipn_skipn. f_equal. lia. Qed.
Lemma read_left r h q md buf niov line s : Inv r h -> 0 < zlen buf -> 0 < niov ->
  dies_at (read_p q md buf niov) r line s -> torn_read line = false -> r_left r h buf niov s.
Proof.
  intros I Hb Hn D T. pose proof (i_inv0 _ _ I) as I0.
  pose proof (always_dies _ _ _ _ _ D (read_always r h q md buf niov I Hb ltac:(lia)) T) as (Is & SF & Mp & Mf & Mm).
  split; [exact Is|]. split; [exact SF|].
  pose proof SF as (_ & En & Emm & _). pose proof (same_fixed_farm _ _ SF) as Ef. pose proof (same_fixed_drop _ _ SF) as Ed.
  pose proof (w_old _ _ _ (i_win _ _ I0)) as Ho. pose proof (i_m _ _ I0) as Hm. pose proof (i_m _ _ (i_inv0 _ _ Is)) as Hm'.
  rewrite (abs_eq s h (i_inv0 _ _ Is)), (abs_eq r h I0), En, Emm, Ef, Ed, Mp.
  destruct (r_farm r) eqn:Hf; [left; rewrite Mf by reflexivity; reflexivity|]. right. split; [reflexivity|].
  exists (Z.to_nat (r_m r - r_m s)). split; [unfold zlen in Mm; lia|]. unfold taken_by. cbn [q_n q_mm q_drop q_farm q_seq q_kept q_unread].
  rewrite skipn_lastn by lia. do 2 f_equal. lia.
Qed.
Lemma read_done r h q md buf niov s x : Inv r h -> (r_farm r = true -> zlen h < W64) -> qok r h q -> 0 < zlen buf -> 0 < niov ->
  exec_all (read_p q md buf niov) r = Ok (s, x) -> r_left r h buf niov s.
Proof.
  intros I HB Hq Hb Hn E. pose proof (read_aq r h q md buf niov I HB Hq Hb Hn) as RA.
  destruct (ring_read_ok r h q md buf niov I Hq Hb Hn) as [R1 R2].
  destruct (ring_read r q md buf niov) as [[[q' md'] o]| | |] eqn:ER.
  2-4: destruct (list_eq_dec (list_eq_dec Z.eq_dec) (skipn (Z.to_nat (Z.max (rpos r h q) (zlen h - r_mp r))) h) []) as [Z0|NZ];
       [specialize (R1 Z0); discriminate R1|destruct (R2 NZ) as (? & ? & X & _); discriminate X].
  rewrite (read_exec _ _ _ _ _ _ _ _ ER) in E. apply ok_pair in E. destruct E as [<- _].
  destruct o as [[y cur]|].
  2:{ split; [exact I|]. split; [apply same_fixed_refl|]. left; reflexivity. }
  destruct (list_eq_dec (list_eq_dec Z.eq_dec) (skipn (Z.to_nat (Z.max (rpos r h q) (zlen h - r_mp r))) h) []) as [Z0|NZ].
  { specialize (R1 Z0). discriminate R1. }
  destruct (R2 NZ) as (y1 & cur1 & E1 & Iy & SF & _). injection E1 as _ _ <- <-.
  split; [exact Iy|]. split; [exact SF|]. destruct RA as (taken & RA & _).
  cbn [aq_step abs q_n q_mm q_drop q_farm q_seq q_kept q_unread] in RA. destruct ((0 <? zlen buf) && (0 <? niov)); [|discriminate].
  destruct (r_farm r) eqn:Hf.
  - left. destruct (_ && _) in RA; [|discriminate]. apply some_pair in RA. symmetry. exact RA.
  - right. split; [reflexivity|]. exists (length (take_fit (Z.to_nat niov) (usable buf) (ring_unread r))). split; [lia|].
    unfold taken_by. cbn [abs q_n q_mm q_drop q_farm q_seq q_kept q_unread]. apply some_pair in RA. rewrite Hf. symmetry. exact RA.
Qed.

Lemma app_left : forall bs pos r line s, dies_at (app_p pos bs) r line s ->
  exists a, zlen a = zlen (r_app r) /\ s = r <| r_app := a |>.
Proof.
  induction bs as [|b bs IH]; intros pos r line s D; cbn [app_p] in D; [apply dies_ret in D; contradiction|].
  apply dies_at_inv in D. destruct D as [[_ ->]|(s1 & p1 & E & D)]; [exists (r_app r); split; [reflexivity|destruct r; reflexivity]|].
  apply obind_ok in E. destruct E as (a & Ea & E). apply ok_pair in E. destruct E as [<- <-].
  apply zset_inv in Ea. destruct Ea as [_ ->]. destruct (IH _ _ _ _ D) as (a' & Za & ->).
  exists a'. cbn [r_app set] in Za. rewrite zlen_zupd in Za. split; [exact Za|]. destruct r; reflexivity.
Qed.

(** the ring after a kill in the section client [cl] is in *)
Definition left_ring_of (cl : client) (r : ring) (h : list bytes) (line : Z) (s : ring) : Prop :=
  match c_pc cl with
  | RunW _ iov _ _ => w_left r h iov line s
  | RunR buf niov => r_left r h buf niov s
  | _ => exists st a, zlen a = zlen (r_app r) /\ s = r <| r_stat := st |> <| r_app := a |>
  end.
Lemma ring_same r : r = r <| r_stat := r_stat r |> <| r_app := r_app r |>.
Proof. destruct r; reflexivity. Qed.

Lemma section_ring w0 w evs c e line m : WI w0 w evs -> seq_bound (w_ring w) evs -> c_live (cli w c) = true ->
  dies_at (section e (cli w c)) (shared w) line m -> untorn w c m line = true ->
  left_ring_of (cli w c) (w_ring w) (committed evs) line (sh_ring m).
Proof.
  intros W HB Hl D U. pose proof (wi_ring _ _ _ W) as I. destruct (wi_cl _ _ _ W c Hl) as [ms C].
  pose proof (ci_pc _ _ _ _ C) as P. unfold pc_ok in P. unfold section in D. unfold untorn in U. unfold left_ring_of.
  destruct (e_lock e); cbn [negb] in D; [|apply dies_ret in D; contradiction].
  destruct (c_pc (cli w c)) as [ |k iov len nb|k iov len nb|buf niov|buf niov| | |reset|get st sz];
    try (apply dies_ret in D; contradiction).
  - (* writer *)
    destruct P as (Hw & Hi & -> & Hk & _). rewrite (ci_mm _ _ _ _ C) in D. apply dies_bind in D.
    destruct D as [D|(m1 & stored & E & D)].
    { apply dies_ring in D. destruct D as (s & D & ->). cbn [put_ring sh_ring shared] in *. apply write_left; [exact I|exact Hi|exact D|].
      apply negb_true_iff in U. exact U. }
    rewrite exec_ring in E. cbn [shared sh_ring] in E.
    destruct (ring_write_ok (w_ring w) _ iov I Hi) as [WA WB].
    assert (HO : exists o, ring_write (w_ring w) (r_mm (w_ring w)) iov (nbytes iov) = Ok o).
    { destruct (r_drop (w_ring w)); [destruct (WB (or_introl eq_refl)) as (r' & E' & _); eauto|].
      destruct (room (r_n (w_ring w)) (r_mm (w_ring w)) iov (ring_unread (w_ring w))); [destruct (WB (or_intror eq_refl)) as (r' & E' & _); eauto|].
      rewrite WA by reflexivity. eauto. }
    destruct HO as [o HO]. rewrite (write_exec _ _ _ false _ _ HO) in E.
    destruct o as [r'|]; cbn [obind] in E; apply ok_pair in E; destruct E as [<- <-]; [|apply dies_ret in D; contradiction].
    assert (R : forall st, 1004 <= line -> w_left (w_ring w) (committed evs) iov line (r' <| r_stat := st |>)) by (intros st L; right; eauto).
    destruct (c_w2r (cli w c)) as [h|].
    2:{ apply dies_at_inv in D. destruct D as [[-> ->]|(? & ? & E & _)]; [|discriminate E].
        cbn [put_ring sh_ring]. pose proof (R (r_stat r') ltac:(lia)) as G. destruct r'; exact G. }
    apply dies_bind in D. destruct D as [D|(m2 & x & E & D)].
    { rewrite (bw_ring_dies _ _ _ _ _ D). cbn [put_ring sh_ring]. pose proof (bwl_on true _ (bwl_wake e h) _ _ _ D).
      pose proof (R (r_stat r') ltac:(lia)) as G. destruct r'; exact G. }
    pose proof (bw_ring_exec _ _ _ _ _ E) as E2. cbn [put_ring sh_ring] in E2.
    destruct (snd x); [|apply dies_ret in D; contradiction].
    apply dies_ring in D. destruct D as (s & D & ->). cbn [put_ring sh_ring]. rewrite E2 in D. unfold wrote_p in D.
    apply dies_at_inv in D. destruct D as [[-> ->]|(s1 & p1 & E3 & D)]; [pose proof (R (r_stat r') ltac:(lia)) as G; destruct r'; exact G|].
    apply ok_pair in E3. destruct E3 as [<- <-].
    apply dies_at_inv in D. destruct D as [[-> ->]|(s1 & p1 & E3 & D)]; [apply R; lia|].
    apply ok_pair in E3. destruct E3 as [<- <-]. apply dies_ret in D. contradiction.
  - (* reader *)
    destruct P as (Hr & Hb & Hn). pose proof (CI_qok _ _ _ _ C HB) as Hq. apply dies_bind in D.
    destruct D as [D|(m1 & x & E & D)].
    { apply dies_ring in D. destruct D as (s & D & ->). cbn [put_ring sh_ring shared] in *. eapply read_left; [exact I|exact Hb|exact Hn|exact D|].
      apply negb_true_iff in U. exact U. }
    rewrite exec_ring in E. cbn [shared sh_ring] in E.
    destruct (exec_all (read_p _ _ buf niov) (w_ring w)) as [[s y]| | |] eqn:ER; cbn [obind] in E; try discriminate E.
    pose proof (read_done _ _ _ _ _ _ _ _ I HB Hq Hb Hn ER) as L. apply ok_pair in E. destruct E as [<- <-].
    assert (RR : sh_ring m = s); [|rewrite RR; exact L].
    clear - D. set (m0 := put_ring (shared w) s) in *. change s with (sh_ring m0). clearbody m0.
    destruct (snd y) as [[l cur']|]; destruct (c_w2r (cli w c)) as [h|];
      try (apply dies_at_inv in D; destruct D as [[_ ->]|(? & ? & E & _)]; [reflexivity|discriminate E]).
    + apply dies_bind in D. destruct D as [D|(m2 & u & E & D)].
      * destruct (rl_nr l >? 0); [|apply dies_ret in D; contradiction].
        destruct (c_r2w (cli w c)) as [h2|]; [|apply dies_at_inv in D; destruct D as [[_ ->]|(? & ? & E & _)]; [reflexivity|discriminate E]].
        apply dies_bind in D. destruct D as [D|(m3 & u & _ & D)]; [apply (bw_ring_dies _ _ _ _ _ D)|apply dies_ret in D; contradiction].
      * assert (E2 : sh_ring m2 = sh_ring m0).
        { destruct (rl_nr l >? 0); [|injection E as <- <-; reflexivity]. destruct (c_r2w (cli w c)) as [h2|]; [|discriminate E].
          rewrite exec_bind in E. destruct (exec_all (on_bw false (bw_wake_p e h2)) m0) as [[m3 v]| | |] eqn:E3; cbn [obind] in E; try discriminate E.
          injection E as <- <-. apply (bw_ring_exec _ _ _ _ _ E3). }
        rewrite <- E2. apply dies_bind in D. destruct D as [D|(m3 & v & _ & D)]; [apply (bw_ring_dies _ _ _ _ _ D)|apply dies_ret in D; contradiction].
    + destruct (has _ _); [|apply dies_ret in D; contradiction].
      apply dies_bind in D. destruct D as [D|(m3 & v & _ & D)]; [apply (bw_ring_dies _ _ _ _ _ D)|apply dies_ret in D; contradiction].
  - (* flush *)
    apply dies_bind in D. destruct D as [D|(m3 & v & _ & D)]; [|apply dies_ret in D; contradiction].
    rewrite (bw_ring_dies _ _ _ _ _ D). exists (r_stat (w_ring w)), (r_app (w_ring w)). split; [reflexivity|apply ring_same].
  - (* close *)
    exists (r_stat (w_ring w)), (r_app (w_ring w)). split; [reflexivity|]. rewrite <- ring_same. change (w_ring w) with (sh_ring (shared w)).
    apply dies_bind in D. destruct D as [D|(m3 & v & E & D)].
    + destruct (c_w2r (cli w c)) as [h|]; [|apply dies_ret in D; contradiction]. apply (bw_ring_dies _ _ _ _ _ D).
    + assert (E2 : sh_ring m3 = sh_ring (shared w)).
      { destruct (c_w2r (cli w c)) as [h|]; [apply (bw_ring_exec _ _ _ _ _ E)|injection E as <- <-; reflexivity]. }
      destruct (c_r2w (cli w c)) as [h|]; [|apply dies_ret in D; contradiction]. rewrite (bw_ring_dies _ _ _ _ _ D). exact E2.
  - (* stat *)
    destruct reset as [t|]; [|apply dies_ret in D; contradiction].
    apply dies_ring in D. destruct D as (s & D & ->). cbn [put_ring sh_ring shared] in *. unfold reset_p in D.
    apply dies_at_inv in D. destruct D as [[-> ->]|(s1 & p1 & E3 & D)]; [eexists _, _; split; [|apply ring_same]; reflexivity|].
    apply ok_pair in E3. destruct E3 as [<- <-].
    apply dies_at_inv in D. destruct D as [[-> ->]|(s1 & p1 & E3 & D)].
    + exists stat0, (r_app (w_ring w)). split; [reflexivity|]. destruct (w_ring w); reflexivity.
    + apply ok_pair in E3. destruct E3 as [<- <-]. apply dies_ret in D. contradiction.
  - (* appdata *)
    apply dies_ring in D. destruct D as (s & D & ->). cbn [put_ring sh_ring shared] in *. unfold setapp_p in D.
    assert (SELF : exists st a, zlen a = zlen (r_app (w_ring w)) /\ w_ring w = w_ring w <| r_stat := st |> <| r_app := a |>)
      by (eexists _, _; split; [|apply ring_same]; reflexivity).
    apply dies_at_inv in D. destruct D as [[-> ->]|(s1 & p1 & E3 & D)]; [exact SELF|].
    assert (A : exists bs, s1 = w_ring w /\ (p1 = Ret tt \/ p1 = app_p 0 bs)).
    { destruct (r_app_len (w_ring w) =? 0); [apply ok_pair in E3; destruct E3 as [<- <-]; exists []; auto|].
      destruct get, st as [sb|]; try (apply ok_pair in E3; destruct E3 as [<- <-]; exists []; auto);
      (destruct (negb (sz =? r_app_len (w_ring w))); [apply ok_pair in E3; destruct E3 as [<- <-]; exists []; auto|];
       apply obind_ok in E3; destruct E3 as (a & _ & E3); apply ok_pair in E3; destruct E3 as [<- <-]; exists a; auto). }
    destruct A as (bs & -> & [-> | ->]); [apply dies_ret in D; contradiction|].
    destruct (app_left _ _ _ _ _ D) as (a & Za & ->). exists (r_stat (w_ring w)), a. split; [exact Za|]. destruct (w_ring w); reflexivity.
Qed.
