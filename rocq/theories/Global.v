(** * Facts about whole executions: order, loss, counters. *)
From Verif Require Export Pending.

Lemma merge_nil_r {A} (a : list A) : merge a [] a.
Proof. induction a; constructor; assumption. Qed.
Lemma merge_app {A} (a b c a' b' c' : list A) : merge a b c -> merge a' b' c' -> merge (a ++ a') (b ++ b') (c ++ c').
Proof. intros H H'. induction H; cbn [app]; [exact H'|constructor; assumption|constructor; assumption]. Qed.
Lemma merge_nil_l {A} (b : list A) : merge [] b b.
Proof. induction b; constructor; assumption. Qed.
Lemma merge_only_l {A} (a c : list A) : merge a [] c -> c = a.
Proof. intros H. remember [] as b eqn:E. induction H; [reflexivity|f_equal; auto|discriminate]. Qed.

Lemma delivered_commit c iov rs : delivered (ECommit c iov :: rets c rs) = delivered (rets c rs).
Proof. reflexivity. Qed.
Lemma committed_commit c iov rs : committed (ECommit c iov :: rets c rs) = iov.
Proof. cbn [committed flat_map]. fold (committed (rets c rs)). rewrite committed_rets, app_nil_r. reflexivity. Qed.
Lemma delivered_1 c x : delivered [ERet c x] = read_msgs x.
Proof. cbn. apply app_nil_r. Qed.

Lemma same_farm_exec (P : world -> action -> Prop) r fsz w evs : WI (world0 r fsz) w evs ->
  r_farm (w_ring w) = r_farm r /\ r_drop (w_ring w) = r_drop r.
Proof. intros W. split; [apply (same_dims_farm _ _ (wi_dims _ _ _ W))|apply (same_dims_drop _ _ (wi_dims _ _ _ W))]. Qed.

(** what entered the ring is what was delivered or dropped, interleaved, then
    what is unread *)
Theorem queue_history (P : world -> action -> Prop) r fsz w evs :
  (forall w a, P w a -> contract w a) -> fresh r fsz -> r_farm r = false ->
  exec P (world0 r fsz) w evs ->
  exists gone dropped, committed evs = gone ++ ring_unread (w_ring w)
    /\ merge (delivered evs) dropped gone /\ (r_drop r = false -> dropped = []).
Proof.
  intros HP F Hf X.
  apply (exec_ind_inv P r fsz (fun w evs => exists gone dropped, committed evs = gone ++ ring_unread (w_ring w)
    /\ merge (delivered evs) dropped gone /\ (r_drop r = false -> dropped = []))); try assumption.
  - exists [], []. cbn [w_ring world0]. pose proof (i_inv0 _ _ (fresh_inv _ _ F)) as I.
    rewrite (unread_eq _ _ I). repeat split; try constructor. unfold lastn. destruct (Z.to_nat _); reflexivity.
  - clear w evs X. intros w evs a w' ev X W PI0 W' HB Pa S _ EF (gone & dropped & E & M & D).
    destruct (same_farm_exec P _ _ _ _ W) as [SF SD]. rewrite Hf in SF.
    destruct EF as [ev r' E1 E2 E3 E4 E5 E6 | c v so t r' E4 E5 E6 E7 E8 E9
      | c iov rs dr wok r' E1 E2 Eg E3 E4 E5 E6 E7 E8 | c v buf iov avail len niov r' E1 E2 E3 taken E4 E5 E6 E7 E8 E9 ].
    + exists gone, dropped. rewrite committed_app, delivered_app, E1, E2, !app_nil_r, E4. auto.
    + exists gone, dropped. rewrite committed_app, delivered_app. cbn [committed delivered flat_map read_msgs app].
      rewrite !app_nil_r, E4. auto.
    + exists (gone ++ dr), (dropped ++ dr).
      rewrite committed_app, delivered_app, committed_commit, delivered_commit, E1, app_nil_r, E6, E.
      rewrite E5 at 1. rewrite !app_assoc. repeat split.
      * rewrite <- (app_nil_r (delivered evs)). apply merge_app; [exact M|apply merge_nil_l].
      * intros Hd. rewrite (D Hd). rewrite Hd in SD. destruct (E4 SD) as [_ ->]. reflexivity.
    + exists (gone ++ taken), dropped.
      rewrite committed_app, delivered_app. cbn [committed flat_map app]. rewrite app_nil_r, delivered_1, E4.
      specialize (E1 SF). subst avail. rewrite SF in E7.
      destruct (take_fit_prefix niov len (ring_unread (w_ring w))) as [rest ER]. fold taken in ER.
      assert (E7' : ring_unread r' = rest).
      { rewrite E7, ER. unfold zlen. rewrite Nat2Z.id, skipn_app, skipn_all, Nat.sub_diag. reflexivity. }
      rewrite E7', E, ER, app_assoc. repeat split; [|exact D].
      rewrite <- (app_nil_r dropped). apply merge_app; [exact M|apply merge_nil_r].
  - intros Hf'. congruence.
Qed.

Theorem fifo_exactly_once (P : world -> action -> Prop) r fsz w evs :
  (forall w a, P w a -> contract w a) -> fresh r fsz -> r_drop r = false ->
  exec P (world0 r fsz) w evs -> committed evs = delivered evs ++ ring_unread (w_ring w).
Proof.
  intros HP F Hd X.
  assert (Hf : r_farm r = false).
  { destruct (r_farm r) eqn:Hf; [|reflexivity]. destruct (i_farm _ _ (fresh_inv _ _ F) Hf) as [_ H]. congruence. }
  destruct (queue_history P r fsz w evs HP F Hf X) as (gone & dropped & E & M & D).
  rewrite (D Hd) in M. apply merge_only_l in M. subst gone. exact E.
Qed.

Lemma app_split {A} (a b pre post : list A) x : a ++ b = pre ++ x :: post ->
  (exists l, a = pre ++ x :: l) \/ (exists l, pre = a ++ l /\ b = l ++ x :: post).
Proof.
  revert pre; induction a as [|y a IH]; intros pre E.
  - right. exists pre. auto.
  - destruct pre as [|z pre]; cbn [app] in E; injection E as -> E.
    + left. exists a. reflexivity.
    + destruct (IH pre E) as [[l ->]|(l & -> & ->)]; [left|right]; exists l; auto.
Qed.

(** every read returns consecutive messages of the history *)
Theorem reads_are_history (P : world -> action -> Prop) r fsz w evs :
  (forall w a, P w a -> contract w a) -> fresh r fsz -> exec P (world0 r fsz) w evs -> seq_bound r evs ->
  forall pre c x post, evs = pre ++ ERet c x :: post -> read_msgs x <> [] ->
  exists before after, committed pre = before ++ read_msgs x ++ after.
Proof.
  intros HP F X HB.
  refine (exec_ind_inv P r fsz (fun w evs => forall pre c x post, evs = pre ++ ERet c x :: post -> read_msgs x <> [] ->
    exists before after, committed pre = before ++ read_msgs x ++ after) HP F _ _ w evs X HB).
  - intros [|? pre] c x post E; discriminate.
  - clear w evs X HB. intros w evs a w' ev X W PI0 W' HB Pa S _ EF IH pre c x post E NE.
    destruct (app_split _ _ _ _ _ E) as [(l & E1)|(l & E1 & E2)].
    + apply (IH pre c x l); assumption.
    + subst pre. destruct EF as [ev r' A1 A2 A3 A4 A5 A6 | c1 v so t r' A4 A5 A6 A7 A8 A9
      | c1 iov rs dr wok r' A1 A2 Ag A3 A4 A5 A6 A7 A8 | c1 v buf iov avail len niov r' A1 A2 A3 taken A4 A5 A6 A7 A8 A9 ].
      * exfalso. rewrite E2, delivered_app in A2. apply app_eq_nil in A2. destruct A2 as [_ A2].
        cbn [delivered flat_map] in A2. apply app_eq_nil in A2. destruct A2 as [A2 _]. exact (NE A2).
      * destruct l as [|e l]; [|destruct l; discriminate]. injection E2 as <- <- <-. exfalso; apply NE; reflexivity.
      * destruct l as [|e l]; [discriminate|]. injection E2 as <- E2. exfalso. rewrite E2, delivered_app in A1.
        apply app_eq_nil in A1. destruct A1 as [_ A1].
        cbn [delivered flat_map] in A1. apply app_eq_nil in A1. destruct A1 as [A1 _]. exact (NE A1).
      * destruct l as [|e l]; [|destruct l; discriminate]. injection E2 as <- <- <-. rewrite A4.
        pose proof (i_inv0 _ _ (wi_ring _ _ _ W)) as I0.
        destruct A2 as [p Hp]. destruct (take_fit_prefix niov len avail) as [rest ER]. fold taken in ER.
        assert (HH : committed evs = firstn (Z.to_nat (zlen (committed evs) - r_mp (w_ring w))) (committed evs) ++ ring_retained (w_ring w)).
        { rewrite (retained_eq _ _ I0). unfold lastn. symmetry. apply firstn_skipn. }
        exists (firstn (Z.to_nat (zlen (committed evs) - r_mp (w_ring w))) (committed evs) ++ p), rest.
        rewrite <- app_assoc, <- ER, <- Hp, app_nil_r. exact HH.
Qed.
