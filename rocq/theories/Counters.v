(** * The statistics counters (C13, C14). *)
From Verif Require Export Global.

Lemma since_reset_app evs ev : no_reset ev -> since_reset (evs ++ ev) = since_reset evs ++ ev.
Proof.
  unfold since_reset. rewrite fold_left_app. generalize (fold_left (fun acc e => if is_reset e then [] else acc ++ [e]) evs []).
  intros acc H. revert acc. induction H as [|e ev He H IH]; intros acc; cbn [fold_left]; [rewrite app_nil_r; reflexivity|].
  rewrite He, IH, <- app_assoc. reflexivity.
Qed.
Lemma since_reset_reset evs c v s : since_reset (evs ++ [ERet c (RetStat true v s)]) = [].
Proof. unfold since_reset. rewrite fold_left_app. reflexivity. Qed.
Lemma at_reset_app evs ev : no_reset ev ->
  unread_at_reset (evs ++ ev) = unread_at_reset evs /\ bytes_at_reset (evs ++ ev) = bytes_at_reset evs.
Proof.
  unfold unread_at_reset, bytes_at_reset. rewrite !fold_left_app.
  set (f := fun acc e => match e with ERet _ (RetStat true _ (Some so)) => so_mu so | _ => acc end).
  set (g := fun acc e => match e with ERet _ (RetStat true _ (Some so)) => so_bu so | _ => acc end).
  intros H. generalize (fold_left f evs 0) (fold_left g evs 0).
  induction H as [|e ev He H IH]; intros a b; cbn [fold_left]; [auto|].
  assert (Ef : f a e = a /\ g b e = b).
  { unfold f, g. destruct e; auto. destruct x; auto. destruct reset; [discriminate He|auto]. }
  destruct Ef as [-> ->]. apply IH.
Qed.
Lemma at_reset_reset evs c v so :
  unread_at_reset (evs ++ [ERet c (RetStat true v (Some so))]) = so_mu so
  /\ bytes_at_reset (evs ++ [ERet c (RetStat true v (Some so))]) = so_bu so.
Proof. unfold unread_at_reset, bytes_at_reset. rewrite !fold_left_app. auto. Qed.

Lemma u64_add a b : u64 (u64 a + b) = u64 (a + b).
Proof. unfold u64. apply Zplus_mod_idemp_l. Qed.

Record CT (r : ring) (evs : list event) : Prop := mkCT {
  ct_mr : st_mr (r_stat r) = u64 (zlen (delivered (since_reset evs)));
  ct_br : st_br (r_stat r) = u64 (nbytes (delivered (since_reset evs)));
  ct_m : exists D, st_md (r_stat r) = u64 D /\ 0 <= D
      /\ unread_at_reset evs + zlen (committed (since_reset evs)) =
         (if r_farm r then 0 else zlen (delivered (since_reset evs))) + D + zlen (ring_unread r);
  ct_b : exists D, st_bd (r_stat r) = u64 D /\ 0 <= D
      /\ bytes_at_reset evs + nbytes (committed (since_reset evs)) =
         (if r_farm r then 0 else nbytes (delivered (since_reset evs))) + D + nbytes (ring_unread r) }.

Lemma farm_same w0 w evs w' ev : WI w0 w evs -> WI w0 w' ev -> r_farm (w_ring w') = r_farm (w_ring w).
Proof. intros W W'. rewrite (same_dims_farm _ _ (wi_dims _ _ _ W')), (same_dims_farm _ _ (wi_dims _ _ _ W)). reflexivity. Qed.

(** one step keeps them so, and a reset makes them so *)
Lemma counters_step G w0 w evs w' ev : WI w0 w evs -> WI w0 w' (evs ++ ev) ->
  effect G (w_ring w) (committed evs) ev (w_ring w') -> CT (w_ring w) evs -> CT (w_ring w') (evs ++ ev).
Proof.
    intros W W' EF [C1 C2 (D & C3 & C3p & C3') (B & C4 & C4p & C4')].
    pose proof (farm_same _ _ _ _ _ W W') as HF.
    destruct EF as [ev r' E1 E2 E3 E4 E5 E6 | c v so t r' E4 E5 E6 E7 E8 E9
      | c iov rs dr wok r' E1 E2 Eg E3 E4 E5 E6 E7 E8 | c v buf iov avail len niov r' E1 E2 E3 taken E4 E5 E6 E7 E8 E9 ].
    + destruct (at_reset_app evs ev E3) as [R1 R2].
      constructor; rewrite ?(since_reset_app _ _ E3), ?R1, ?R2, ?committed_app, ?delivered_app, ?E1, ?E2, ?app_nil_r, ?HF, ?E6, ?E4; try assumption;
      eexists; repeat (split; [eassumption|]); assumption.
    + destruct (at_reset_reset evs c v so) as [R1 R2].
      constructor; rewrite ?since_reset_reset, ?R1, ?R2, ?HF, ?E9, ?E4, ?E7, ?E8; try reflexivity;
      exists 0; (split; [reflexivity|split; [lia|]]); cbn [committed delivered flat_map]; unfold zlen, nbytes; cbn; destruct (r_farm _); lia.
    + assert (NR : no_reset (ECommit c iov :: rets c rs)) by (constructor; [reflexivity|exact E2]).
      destruct (at_reset_app evs _ NR) as [R1 R2]. cbv zeta in E8.
      assert (S1 : st_mr (r_stat r') = st_mr (r_stat (w_ring w)) /\ st_br (r_stat r') = st_br (r_stat (w_ring w))
        /\ st_md (r_stat r') = u64 (D + zlen dr) /\ st_bd (r_stat r') = u64 (B + nbytes dr)).
      { rewrite E8. unfold stat_dropped. destruct (Z.eqb_spec (zlen dr) 0) as [Z0|Z0].
        - assert (dr = []) as -> by (destruct dr; [reflexivity|rewrite zlen_cons in Z0; pose proof (zlen_nonneg dr); lia]).
          cbn [zlen length nbytes concat]. rewrite !Z.add_0_r. destruct wok; cbn [st_mr st_br st_md st_bd set]; auto.
        - rewrite <- (u64_add D), <- (u64_add B), <- C3, <- C4. destruct wok; cbn [st_mr st_br st_md st_bd set]; auto. }
      destruct S1 as (S1 & S2 & S3 & S4).
      assert (HU : zlen (ring_unread (w_ring w)) = zlen dr + (zlen (ring_unread r') - zlen iov)
        /\ nbytes (ring_unread (w_ring w)) = nbytes dr + (nbytes (ring_unread r') - nbytes iov)).
      { rewrite E6. rewrite E5 at 1 3. rewrite !zlen_app, !nbytes_app. lia. }
      destruct HU as [HU1 HU2]. pose proof (zlen_nonneg dr). pose proof (nbytes_nonneg dr).
      constructor; rewrite ?(since_reset_app _ _ NR), ?R1, ?R2, ?committed_app, ?delivered_app, ?committed_commit, ?delivered_commit, ?E1, ?app_nil_r, ?HF, ?S1, ?S2, ?S3, ?S4;
        try assumption.
      * eexists; split; [reflexivity|]. rewrite zlen_app. lia.
      * eexists; split; [reflexivity|]. rewrite nbytes_app. lia.
    + assert (NR : no_reset [ERet c (RetRead v buf iov)]) by (repeat constructor).
      destruct (at_reset_app evs _ NR) as [R1 R2].
      destruct (take_fit_prefix niov len avail) as [rest ER]. fold taken in ER.
      assert (S1 : st_md (r_stat r') = u64 D /\ st_bd (r_stat r') = u64 B).
      { rewrite E9, <- C3, <- C4. auto. }
      destruct S1 as [S1 S2].
      assert (SK : ring_unread (w_ring w) = taken ++ rest -> skipn (Z.to_nat (zlen taken)) (ring_unread (w_ring w)) = rest).
      { intros ->. unfold zlen. rewrite Nat2Z.id, skipn_app, skipn_all, Nat.sub_diag. reflexivity. }
      constructor; rewrite ?(since_reset_app _ _ NR), ?R1, ?R2, ?committed_app, ?delivered_app, ?delivered_1, ?E4; cbn [committed flat_map]; rewrite ?app_nil_r, ?HF, ?S1, ?S2.
      * rewrite E9. cbn [stat_took st_mr set]. rewrite C1, u64_add, zlen_app. reflexivity.
      * rewrite E9. cbn [stat_took st_br set]. rewrite C2, u64_add, nbytes_app. reflexivity.
      * exists D. repeat (split; [reflexivity||assumption|]). rewrite E7. destruct (r_farm (w_ring w)) eqn:Hf; [exact C3'|].
        rewrite C3'. rewrite (E1 eq_refl) in ER. rewrite (SK ER). rewrite ER at 1. rewrite !zlen_app. lia.
      * exists B. repeat (split; [reflexivity||assumption|]). rewrite E7. destruct (r_farm (w_ring w)) eqn:Hf; [exact C4'|].
        rewrite C4'. rewrite (E1 eq_refl) in ER. rewrite (SK ER). rewrite ER at 1. rewrite !nbytes_app. lia.
Qed.
Lemma counters_reset G w0 w evs w' ev : WI w0 w evs -> WI w0 w' (evs ++ ev) ->
  effect G (w_ring w) (committed evs) ev (w_ring w') -> ~ no_reset ev -> CT (w_ring w') (evs ++ ev).
Proof.
    intros W W' EF N. pose proof (farm_same _ _ _ _ _ W W') as HF.
    destruct EF as [ev r' E1 E2 E3 E4 E5 E6 | c v so t r' E4 E5 E6 E7 E8 E9
      | c iov rs dr wok r' E1 E2 Eg E3 E4 E5 E6 E7 E8 | c v buf iov avail len niov r' E1 E2 E3 taken E4 E5 E6 E7 E8 E9 ].
    + elim (N E3).
    + destruct (at_reset_reset evs c v so) as [R1 R2].
      constructor; rewrite ?since_reset_reset, ?R1, ?R2, ?HF, ?E9, ?E4, ?E7, ?E8; try reflexivity;
      exists 0; (split; [reflexivity|split; [lia|]]); cbn [committed delivered flat_map]; unfold zlen, nbytes; cbn; destruct (r_farm (w_ring w)); lia.
    + elim N. constructor; [reflexivity|exact E2].
    + elim N. repeat constructor.
Qed.

Theorem counters_hold (P : world -> action -> Prop) r fsz w evs :
  (forall w a, P w a -> contract w a) -> fresh r fsz ->
  exec P (world0 r fsz) w evs -> seq_bound r evs -> CT (w_ring w) evs.
Proof.
  intros HP F X HB.
  refine (exec_ind_inv P r fsz (fun w => CT (w_ring w)) HP F _ _ w evs X HB).
  - pose proof (i_inv0 _ _ (fresh_inv _ _ F)) as I.
    assert (EU : ring_unread r = []). { rewrite (unread_eq _ _ I). unfold lastn. destruct (Z.to_nat _); reflexivity. }
    destruct F as [(data_sz & flags & appsize & maxarg & l & app & E & -> & _)].
    constructor; cbn [w_ring world0]; rewrite ?EU; try reflexivity; exists 0; (split; [reflexivity|split; [lia|]]);
      destruct (r_farm _); reflexivity.
  - clear w evs X HB. intros w evs a w' ev X W PI0 W' HB Pa S _ EF C. apply (counters_step _ _ _ _ _ _ W W' EF C).
Qed.

(** with well-behaved sockets the write counters are exact too *)
Definition WCT (r : ring) (evs : list event) : Prop :=
  st_mw (r_stat r) = u64 (zlen (committed (since_reset evs))) /\ st_bw (r_stat r) = u64 (nbytes (committed (since_reset evs))).
Lemma wcounters_step (G : Prop) w w' evs ev : G -> effect G (w_ring w) (committed evs) ev (w_ring w') -> (no_reset ev -> WCT (w_ring w) evs) ->
  WCT (w_ring w') (evs ++ ev).
Proof.
    unfold WCT. intros Ga EF IH.
    destruct EF as [ev r' E1 E2 E3 E4 E5 E6 | c v so t r' E4 E5 E6 E7 E8 E9
      | c iov rs dr wok r' E1 E2 Eg E3 E4 E5 E6 E7 E8 | c v buf iov avail len niov r' E1 E2 E3 taken E4 E5 E6 E7 E8 E9 ].
    + destruct (IH E3) as [C1 C2]. rewrite !(since_reset_app _ _ E3), !committed_app, E1, app_nil_r, E6. auto.
    + rewrite !since_reset_reset, E9. auto.
    + assert (NR : no_reset (ECommit c iov :: rets c rs)) by (constructor; [reflexivity|exact E2]). destruct (IH NR) as [C1 C2].
      rewrite !(since_reset_app _ _ NR), !committed_app, committed_commit, zlen_app, nbytes_app. cbv zeta in E8.
      rewrite (Eg Ga) in E8. rewrite E8. cbn [st_mw st_bw set].
      assert (S1 : st_mw (stat_dropped (r_stat (w_ring w)) (nbytes dr) (zlen dr)) = st_mw (r_stat (w_ring w))
                /\ st_bw (stat_dropped (r_stat (w_ring w)) (nbytes dr) (zlen dr)) = st_bw (r_stat (w_ring w))).
      { unfold stat_dropped. destruct (_ =? _); auto. }
      destruct S1 as [-> ->]. rewrite C1, C2, !u64_add. auto.
    + assert (NR : no_reset [ERet c (RetRead v buf iov)]) by (repeat constructor). destruct (IH NR) as [C1 C2].
      rewrite !(since_reset_app _ _ NR), !committed_app. cbn [committed flat_map]. rewrite !app_nil_r, E9. auto.
Qed.
Theorem write_counters_hold r fsz w evs :
  fresh r fsz -> exec reliable (world0 r fsz) w evs -> seq_bound r evs ->
  st_mw (r_stat (w_ring w)) = u64 (zlen (committed (since_reset evs)))
  /\ st_bw (r_stat (w_ring w)) = u64 (nbytes (committed (since_reset evs))).
Proof.
  intros F X HB.
  refine (exec_ind_inv reliable r fsz (fun w evs => st_mw (r_stat (w_ring w)) = u64 (zlen (committed (since_reset evs)))
    /\ st_bw (r_stat (w_ring w)) = u64 (nbytes (committed (since_reset evs)))) (fun w a H => proj1 H) F _ _ w evs X HB).
  - destruct F as [(data_sz & flags & appsize & maxarg & l & app & E & -> & _)]. split; reflexivity.
  - clear w evs X HB. intros w evs a w' ev X W PI0 W' HB [_ Ga] S _ EF C. apply (wcounters_step _ _ _ _ _ Ga EF (fun _ => C)).
Qed.
