(** * A reader driven by the readiness of its descriptor (C90) *)
From Verif Require Export FairWitness.

Lemma pending_from c l x : forall evs, pending c (evs ++ l) = Some x -> pending c evs = Some x \/ In (ECall c x) l.
Proof.
  induction l as [|e l IH] using rev_ind; intros evs H; [rewrite app_nil_r in H; auto|].
  rewrite app_assoc, pending_app in H. cbn [fold_left] in H.
  assert (K : pending c (evs ++ l) = Some x -> pending c evs = Some x \/ In (ECall c x) (l ++ [e])).
  { intros Q. destruct (IH _ Q); [auto|right; apply in_or_app; auto]. }
  destruct e; try (apply K; exact H);
    unfold is in H; destruct (Nat.eqb _ _) eqn:E; try discriminate H; try (apply K; exact H).
  apply Nat.eqb_eq in E. subst. injection H as ->. right. apply in_or_app. right. left. reflexivity.
Qed.
Lemma call_step w a w' ev c x : step w a = Ok (w', ev) -> In (ECall c x) ev -> a = ACall c x.
Proof.
  intros HS HI. apply step_inv in HS.
  assert (R : forall c0 rs, ~ In (ECall c x) (rets c0 rs)).
  { intros c0 rs H. unfold rets in H. apply in_map_iff in H. destruct H as (? & H & _). discriminate. }
  inversion HS; subst; cbn [In app] in HI; try (elim (R _ _ HI)); repeat (destruct HI as [HI|HI]; [try discriminate HI|]); try contradiction; try (elim (R _ _ HI)); try congruence.
Qed.

Section Run.
Variables (r : ring) (W : nat -> world) (A : nat -> action) (V : nat -> list event).
Hypothesis FV : forever steady r W A V.

Lemma el_reads d i : event_loop r W A V d i -> keeps_reading r W A V d i.
Proof.
  intros E. constructor.
  - apply E.
  - intros j Hj. destruct (el_live _ _ _ _ _ _ E j Hj) as (A1 & A2 & _). auto.
  - intros j x Hj. revert x. induction Hj as [|j Hj IH]; intros x Px; [rewrite (el_rest _ _ _ _ _ _ E) in Px; discriminate|].
    cbn [upto] in Px. apply pending_from in Px. destruct Px as [Px|Px]; [apply IH; exact Px|].
    apply (call_step _ _ _ _ _ _ (fv_step _ _ _ _ _ FV j)) in Px. destruct (el_calls _ _ _ _ _ _ E j x Hj Px) as ((buf & niov & Ea & B1 & B2) & _).
    rewrite Px in Ea. injection Ea as ->. eauto.
  - intros j. destruct (el_again _ _ _ _ _ _ E j) as (k & Hk & D). exists k. auto.
  - apply E.
Qed.

Theorem el_calls_end c d i0 : event_loop r W A V d i0 -> fair W A V c -> (forall j, (i0 <= j)%nat -> ~ written_by_other c (V j)) ->
  forall x i, (forall b n, x <> CRead b n) -> (i0 <= i)%nat -> pending c (upto V i) = Some x -> exists j, (i <= j)%nat /\ ends c (V j).
Proof. intros E. apply (pipe r W A V FV c d i0 (el_reads _ _ E)). Qed.
Theorem el_delivered d i0 : r_drop r = false -> event_loop r W A V d i0 -> forall i, (i0 <= i)%nat ->
  exists j more, (i <= j)%nat /\ delivered (upto V j) = committed (upto V i) ++ more.
Proof. intros Hd E. apply (delivery r W A V FV d i0 Hd (el_reads _ _ E)). Qed.
End Run.

(** ** concrete executions: scripts *)
Section Script.
Variables (r : ring) (fsz : Z) (ks : list cmd2).
Notation fw := (fw r fsz ks). Notation fa := (fa r fsz ks). Notation fe := (fe r fsz ks). Notation N := (N ks).
Hypothesis FB : fine_b r fsz ks = true.
Definition loops d i0 : bool :=
  forallb (fun j => c_live (cli (fw j) d) && has (c_flags (cli (fw j) d)) SHR_RDONLY && nonblocking (fw j) d
     && match fa j with
        | ARun c e => negb (Nat.eqb c d) || e_lock e
        | ACall c x => negb (Nat.eqb c d)
            || (match x with CRead buf niov => (r_n r <=? usable buf) && (0 <? niov) | _ => false end
                && match data_sock (fw j) d with Some s => 0 <? k_pend (sk (w_ks (fw j)) s) | None => false end)
        | _ => true end) (seq i0 (S N - i0))
  && match pending d (upto fe i0) with None => true | Some _ => false end
  && match data_sock (fw N) d with Some s => negb (0 <? k_pend (sk (w_ks (fw N)) s)) | None => true end.
Lemma script_event_loop d i0 : (i0 <= N)%nat -> resting r fsz ks d = true -> loops d i0 = true -> event_loop r fw fa fe d i0.
Proof.
  intros L0 H D. unfold loops in D. apply andb_true_iff in D. destruct D as [D DN]. apply andb_true_iff in D. destruct D as [D D0]. rewrite forallb_forall in D.
  assert (AT : forall j, (i0 <= j)%nat -> exists k, (i0 <= k <= N)%nat /\ fw j = fw k /\ (fa j = fa k)).
  { intros j Hj. destruct (Nat.le_gt_cases j N) as [Hn|Hn]; [exists j; repeat split; auto|].
    exists N. split; [lia|]. split; [apply (after r fsz ks FB); lia|]. rewrite !nothing by lia. reflexivity. }
  assert (D' : forall j, (i0 <= j <= N)%nat -> c_live (cli (fw j) d) = true /\ has (c_flags (cli (fw j) d)) SHR_RDONLY = true /\ nonblocking (fw j) d = true
     /\ match fa j with ARun c e => c = d -> e_lock e = true
        | ACall c x => c = d -> (exists buf niov, x = CRead buf niov /\ r_n r <= usable buf /\ 0 < niov) /\ exists s, data_sock (fw j) d = Some s /\ readable (fw j) s
        | _ => True end).
  { intros j Hj. specialize (D j). rewrite in_seq in D. specialize (D ltac:(lia)). rewrite !andb_true_iff in D. destruct D as [[[D1 D2] D3] D4].
    split; [exact D1|]. split; [exact D2|]. split; [exact D3|].
    destruct (fa j); auto.
    - intros ->. rewrite Nat.eqb_refl in D4. cbn [negb orb] in D4. apply andb_true_iff in D4. destruct D4 as [E1 E2]. split.
      + destruct x; try discriminate. apply andb_true_iff in E1. destruct E1 as [E1 E3]. apply Z.leb_le in E1. apply Z.ltb_lt in E3. eauto.
      + destruct (data_sock _ _) as [s|]; [|discriminate]. apply Z.ltb_lt in E2. exists s. auto.
    - intros ->. rewrite Nat.eqb_refl in D4. exact D4. }
  constructor.
  - apply (script_fair r fsz ks FB). exact H.
  - intros j Hj. destruct (AT j Hj) as (k & Hk & -> & _). destruct (D' k Hk) as (A1 & A2 & A3 & _). auto.
  - destruct (pending d (upto fe i0)); [discriminate|reflexivity].
  - intros j x Hj Ea. destruct (AT j Hj) as (k & Hk & -> & E). rewrite E in Ea |- *. destruct (D' k Hk) as (_ & _ & _ & A4). rewrite Ea in A4.
    destruct (A4 eq_refl) as ((buf & niov & -> & B1 & B2) & B). split; [|exact B]. exists buf, niov. auto.
  - intros j. exists (Nat.max j N). split; [lia|]. right. destruct (after r fsz ks FB (Nat.max j N) ltac:(lia)) as [-> _].
    destruct (D' N ltac:(lia)) as (_ & _ & A3 & _). split; [exact A3|]. intros s Hs. rewrite Hs in DN. apply negb_true_iff, Z.ltb_ge in DN. unfold readable. lia.
  - intros j e Hj Ea. destruct (AT j Hj) as (k & Hk & _ & E). rewrite E in Ea. destruct (D' k Hk) as (_ & _ & _ & A4). rewrite Ea in A4. auto.
Qed.
End Script.

(** a reader with an event loop (client 1); a writer (client 0) that fills the
    ring and falls asleep *)
Definition d90 := map Do ([Open WR 7; Open RDN 8] ++ write 0 [[1;2;3;4;5;6;7]] ++ write 0 [[1;2;3;4]] ++ read 1 10 1
  ++ [Recv 0; Run 0] ++ read 1 10 1).
Lemma d90_forever : forever steady plain_ring (fw plain_ring plain_size d90) (fa plain_ring plain_size d90) (fe plain_ring plain_size d90).
Proof. apply script_forever; [exact plain_fresh|vm_compute; reflexivity]. Qed.
Lemma d90_fair c : c = O \/ c = 1%nat -> fair (fw plain_ring plain_size d90) (fa plain_ring plain_size d90) (fe plain_ring plain_size d90) c.
Proof. intros [->| ->]; apply script_fair; vm_compute; reflexivity. Qed.
Lemma d90_loop : event_loop plain_ring (fw plain_ring plain_size d90) (fa plain_ring plain_size d90) (fe plain_ring plain_size d90) 1 2.
Proof. apply script_event_loop; [vm_compute; reflexivity|vm_compute; lia|vm_compute; reflexivity|vm_compute; reflexivity]. Qed.
Lemma d90_alone j : (2 <= j)%nat -> ~ written_by_other 0 (fe plain_ring plain_size d90 j).
Proof. revert j. apply script_alone; vm_compute; reflexivity. Qed.

(** a FARM ring; the reader has an event loop *)
Definition d91 := map Do ([Open WR 7; Open RDN 8] ++ write 0 [[1;1;1]] ++ read 1 10 1 ++ write 0 [[2;2;2]] ++ write 0 [[3;3;3]]
  ++ read 1 10 1 ++ read 1 10 1).
Lemma d91_forever : forever steady farm_ring (fw farm_ring farm_size d91) (fa farm_ring farm_size d91) (fe farm_ring farm_size d91).
Proof. apply script_forever; [exact farm_fresh|vm_compute; reflexivity]. Qed.
Lemma d91_loop : event_loop farm_ring (fw farm_ring farm_size d91) (fa farm_ring farm_size d91) (fe farm_ring farm_size d91) 1 2.
Proof. apply script_event_loop; [vm_compute; reflexivity|vm_compute; lia|vm_compute; reflexivity|vm_compute; reflexivity]. Qed.
