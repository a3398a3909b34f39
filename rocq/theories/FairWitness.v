(** * Concrete executions without end for C58 and C59: a script, after which
    nothing more happens.  Nothing here is part of the model. *)
From Verif Require Export Fair2 Witness2.

Section Script.
Variables (r : ring) (fsz : Z) (ks : list cmd2).
Definition fact (w : world) (i : nat) : action := match nth_error ks i with Some k => act2 w k | None => AWake 99 end.
Fixpoint fw (i : nat) : world :=
  match i with O => world0 r fsz | S i => let u := fw i in match step u (fact u i) with Ok (w, _) => w | _ => u end end.
Definition fa (i : nat) : action := fact (fw i) i.
Definition fe (i : nat) : list event := match step (fw i) (fa i) with Ok (_, ev) => ev | _ => [] end.
Definition N := length ks.
Definition fine_b : bool :=
  forallb (fun i => match nth_error ks i with Some k => ok2_b (fw i) k && newname_b (fw i) k | None => false end
                    && match step (fw i) (fa i) with Ok _ => true | _ => false end) (seq 0 N)
  && match wait_sid (cli (fw N) 99) with None => true | _ => false end && (zlen (committed (upto fe N)) <? W64).
Hypothesis FR : fresh r fsz.
Hypothesis FB : fine_b = true.

Lemma nothing i : (N <= i)%nat -> fa i = AWake 99.
Proof. intros H. unfold fa, fact. apply nth_error_None in H. rewrite H. reflexivity. Qed.
Lemma after i : (N <= i)%nat -> fw i = fw N /\ step (fw i) (fa i) = Ok (fw N, []).
Proof.
  intros H. pose proof FB as B. unfold fine_b in B. apply andb_true_iff in B. destruct B as [B _]. apply andb_true_iff in B. destruct B as [_ B].
  assert (S0 : step (fw N) (AWake 99) = Ok (fw N, [])).
  { cbn [step]. destruct (wait_sid (cli (fw N) 99)); [discriminate|reflexivity]. }
  assert (E : fw i = fw N).
  { induction H as [|i H IH]; [reflexivity|]. cbn [fw]; cbv zeta. change (fact (fw i) i) with (fa i). rewrite (nothing i H), IH, S0. reflexivity. }
  split; [exact E|]. rewrite (nothing i H), E. exact S0.
Qed.
Lemma before i : (i < N)%nat -> steady (fw i) (fa i) /\ exists p, step (fw i) (fa i) = Ok p.
Proof.
  intros H. pose proof FB as B. unfold fine_b in B. apply andb_true_iff in B. destruct B as [B _]. apply andb_true_iff in B. destruct B as [B _].
  rewrite forallb_forall in B. specialize (B i). rewrite in_seq in B. specialize (B ltac:(lia)). apply andb_true_iff in B. destruct B as [B1 B2].
  split.
  - unfold fa, fact. destruct (nth_error ks i) as [k|]; [|discriminate]. apply andb_true_iff in B1. destruct B1. apply orderly_steady. apply act2_orderly; assumption.
  - destruct (step (fw i) (fa i)) as [p| | |]; try discriminate. exists p. reflexivity.
Qed.
Lemma after_upto i : (N <= i)%nat -> upto fe i = upto fe N.
Proof.
  induction 1 as [|i H IH]; [reflexivity|]. cbn [upto]. rewrite IH. unfold fe at 2. destruct (after i H) as [_ ->]. rewrite app_nil_r. reflexivity.
Qed.
Lemma script_forever : forever steady r fw fa fe.
Proof.
  constructor.
  - exists fsz. split; [exact FR|reflexivity].
  - intros i. destruct (Nat.lt_ge_cases i N) as [H|H]; [apply before; exact H|]. rewrite (nothing i H). apply steady_wake.
  - intros i. assert (S1 : exists p, step (fw i) (fa i) = Ok p).
    { destruct (Nat.lt_ge_cases i N) as [H|H]; [apply before; exact H|]. exists (fw N, []). apply after. exact H. }
    destruct S1 as [[w ev] S1]. cbn [fw]; cbv zeta. unfold fe. change (fact (fw i) i) with (fa i). rewrite S1. reflexivity.
  - intros i Hf. pose proof FB as B. unfold fine_b in B. apply andb_true_iff in B. destruct B as [_ B]. apply Z.ltb_lt in B.
    destruct (Nat.lt_ge_cases i N) as [H|H]; [|rewrite (after_upto i H); exact B].
    destruct (upto_app fe i N ltac:(lia)) as (l & E). rewrite E, committed_app, zlen_app in B. pose proof (zlen_nonneg (committed l)). lia.
Qed.
(** no wake-up is queued for [c] at the end, and [c] is not waiting for the lock *)
Definition resting c : bool :=
  (asleep (fw N) c || match pending c (upto fe N) with None => true | _ => false end)
  && (negb (asleep (fw N) c) || match wait_sid (cli (fw N) c) with Some (s, _) => negb (0 <? k_pend (sk (w_ks (fw N)) s)) | None => true end).
Lemma script_fair c : resting c = true -> fair fw fa fe c.
Proof.
  intros H. unfold resting in H. apply andb_true_iff in H. destruct H as [H1 H2]. split; intros i; exists (Nat.max i N); (split; [lia|]).
  - destruct (after (Nat.max i N) ltac:(lia)) as [-> _]. rewrite (after_upto (Nat.max i N)) by lia. apply orb_true_iff in H1. destruct H1 as [H1|H1]; [right; left; exact H1|left]. destruct (pending c (upto fe N)); [discriminate|reflexivity].
  - destruct (after (Nat.max i N) ltac:(lia)) as [-> _]. apply orb_true_iff in H2. destruct H2 as [H2|H2]; [left; apply negb_true_iff; exact H2|right; left].
    intros s p E. rewrite E in H2. apply negb_true_iff in H2. unfold readable. apply Z.ltb_ge in H2. lia.
Qed.
Definition drains d i0 : bool :=
  forallb (fun j => c_live (cli (fw j) d) && has (c_flags (cli (fw j) d)) SHR_RDONLY
     && match pending d (upto fe j) with
        | None => true
        | Some (CRead buf niov) => (r_n r <=? usable buf) && (0 <? niov)
        | Some _ => false end
     && match fa j with ARun c e => negb (Nat.eqb c d) || e_lock e | _ => true end) (seq i0 (S N - i0))
  && match pending d (upto fe N) with None => false | Some _ => true end.
Lemma script_keeps_reading d i0 : (i0 <= N)%nat -> resting d = true -> drains d i0 = true -> keeps_reading r fw fa fe d i0.
Proof.
  intros L0 H D. unfold drains in D. apply andb_true_iff in D. destruct D as [D DN]. rewrite forallb_forall in D.
  assert (AT : forall j, (i0 <= j)%nat -> exists k, (i0 <= k <= N)%nat /\ fw j = fw k /\ upto fe j = upto fe k /\ (fa j = fa k)).
  { intros j Hj. destruct (Nat.le_gt_cases j N) as [Hn|Hn]; [exists j; repeat split; auto|].
    exists N. split; [lia|]. split; [apply after; lia|]. split; [apply after_upto; lia|]. rewrite !nothing by lia. reflexivity. }
  assert (D' : forall j, (i0 <= j <= N)%nat -> c_live (cli (fw j) d) = true /\ has (c_flags (cli (fw j) d)) SHR_RDONLY = true
     /\ match pending d (upto fe j) with None => True | Some (CRead buf niov) => r_n r <= usable buf /\ 0 < niov | Some _ => False end
     /\ match fa j with ARun c e => c = d -> e_lock e = true | _ => True end).
  { intros j Hj. specialize (D j). rewrite in_seq in D. specialize (D ltac:(lia)). rewrite !andb_true_iff in D. destruct D as [[[D1 D2] D3] D4].
    split; [exact D1|]. split; [exact D2|]. split.
    - destruct (pending d (upto fe j)) as [[]|]; try discriminate D3; auto. apply andb_true_iff in D3. destruct D3 as [E1 E2]. apply Z.leb_le in E1. apply Z.ltb_lt in E2. auto.
    - destruct (fa j); auto. intros ->. rewrite Nat.eqb_refl in D4. exact D4. }
  constructor.
  - apply script_fair. exact H.
  - intros j Hj. destruct (AT j Hj) as (k & Hk & -> & _). destruct (D' k Hk) as (A1 & A2 & _). auto.
  - intros j x Hj Px. destruct (AT j Hj) as (k & Hk & _ & E & _). rewrite E in Px. destruct (D' k Hk) as (_ & _ & A3 & _). rewrite Px in A3. destruct x; try contradiction. destruct A3. eauto.
  - intros j. exists (Nat.max j N). split; [lia|]. left. rewrite after_upto by lia. destruct (pending d (upto fe N)); [congruence|discriminate].
  - intros j e Hj Ea. destruct (AT j Hj) as (k & Hk & _ & _ & E). rewrite E in Ea. destruct (D' k Hk) as (_ & _ & _ & A4). rewrite Ea in A4. auto.
Qed.
Definition alone c i0 : bool :=
  forallb (fun j => forallb (fun e => match e with ECommit c' _ => Nat.eqb c' c | _ => true end) (fe j)) (seq i0 (N - i0)).
Lemma script_alone c i0 : alone c i0 = true -> forall j, (i0 <= j)%nat -> ~ written_by_other c (fe j).
Proof.
  intros H j Hj (c' & ms & NE & HI). destruct (Nat.lt_ge_cases j N) as [Hn|Hn].
  - unfold alone in H. rewrite forallb_forall in H. specialize (H j). rewrite in_seq in H. specialize (H ltac:(lia)). rewrite forallb_forall in H. specialize (H _ HI). cbn in H. apply Nat.eqb_eq in H. contradiction.
  - unfold fe in HI. destruct (after j Hn) as [_ E]. rewrite E in HI. exact HI.
Qed.
End Script.

(** a reader (client 1) asleep on the empty ring, a writer (client 0) that
    fills the ring and falls asleep; the reader is woken, reads, and is again
    asleep in the end; the writer is woken and done *)
Definition d58 := map Do ([Open WR 7; Open RD 8] ++ read 1 10 1 ++ write 0 [[1;2;3;4;5;6;7]] ++ write 0 [[1;2;3;4]]
  ++ [Recv 1; Run 1; Recv 0; Run 0] ++ read 1 10 1 ++ read 1 10 1).
Notation W58 := (fw plain_ring plain_size d58).
Notation A58 := (fa plain_ring plain_size d58).
Notation V58 := (fe plain_ring plain_size d58).
Lemma d58_forever : forever steady plain_ring W58 A58 V58.
Proof. apply script_forever; [exact plain_fresh|vm_compute; reflexivity]. Qed.
Lemma d58_fair c : c = O \/ c = 1%nat -> fair W58 A58 V58 c.
Proof. intros [->| ->]; apply script_fair; vm_compute; reflexivity. Qed.
Lemma d58_reads : keeps_reading plain_ring W58 A58 V58 1 2.
Proof. apply script_keeps_reading; [vm_compute; reflexivity|vm_compute; lia|vm_compute; reflexivity|vm_compute; reflexivity]. Qed.
Lemma d58_alone j : (2 <= j)%nat -> ~ written_by_other 0 (V58 j).
Proof. revert j. apply script_alone; vm_compute; reflexivity. Qed.
