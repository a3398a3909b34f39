(** * A concrete execution for C92: after the deadlock of C79 a new reader and a
    new writer open the ring.  Nothing here is part of the model. *)
From Verif Require Export KillPipe KillFairWitness.

Section KScript.
Variables (r : ring) (fsz : Z) (ks : list kcmd).
Notation fw := (kfw r fsz ks). Notation fd := (kfd r fsz ks). Notation fe := (kfe r fsz ks). Notation N := (KN ks).
Definition kdrains d i0 : bool :=
  forallb (fun j => c_live (cli (fw j) d) && has (c_flags (cli (fw j) d)) SHR_RDONLY
     && match pending d (upto fe j) with
        | None => true
        | Some (CRead buf niov) => (r_n r <=? usable buf) && (0 <? niov)
        | Some _ => false end
     && match fd j with Acts (ARun c e) => negb (Nat.eqb c d) || e_lock e | _ => true end) (seq i0 (S N - i0))
  && match pending d (upto fe N) with None => match available (w_ring (fw N)) (c_q (cli (fw N) d)) with [] => true | _ => false end | Some _ => true end
  && match pending d (upto fe i0) with None => true | Some _ => false end.
Lemma kscript_reads_on d i0 : (i0 <= N)%nat -> kresting r fsz ks d = true -> kdrains d i0 = true -> reads_on r fw fd fe d i0.
Proof.
  intros L0 H D. unfold kdrains in D. apply andb_true_iff in D. destruct D as [D DI]. apply andb_true_iff in D. destruct D as [D DN]. rewrite forallb_forall in D.
  assert (AT : forall j, (i0 <= j)%nat -> exists k, (i0 <= k <= N)%nat /\ fw j = fw k /\ upto fe j = upto fe k /\ (fd j = fd k)).
  { intros j Hj. destruct (Nat.le_gt_cases j N) as [Hn|Hn]; [exists j; repeat split; auto|].
    exists N. split; [lia|]. split; [apply kafter; lia|]. split; [apply kafter_upto; lia|]. rewrite !knothing by lia. reflexivity. }
  assert (D' : forall j, (i0 <= j <= N)%nat -> c_live (cli (fw j) d) = true /\ has (c_flags (cli (fw j) d)) SHR_RDONLY = true
     /\ match pending d (upto fe j) with None => True | Some (CRead buf niov) => r_n r <= usable buf /\ 0 < niov | Some _ => False end
     /\ match fd j with Acts (ARun c e) => c = d -> e_lock e = true | _ => True end).
  { intros j Hj. specialize (D j). rewrite in_seq in D. specialize (D ltac:(lia)). rewrite !andb_true_iff in D. destruct D as [[[D1 D2] D3] D4].
    split; [exact D1|]. split; [exact D2|]. split.
    - destruct (pending d (upto fe j)) as [[]|]; try discriminate D3; auto. apply andb_true_iff in D3. destruct D3 as [E1 E2]. apply Z.leb_le in E1. apply Z.ltb_lt in E2. auto.
    - destruct (fd j) as [[]| |]; auto. intros ->. rewrite Nat.eqb_refl in D4. exact D4. }
  constructor.
  - apply kscript_fair. exact H.
  - intros j Hj. destruct (AT j Hj) as (k & Hk & -> & _). destruct (D' k Hk) as (A1 & A2 & _). auto.
  - destruct (pending d (upto fe i0)); [discriminate|reflexivity].
  - intros j x Hj Px. destruct (AT j Hj) as (k & Hk & _ & E & _). rewrite E in Px. destruct (D' k Hk) as (_ & _ & A3 & _). rewrite Px in A3. destruct x; try contradiction. destruct A3. eauto.
  - intros j. exists (Nat.max j N). split; [lia|]. destruct (kafter r fsz ks (Nat.max j N) ltac:(lia)) as [-> _]. rewrite kafter_upto by lia. destruct (pending d (upto fe N)); [left; congruence|right; right]. destruct (available _ _); [reflexivity|discriminate].
  - intros j e Hj Ea. destruct (AT j Hj) as (k & Hk & _ & _ & E). rewrite E in Ea. destruct (D' k Hk) as (_ & _ & _ & A4). rewrite Ea in A4. auto.
Qed.
Definition kalone c i0 : bool :=
  forallb (fun j => forallb (fun e => match e with ECommit c' _ => Nat.eqb c' c | _ => true end) (fe j)) (seq i0 (N - i0)).
Lemma kscript_alone c i0 : kalone c i0 = true -> forall j, (i0 <= j)%nat -> ~ written_by_other c (fe j).
Proof.
  intros H j Hj (c' & ms & NE & HI). destruct (Nat.lt_ge_cases j N) as [Hn|Hn].
  - unfold kalone in H. rewrite forallb_forall in H. specialize (H j). rewrite in_seq in H. specialize (H ltac:(lia)). rewrite forallb_forall in H. specialize (H _ HI). cbn in H. apply Nat.eqb_eq in H. contradiction.
  - destruct (kafter r fsz ks j Hn) as [_ E]. rewrite E in HI. exact HI.
Qed.
Lemma kscript_calm i0 : forallb (fun k => match k with Do _ => true | _ => false end) (skipn i0 ks) = true -> no_kills fd i0.
Proof.
  intros H j Hj. unfold kfd, kdeed. destruct (nth_error ks j) as [k|] eqn:E; [|eauto]. rewrite forallb_forall in H. specialize (H k).
  assert (HI : In k (skipn i0 ks)).
  { rewrite <- (firstn_skipn i0 ks) in E. rewrite nth_error_app2 in E by (rewrite firstn_length; lia). apply nth_error_In in E. exact E. }
  specialize (H HI). destruct k; try discriminate. eauto.
Qed.
End KScript.

(** The deadlock of C79 (d79x): a reader was killed after taking everything and
    before waking anyone; the writer (client 0) sleeps although there is room,
    the other reader (client 2) on the empty ring.  Then a new reader (client 3)
    and a new writer (client 4) open the ring; the reader falls asleep; the writer
    fills the ring and falls asleep in its next write; the reader wakes and
    reads, the writer wakes and writes, the reader reads that and is asleep. *)
Definition d92 := d79x ++ map Do ([Open RD 11; Open WR 12] ++ read 3 10 1 ++ write 4 [[1;2;3;4;5;6;7]] ++ write 4 [[5;6;7;8]]
  ++ [Recv 3; Run 3; Recv 4; Run 4] ++ read 3 10 1 ++ read 3 10 1).
Notation W92 := (kfw plain_ring plain_size d92).
Notation D92 := (kfd plain_ring plain_size d92).
Notation V92 := (kfe plain_ring plain_size d92).
Definition i92 := (KN d79x + 2)%nat.
Lemma d92_forever : kforever steady plain_ring W92 D92 V92.
Proof. apply kscript_forever; [exact plain_fresh|vm_compute; reflexivity]. Qed.
Lemma d92_fair : kfair W92 D92 V92 4.
Proof. apply kscript_fair. vm_compute. reflexivity. Qed.
Lemma d92_reads : reads_on plain_ring W92 D92 V92 3 i92.
Proof. apply kscript_reads_on; [vm_compute; lia|vm_compute; reflexivity|vm_compute; reflexivity]. Qed.
Lemma d92_alone j : (i92 <= j)%nat -> ~ written_by_other 4 (V92 j).
Proof. revert j. apply kscript_alone. vm_compute. reflexivity. Qed.
Lemma d92_calm : no_kills D92 i92.
Proof. apply kscript_calm. vm_compute. reflexivity. Qed.
(** the same executions as for C79: one who was already in a call when the process was killed *)
Lemma d79x_reads : reads_on plain_ring WX79 DX79 VX79 2 9.
Proof. apply kscript_reads_on; [vm_compute; lia|vm_compute; reflexivity|vm_compute; reflexivity]. Qed.
Lemma n92_writer_no : exists r W D V i0 c d, kforever steady r W D V /\ no_kills D i0 /\ reads_on r W D V d i0 /\ (forall c, kfair W D V c)
  /\ (forall j, (i0 <= j)%nat -> ~ written_by_other c (V j)) /\ pending c (upto V i0) = Some (CWrite [[1;2;3;4]]) /\ (forall j, (i0 <= j)%nat -> ~ ends c (V j)).
Proof.
  exists plain_ring, WX79, DX79, VX79, 9%nat, O, 2%nat. split; [exact d79x_forever|]. split; [apply kscript_calm; vm_compute; reflexivity|]. split; [exact d79x_reads|].
  split; [exact d79x_fair|]. split; [apply kscript_alone; vm_compute; reflexivity|]. split; [vm_compute; reflexivity|].
  intros j Hj. destruct (Nat.le_gt_cases (KN d79x) j) as [H|H].
  - rewrite (d79x_still j H). intros [[x []]|[]].
  - assert (Q : j = 9%nat \/ j = 10%nat \/ j = 11%nat \/ j = 12%nat) by (change (KN d79x) with 13%nat in H; lia).
    destruct Q as [->|[->|[->| ->]]]; intros [[x Q]|Q]; vm_compute in Q; repeat (destruct Q as [Q|Q]; [discriminate|]); destruct Q.
Qed.
Lemma n92_reader_no : exists r W D V i0 d buf niov, kforever steady r W D V /\ no_kills D i0 /\ (forall c, kfair W D V c)
  /\ pending d (upto V i0) = Some (CRead buf niov) /\ r_n r <= usable buf /\ 0 < niov /\ ring_unread (w_ring (W i0)) <> [] /\ (forall j, (i0 <= j)%nat -> V j = []).
Proof.
  exists plain_ring, WY79, DY79, VY79, (KN d79y), 1%nat, (zeros 10), 5. split; [exact d79y_forever|]. split; [apply kscript_calm; vm_compute; reflexivity|].
  split; [exact d79y_fair|]. split; [vm_compute; reflexivity|]. split; [vm_compute; discriminate|]. split; [lia|]. split; [vm_compute; discriminate|]. exact d79y_still.
Qed.
