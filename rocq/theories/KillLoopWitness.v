(** * Concrete executions for C96: a reader with an event loop, processes killed.
    Nothing here is part of the model. *)
From Verif Require Export KillLoop KillPipeWitness KillFarmWitness.

Section KScript.
Variables (r : ring) (fsz : Z) (ks : list kcmd).
Notation fw := (kfw r fsz ks). Notation fd := (kfd r fsz ks). Notation fe := (kfe r fsz ks). Notation N := (KN ks).
Definition bell_b (w : world) d : bool := match data_sock w d with Some s => 0 <? k_pend (sk (w_ks w) s) | None => false end.
Definition kloops d i0 : bool :=
  forallb (fun j => c_live (cli (fw j) d) && has (c_flags (cli (fw j) d)) SHR_RDONLY && nonblocking (fw j) d
     && match fd j with
        | Acts (ARun c e) => negb (Nat.eqb c d) || e_lock e
        | Acts (ACall c x) => negb (Nat.eqb c d)
            || (match x with CRead buf niov => (r_n r <=? usable buf) && (0 <? niov) | _ => false end && bell_b (fw j) d)
        | _ => true end) (seq i0 (S N - i0))
  && match pending d (upto fe i0) with None => true | Some _ => false end
  && (match available (w_ring (fw i0)) (c_q (cli (fw i0) d)) with [] => true | _ => bell_b (fw i0) d end)
  && match data_sock (fw N) d with Some s => negb (0 <? k_pend (sk (w_ks (fw N)) s)) | None => true end.
Lemma bell_sound w d : bell_b w d = true -> exists s, data_sock w d = Some s /\ readable w s.
Proof. unfold bell_b. destruct (data_sock w d) as [s|]; [|discriminate]. intros H. apply Z.ltb_lt in H. exists s. auto. Qed.
Lemma kscript_loop d i0 : (i0 <= N)%nat -> kresting r fsz ks d = true -> kloops d i0 = true -> kevent_loop r fw fd fe d i0.
Proof.
  intros L0 H D. unfold kloops in D. apply andb_true_iff in D. destruct D as [D DN]. apply andb_true_iff in D. destruct D as [D D1]. apply andb_true_iff in D. destruct D as [D D0]. rewrite forallb_forall in D.
  assert (AT : forall j, (i0 <= j)%nat -> exists k, (i0 <= k <= N)%nat /\ fw j = fw k /\ (fd j = fd k)).
  { intros j Hj. destruct (Nat.le_gt_cases j N) as [Hn|Hn]; [exists j; repeat split; auto|].
    exists N. split; [lia|]. split; [apply kafter; lia|]. rewrite !knothing by lia. reflexivity. }
  assert (D' : forall j, (i0 <= j <= N)%nat -> c_live (cli (fw j) d) = true /\ has (c_flags (cli (fw j) d)) SHR_RDONLY = true /\ nonblocking (fw j) d = true
     /\ match fd j with Acts (ARun c e) => c = d -> e_lock e = true
        | Acts (ACall c x) => c = d -> (exists buf niov, x = CRead buf niov /\ r_n r <= usable buf /\ 0 < niov) /\ exists s, data_sock (fw j) d = Some s /\ readable (fw j) s
        | _ => True end).
  { intros j Hj. specialize (D j). rewrite in_seq in D. specialize (D ltac:(lia)). rewrite !andb_true_iff in D. destruct D as [[[E1 E2] E3] E4].
    split; [exact E1|]. split; [exact E2|]. split; [exact E3|].
    destruct (fd j) as [[]| |]; auto.
    - intros ->. rewrite Nat.eqb_refl in E4. cbn [negb orb] in E4. apply andb_true_iff in E4. destruct E4 as [E4 E5]. split; [|apply bell_sound; exact E5].
      destruct x; try discriminate. apply andb_true_iff in E4. destruct E4 as [E4 E6]. apply Z.leb_le in E4. apply Z.ltb_lt in E6. eauto.
    - intros ->. rewrite Nat.eqb_refl in E4. exact E4. }
  constructor.
  - apply kscript_fair. exact H.
  - intros j Hj. destruct (AT j Hj) as (k & Hk & -> & _). destruct (D' k Hk) as (A1 & A2 & A3 & _). auto.
  - destruct (pending d (upto fe i0)); [discriminate|reflexivity].
  - destruct (available _ _); [left; reflexivity|right; apply bell_sound; exact D1].
  - intros j x Hj Ea. destruct (AT j Hj) as (k & Hk & -> & E). rewrite E in Ea. destruct (D' k Hk) as (_ & _ & _ & A4). rewrite Ea in A4.
    destruct (A4 eq_refl) as ((buf & niov & -> & B1 & B2) & B). split; [|exact B]. exists buf, niov. auto.
  - intros j. exists (Nat.max j N). split; [lia|]. right. destruct (kafter r fsz ks (Nat.max j N) ltac:(lia)) as [-> _].
    destruct (D' N ltac:(lia)) as (_ & _ & A3 & _). split; [exact A3|]. intros s Hs. rewrite Hs in DN. apply negb_true_iff, Z.ltb_ge in DN. unfold readable. lia.
  - intros j e Hj Ea. destruct (AT j Hj) as (k & Hk & _ & E). rewrite E in Ea. destruct (D' k Hk) as (_ & _ & _ & A4). rewrite Ea in A4. auto.
Qed.
End KScript.

(** Client 2, a writer, is killed (step 6) after storing its message and before
    waking anyone, when client 1, a reader with an event loop, has not read what
    client 0 wrote before. *)
Definition d96 := map Do ([Open WR 7; Open RDN 8; Open WR 9] ++ write 0 [[1]] ++ [Call 2 (CWrite [[2;2]])]) ++ [Kill 2 16]
  ++ map Do (read 1 10 5 ++ write 0 [[1;2;3;4;5;6;7]] ++ write 0 [[1;2;3;4]] ++ read 1 10 1 ++ [Recv 0; Run 0] ++ read 1 10 1).
Notation W96 := (kfw plain_ring plain_size d96).
Notation D96 := (kfd plain_ring plain_size d96).
Notation V96 := (kfe plain_ring plain_size d96).
Lemma d96_forever : kforever steady plain_ring W96 D96 V96.
Proof. apply kscript_forever; [exact plain_fresh|vm_compute; reflexivity]. Qed.
Lemma d96_loop : kevent_loop plain_ring W96 D96 V96 1 7.
Proof. apply kscript_loop; [vm_compute; lia|vm_compute; reflexivity|vm_compute; reflexivity]. Qed.
Lemma d96_calm : no_kills D96 7.
Proof. apply kscript_calm. vm_compute. reflexivity. Qed.
Lemma d96_fair c : c = O \/ c = 1%nat -> kfair W96 D96 V96 c.
Proof. intros [->| ->]; apply kscript_fair; vm_compute; reflexivity. Qed.
Lemma d96_alone j : (7 <= j)%nat -> ~ written_by_other 0 (V96 j).
Proof. revert j. apply kscript_alone; vm_compute; reflexivity. Qed.

(** the same, of a FARM ring, in which one of the messages that client 0 then
    writes is overwritten *)
Definition d97 := map Do ([Open WR 7; Open RDN 8; Open WR 9] ++ write 0 [[1;1]] ++ [Call 2 (CWrite [[2;2]])]) ++ [Kill 2 16]
  ++ map Do (read 1 10 5 ++ write 0 [[3;3;3]] ++ write 0 [[4;4;4]] ++ write 0 [[5;5;5]] ++ write 0 [[6;6;6]] ++ read 1 10 5).
Notation W97 := (kfw farm_ring farm_size d97).
Notation D97 := (kfd farm_ring farm_size d97).
Notation V97 := (kfe farm_ring farm_size d97).
Lemma d97_forever : kforever steady farm_ring W97 D97 V97.
Proof. apply kscript_forever; [exact farm_fresh|vm_compute; reflexivity]. Qed.
Lemma d97_loop : kevent_loop farm_ring W97 D97 V97 1 7.
Proof. apply kscript_loop; [vm_compute; lia|vm_compute; reflexivity|vm_compute; reflexivity]. Qed.
Lemma d97_calm : no_kills D97 7.
Proof. apply kscript_calm. vm_compute. reflexivity. Qed.

(** the reader had emptied the ring when the writer was killed *)
Definition d98 := map Do ([Open WR 7; Open RDN 8; Open WR 9] ++ write 0 [[1]] ++ read 1 10 5 ++ [Call 2 (CWrite [[2;2]])]) ++ [Kill 2 16].
Notation W98 := (kfw plain_ring plain_size d98).
Notation D98 := (kfd plain_ring plain_size d98).
Notation V98 := (kfe plain_ring plain_size d98).
Lemma n96_first_no : exists r W D V i0 i d, kforever steady r W D V /\ kevent_loop r W D V d i0 /\ (i0 < i)%nat /\ no_kills D i
  /\ pending d (upto V i) = None /\ ring_unread (w_ring (W i)) <> [] /\ (exists s, data_sock (W i) d = Some s /\ ~ readable (W i) s) /\ (forall j, (i <= j)%nat -> V j = []).
Proof.
  exists plain_ring, W98, D98, V98, 3%nat, (KN d98), 1%nat. split; [apply kscript_forever; [exact plain_fresh|vm_compute; reflexivity]|].
  split; [apply kscript_loop; [vm_compute; lia|vm_compute; reflexivity|vm_compute; reflexivity]|]. split; [vm_compute; lia|]. split; [apply kscript_calm; vm_compute; reflexivity|].
  split; [vm_compute; reflexivity|]. split; [vm_compute; discriminate|]. split; [eexists; split; [vm_compute; reflexivity|vm_compute; discriminate]|].
  intros j H. apply (kafter plain_ring plain_size d98 j H).
Qed.
