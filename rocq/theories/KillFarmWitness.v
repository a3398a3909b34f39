(** * A concrete execution for C95.  Nothing here is part of the model. *)
From Verif Require Export KillFarm KillPipeWitness.

(** A FARM ring.  A writer (client 2) is killed after storing its message and
    before waking anyone.  Then client 0 writes and the reader (client 1) reads
    on, and is handed both; client 0 writes four messages, of which the ring can
    keep three, before the reader, which they woke, runs. *)
Definition d95 := map Do ([Open WR 7; Open RD 8; Open WR 9] ++ write 0 [[1;1]] ++ read 1 10 1 ++ [Call 2 (CWrite [[2;2]])]) ++ [Kill 2 16]
  ++ map Do (write 0 [[3]] ++ read 1 10 1 ++ read 1 10 1 ++ read 1 10 1 ++ write 0 [[4]] ++ write 0 [[5]] ++ write 0 [[6]] ++ write 0 [[7]]
  ++ [Recv 1; Run 1] ++ read 1 10 1 ++ read 1 10 1).
Notation W95 := (kfw farm_ring farm_size d95).
Notation D95 := (kfd farm_ring farm_size d95).
Notation V95 := (kfe farm_ring farm_size d95).
Lemma d95_forever : kforever steady farm_ring W95 D95 V95.
Proof. apply kscript_forever; [exact farm_fresh|vm_compute; reflexivity]. Qed.
Lemma d95_reads : reads_on farm_ring W95 D95 V95 1 9.
Proof. apply kscript_reads_on; [vm_compute; lia|vm_compute; reflexivity|vm_compute; reflexivity]. Qed.
Lemma d95_calm : no_kills D95 9.
Proof. apply kscript_calm. vm_compute. reflexivity. Qed.
(** the reader is asleep when the writer is killed: it is left asleep *)
Notation WF95 := (kfw farm_ring farm_size d79y).
Notation DF95 := (kfd farm_ring farm_size d79y).
Notation VF95 := (kfe farm_ring farm_size d79y).
Lemma n95_reader_no : exists r W D V i0 d buf niov, kforever steady r W D V /\ no_kills D i0 /\ r_farm r = true /\ kfair W D V d
  /\ pending d (upto V i0) = Some (CRead buf niov) /\ r_n r <= usable buf /\ 0 < niov /\ available (w_ring (W i0)) (c_q (cli (W i0) d)) <> [] /\ (forall j, (i0 <= j)%nat -> V j = []).
Proof.
  exists farm_ring, WF95, DF95, VF95, (KN d79y), 1%nat, (zeros 10), 5. split; [apply kscript_forever; [exact farm_fresh|vm_compute; reflexivity]|]. split; [apply kscript_calm; vm_compute; reflexivity|].
  split; [reflexivity|]. split; [apply kscript_fair; vm_compute; reflexivity|]. split; [vm_compute; reflexivity|]. split; [vm_compute; discriminate|]. split; [lia|]. split; [vm_compute; discriminate|].
  intros j H. apply (kafter farm_ring farm_size d79y j H).
Qed.
