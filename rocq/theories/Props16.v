(** * The theorems, sixteenth part: what must eventually happen (C58, C59). *)
From Verif Require Import FairWitness.

(** ** C58 *)
(** A reader blocked in (or in the middle of) a read, with a message there for it: the read ends, or
    (not in a FARM ring) another reader has taken messages meanwhile. *)
Theorem C58_reader : forall r W A V, forever steady r W A V -> forall c buf niov i, fair W A V c ->
  pending c (upto V i) = Some (CRead buf niov) -> available (w_ring (W i)) (c_q (cli (W i) c)) <> [] ->
  exists j, (i <= j)%nat /\ (ends c (V j) \/ (r_farm r = false /\ taken_by_other c (V j))).
Proof. exact l_reader. Qed.
Print Assumptions C58_reader.

(** A writer blocked in (or in the middle of) adding messages, which now have
    room in the ring, or whose ring is one with DROP: the messages are added,
    or its call ends, or another writer has added messages meanwhile. *)
Theorem C58_writer : forall r W A V, forever steady r W A V -> forall c i, fair W A V c ->
  let iov := adding (W i) c in iov <> [] ->
  r_drop (w_ring (W i)) = true \/ room (r_n (w_ring (W i))) (r_mm (w_ring (W i))) iov (ring_unread (w_ring (W i))) = true ->
  exists j, (i <= j)%nat /\ (In (ECommit c iov) (V j) \/ ends c (V j) \/ written_by_other c (V j)).
Proof. exact l_writer. Qed.
Print Assumptions C58_writer.

(** The reader is asleep after 4 steps, and still asleep after the first write
    (step 6); the writer is asleep after 8 steps, and there is room for its
    messages, with it still asleep, after 10. *)
Example C58_case :
  let W := fw plain_ring plain_size d58 in let A := fa plain_ring plain_size d58 in let V := fe plain_ring plain_size d58 in
  forever steady plain_ring W A V /\ fair W A V 0 /\ fair W A V 1
  /\ pending 1 (upto V 4%nat) = Some (CRead (zeros 10) 1) /\ asleep (W 4%nat) 1 = true
  /\ pending 1 (upto V 6%nat) = Some (CRead (zeros 10) 1) /\ asleep (W 6%nat) 1 = true /\ available (w_ring (W 6%nat)) (c_q (cli (W 6%nat) 1)) = [[1;2;3;4;5;6;7]]
  /\ (exists x, In (ERet 1 x) (V 9%nat))
  /\ adding (W 10%nat) 0 = [[1;2;3;4]] /\ asleep (W 10%nat) 0 = true
  /\ room (r_n (w_ring (W 10%nat))) (r_mm (w_ring (W 10%nat))) [[1;2;3;4]] (ring_unread (w_ring (W 10%nat))) = true
  /\ room (r_n (w_ring (W 8%nat))) (r_mm (w_ring (W 8%nat))) [[1;2;3;4]] (ring_unread (w_ring (W 8%nat))) = false
  /\ In (ECommit 0 [[1;2;3;4]]) (V 11%nat).
Proof.
  cbv zeta. split; [exact d58_forever|]. split; [apply d58_fair; auto|]. split; [apply d58_fair; auto|].
  do 5 (split; [vm_compute; reflexivity|]). split; [eexists; vm_compute; left; reflexivity|].
  do 4 (split; [vm_compute; reflexivity|]). vm_compute. left. reflexivity.
Qed.

(** ** C59 *)
(** While one reader reads on, every call of the only writer ends. *)
Theorem C59_calls_end : forall r W A V, forever steady r W A V -> forall c d i0, keeps_reading r W A V d i0 -> fair W A V c ->
  (forall j, (i0 <= j)%nat -> ~ written_by_other c (V j)) ->
  forall x i, (forall buf niov, x <> CRead buf niov) -> (i0 <= i)%nat -> pending c (upto V i) = Some x ->
  exists j, (i <= j)%nat /\ ends c (V j).
Proof. exact pipe. Qed.
Print Assumptions C59_calls_end.

(** While one reader reads on, every message added to a ring without DROP is
    handed to a reader, and in the order in which they were added. *)
Theorem C59_delivered : forall r W A V, forever steady r W A V -> forall d i0, r_drop r = false -> keeps_reading r W A V d i0 ->
  forall i, (i0 <= i)%nat -> exists j more, (i <= j)%nat /\ delivered (upto V j) = committed (upto V i) ++ more.
Proof. exact delivery. Qed.
Print Assumptions C59_delivered.
Example C59_case :
  let W := fw plain_ring plain_size d58 in let A := fa plain_ring plain_size d58 in let V := fe plain_ring plain_size d58 in
  forever steady plain_ring W A V /\ fair W A V 0 /\ keeps_reading plain_ring W A V 1 2
  /\ (forall j, (2 <= j)%nat -> ~ written_by_other 0 (V j))
  /\ pending 0 (upto V 8%nat) = Some (CWrite [[1;2;3;4]]) /\ asleep (W 8%nat) 0 = true /\ (exists x, In (ERet 0 x) (V 11%nat))
  /\ committed (upto V 12%nat) = [[1;2;3;4;5;6;7];[1;2;3;4]] /\ delivered (upto V 12%nat) = [[1;2;3;4;5;6;7]]
  /\ delivered (upto V 16%nat) = [[1;2;3;4;5;6;7];[1;2;3;4]].
Proof.
  cbv zeta. split; [exact d58_forever|]. split; [apply d58_fair; auto|]. split; [exact d58_reads|]. split; [exact d58_alone|].
  do 2 (split; [vm_compute; reflexivity|]). split; [eexists; vm_compute; right; left; reflexivity|].
  do 2 (split; [vm_compute; reflexivity|]). vm_compute. reflexivity.
Qed.
