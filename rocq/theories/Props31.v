(** * The theorems, thirty-first part: several writers (C93). *)
From Verif Require Import SomeWitness.

(** ** C93 *)
(** With any number of writers, while one reader reads on: when a client is
    trying to add messages, then these are added, or its call ends, or another
    client adds messages. *)
Theorem C93_some_writer : forall r W A V, forever steady r W A V -> forall c d i0, keeps_reading r W A V d i0 -> fair W A V c ->
  forall i, (i0 <= i)%nat -> let iov := adding (W i) c in iov <> [] ->
  exists j, (i <= j)%nat /\ (In (ECommit c iov) (V j) \/ ends c (V j) \/ written_by_other c (V j)).
Proof. exact f_some. Qed.
Print Assumptions C93_some_writer.

(** The same after processes were killed, for clients that start afresh. *)
Theorem C93_after_kills : forall r W D V i0, kforever steady r W D V -> no_kills D i0 ->
  forall c d, reads_on r W D V d i0 -> kfair W D V c -> pending c (upto V i0) = None ->
  forall i, (i0 <= i)%nat -> let iov := adding (W i) c in iov <> [] ->
  exists j, (i <= j)%nat /\ (In (ECommit c iov) (V j) \/ ends c (V j) \/ written_by_other c (V j)).
Proof. exact k_some. Qed.
Print Assumptions C93_after_kills.

(** A writer (client 2) is asleep, the ring being full, after 9 steps and again
    after 15, another (client 0) having filled the ring once more. *)
Example C93_case :
  let W := fw plain_ring plain_size d93 in let A := fa plain_ring plain_size d93 in let V := fe plain_ring plain_size d93 in
  forever steady plain_ring W A V /\ fair W A V 2 /\ keeps_reading plain_ring W A V 1 2
  /\ adding (W 9%nat) 2 = [[1;2;3;4]] /\ asleep (W 9%nat) 2 = true /\ written_by_other 2 (V 12%nat)
  /\ asleep (W 14%nat) 2 = false /\ adding (W 15%nat) 2 = [[1;2;3;4]] /\ asleep (W 15%nat) 2 = true /\ In (ECommit 2 [[1;2;3;4]]) (V 18%nat).
Proof.
  cbv zeta. split; [exact d93_forever|]. split; [exact d93_fair|]. split; [exact d93_reads|]. do 2 (split; [vm_compute; reflexivity|]).
  split; [exists O, [[8;8;8;8;8;8;8;8]]; split; [discriminate|vm_compute; left; reflexivity]|]. do 3 (split; [vm_compute; reflexivity|]). vm_compute. left. reflexivity.
Qed.
Example C93_after_kills_case :
  let W := kfw plain_ring plain_size d92 in let D := kfd plain_ring plain_size d92 in let V := kfe plain_ring plain_size d92 in
  kforever steady plain_ring W D V /\ no_kills D i92 /\ reads_on plain_ring W D V 3 i92 /\ kfair W D V 4 /\ pending 4 (upto V i92) = None
  /\ adding (W 21%nat) 4 = [[5;6;7;8]] /\ asleep (W 21%nat) 4 = true /\ In (ECommit 4 [[5;6;7;8]]) (V 24%nat).
Proof.
  cbv zeta. split; [exact d92_forever|]. split; [exact d92_calm|]. split; [exact d92_reads|]. split; [exact d92_fair|]. do 3 (split; [vm_compute; reflexivity|]). vm_compute. left. reflexivity.
Qed.
