(** * The theorems, twenty-second part: what must eventually happen when
    processes are killed (C79). *)
From Verif Require Import KillFairWitness.

(** ** C79 *)
(** C58 when processes are killed at any point of what they execute.  A reader
    in a read, with a message there for it that was not left by a writer killed
    before its call returned: the read ends, or (not in a FARM ring) another
    reader has taken messages meanwhile, or messages are lost because another
    process is killed in a read (or, with DROP, a write). *)
Theorem C79_reader : forall r W D V, kforever steady r W D V -> forall c buf niov i, kfair W D V c ->
  pending c (upto V i) = Some (CRead buf niov) -> available (w_ring (W i)) (c_q (cli (W i) c)) <> [] -> ~ orphaned (upto V i) ->
  exists j, (i <= j)%nat /\ (ends c (V j) \/ (r_farm r = false /\ taken_by_other c (V j)) \/ lost_to_kill r V c j).
Proof. exact kl_reader. Qed.
Print Assumptions C79_reader.

(** Whatever was killed before: as soon as a write of another process stores
    messages without being cut short, the same holds. *)
Theorem C79_next_write : forall r W D V, kforever steady r W D V -> forall c buf niov i a c' ms, kfair W D V c ->
  pending c (upto V i) = Some (CRead buf niov) -> D i = Acts a -> In (ECommit c' ms) (V i) ->
  exists j, (i <= j)%nat /\ (ends c (V j) \/ (r_farm r = false /\ taken_by_other c (V j)) \/ lost_to_kill r V c j).
Proof. exact kl_next_write. Qed.
Print Assumptions C79_next_write.

(** A writer with messages that have room (or with DROP), when the last reader
    killed in a read was followed by a read that returned messages: the messages
    are added, or its call ends, or another writer has added messages. *)
Theorem C79_writer : forall r W D V, kforever steady r W D V -> forall c i, kfair W D V c -> let iov := adding (W i) c in iov <> [] ->
  r_drop (w_ring (W i)) = true \/ room (r_n (w_ring (W i))) (r_mm (w_ring (W i))) iov (ring_unread (w_ring (W i))) = true -> ~ robbed (upto V i) ->
  exists j, (i <= j)%nat /\ (In (ECommit c iov) (V j) \/ ends c (V j) \/ written_by_other c (V j)).
Proof. exact kl_writer. Qed.
Print Assumptions C79_writer.

(** Whatever was killed before: as soon as a read returns messages and leaves
    room, the same holds. *)
Theorem C79_next_read : forall r W D V, kforever steady r W D V -> forall c i a c' v b io, kfair W D V c -> let iov := adding (W i) c in iov <> [] ->
  D i = Acts a -> In (ERet c' (RetRead v b io)) (V i) -> 0 < v ->
  r_drop (w_ring (W (S i))) = true \/ room (r_n (w_ring (W (S i)))) (r_mm (w_ring (W (S i)))) iov (ring_unread (w_ring (W (S i)))) = true ->
  exists j, (i <= j)%nat /\ (In (ECommit c iov) (V j) \/ ends c (V j) \/ written_by_other c (V j)).
Proof. exact kl_next_read. Qed.
Print Assumptions C79_next_read.

(** The writer of step 6 is killed after storing [1;2] and before it wakes the
    reader, which sleeps on although a message is there; the write of step 8
    wakes it. *)
Example C79_read_case :
  let W := kfw plain_ring plain_size d79r in let D := kfd plain_ring plain_size d79r in let V := kfe plain_ring plain_size d79r in
  kforever steady plain_ring W D V /\ kfair W D V 1
  /\ pending 1 (upto V 7%nat) = Some (CRead (zeros 10) 5) /\ asleep (W 7%nat) 1 = true
  /\ (exists c e line m, D 6%nat = Killed c e line m) /\ V 6%nat = [ECommit 2 [[1;2]]; ECrash 2]
  /\ available (w_ring (W 7%nat)) (c_q (cli (W 7%nat) 1)) = [[1;2]] /\ orphaned (upto V 7%nat)
  /\ data_sock (W 7%nat) 1 = Some 1%nat /\ ~ readable (W 7%nat) 1
  /\ pending 1 (upto V 8%nat) = Some (CRead (zeros 10) 5) /\ (exists a, D 8%nat = Acts a) /\ In (ECommit 0 [[3]]) (V 8%nat)
  /\ pending 1 (upto V 9%nat) = Some (CRead (zeros 10) 5) /\ asleep (W 9%nat) 1 = true
  /\ available (w_ring (W 9%nat)) (c_q (cli (W 9%nat) 1)) = [[1;2];[3]] /\ ~ orphaned (upto V 9%nat)
  /\ V 10%nat = [ERet 1 (RetRead 3 ([1;2;3] ++ zeros 7) [(0, 2); (2, 1)])].
Proof.
  cbv zeta. split; [exact d79r_forever|]. split; [apply d79r_fair; auto|]. do 2 (split; [vm_compute; reflexivity|]).
  split; [do 4 eexists; vm_compute; reflexivity|]. do 2 (split; [vm_compute; reflexivity|]).
  split; [exists (upto (kfe plain_ring plain_size d79r) 6), 2%nat, [[1;2]], []; split; vm_compute; reflexivity|].
  split; [vm_compute; reflexivity|]. split; [vm_compute; discriminate|].
  split; [vm_compute; reflexivity|]. split; [eexists; vm_compute; reflexivity|]. split; [vm_compute; left; reflexivity|].
  do 3 (split; [vm_compute; reflexivity|]). split; [apply orph_sound; vm_compute; reflexivity|]. vm_compute. reflexivity.
Qed.

(** The reader of step 9 is killed after taking the message and before it wakes
    the writer, which sleeps on although there is room; the read of step 13
    wakes it. *)
Example C79_write_case :
  let W := kfw plain_ring plain_size d79w in let D := kfd plain_ring plain_size d79w in let V := kfe plain_ring plain_size d79w in
  kforever steady plain_ring W D V /\ kfair W D V 0
  /\ (exists c e line m, D 9%nat = Killed c e line m) /\ V 9%nat = [ECrash 1]
  /\ adding (W 10%nat) 0 = [[1;2;3;4]] /\ asleep (W 10%nat) 0 = true /\ ring_unread (w_ring (W 10%nat)) = [] /\ robbed (upto V 10%nat)
  /\ adding (W 13%nat) 0 = [[1;2;3;4]] /\ asleep (W 13%nat) 0 = true /\ (exists a, D 13%nat = Acts a) /\ In (ERet 2 (RetRead 1 (5 :: zeros 9) [(0, 1)])) (V 13%nat)
  /\ adding (W 14%nat) 0 = [[1;2;3;4]] /\ asleep (W 14%nat) 0 = true /\ ~ robbed (upto V 14%nat)
  /\ room (r_n (w_ring (W 14%nat))) (r_mm (w_ring (W 14%nat))) [[1;2;3;4]] (ring_unread (w_ring (W 14%nat))) = true
  /\ In (ECommit 0 [[1;2;3;4]]) (V 15%nat).
Proof.
  cbv zeta. split; [exact d79w_forever|]. split; [apply d79w_fair; auto|].
  split; [do 4 eexists; vm_compute; reflexivity|]. do 4 (split; [vm_compute; reflexivity|]).
  split; [exists (upto (kfe plain_ring plain_size d79w) 9), 1%nat, (zeros 10), 1, []; split; [vm_compute; reflexivity|split; [vm_compute; reflexivity|intros ? ? ? ? []]]|].
  do 2 (split; [vm_compute; reflexivity|]). split; [eexists; vm_compute; reflexivity|]. split; [vm_compute; left; reflexivity|].
  do 2 (split; [vm_compute; reflexivity|]). split; [apply rob_sound; vm_compute; reflexivity|]. split; [vm_compute; reflexivity|]. vm_compute. left. reflexivity.
Qed.

(** The exceptions are needed.  Without "a read returned messages after the last
    reader was killed", C79_writer is false: there is an execution in which every
    client is treated fairly, a writer has messages that have room, another
    client is in a read, and nothing ever happens again. *)
Theorem C79_writer_exception_needed : exists r W D V, kforever steady r W D V /\ (forall c, kfair W D V c) /\ exists c i, let iov := adding (W i) c in iov <> []
  /\ room (r_n (w_ring (W i))) (r_mm (w_ring (W i))) iov (ring_unread (w_ring (W i))) = true
  /\ (exists c' buf niov, c' <> c /\ pending c' (upto V i) = Some (CRead buf niov)) /\ (forall j, (i <= j)%nat -> V j = []).
Proof. exact k79_writer_no. Qed.
Print Assumptions C79_writer_exception_needed.

(** Likewise for C79_reader: a reader is in a read, a message is there for it,
    left by a writer killed before its call returned, and nothing ever happens
    again. *)
Theorem C79_reader_exception_needed : exists r W D V, kforever steady r W D V /\ (forall c, kfair W D V c) /\ exists c i buf niov,
  pending c (upto V i) = Some (CRead buf niov) /\ available (w_ring (W i)) (c_q (cli (W i) c)) <> [] /\ (forall j, (i <= j)%nat -> V j = []).
Proof. exact k79_reader_no. Qed.
Print Assumptions C79_reader_exception_needed.
