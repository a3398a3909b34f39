(** * The theorems, thirtieth part: starting afresh after processes were killed (C92). *)
From Verif Require Import KillPipeWitness.

(** ** C92 *)
(** Whatever was killed before, at whatever point: if from the [i0]th step on no
    process is killed in the middle of a call, a reader that was not in a call
    then reads on, and a writer that was not in a call then is the only one to
    write, then each of that writer's calls ends. *)
Theorem C92_calls_end : forall r W D V i0, kforever steady r W D V -> no_kills D i0 ->
  forall c d, reads_on r W D V d i0 -> kfair W D V c -> pending c (upto V i0) = None -> (forall j, (i0 <= j)%nat -> ~ written_by_other c (V j)) ->
  forall x i, (forall buf niov, x <> CRead buf niov) -> (i0 <= i)%nat -> pending c (upto V i) = Some x -> exists j, (i <= j)%nat /\ ends c (V j).
Proof. exact n_pipe. Qed.
Print Assumptions C92_calls_end.

(** ... and (with any number of writers) all that was in the ring at the [i0]th
    step, or is added later, is handed to a reader, in order. *)
Theorem C92_delivered : forall r W D V i0, kforever steady r W D V -> no_kills D i0 ->
  forall d, reads_on r W D V d i0 -> r_drop r = false -> forall i, (i0 <= i)%nat ->
  exists j more, (i <= j)%nat /\ delivered (upto V j) = delivered (upto V i) ++ ring_unread (w_ring (W i)) ++ more.
Proof. exact n_delivery. Qed.
Print Assumptions C92_delivered.

(** Steps 0 to 12 are the deadlock of C79; [i92] is 15. *)
Example C92_case :
  let W := kfw plain_ring plain_size d92 in let D := kfd plain_ring plain_size d92 in let V := kfe plain_ring plain_size d92 in
  kforever steady plain_ring W D V /\ no_kills D i92 /\ (exists c e line m, D 8%nat = Killed c e line m)
  /\ reads_on plain_ring W D V 3 i92 /\ kfair W D V 4 /\ pending 4 (upto V i92) = None /\ (forall j, (i92 <= j)%nat -> ~ written_by_other 4 (V j))
  /\ asleep (W i92) 0 = true /\ asleep (W i92) 2 = true
  /\ pending 4 (upto V 21%nat) = Some (CWrite [[5;6;7;8]]) /\ asleep (W 21%nat) 4 = true /\ ends 4 (V 24%nat)
  /\ ring_unread (w_ring (W 21%nat)) = [[1;2;3;4;5;6;7]] /\ delivered (upto V 21%nat) = []
  /\ delivered (upto V 27%nat) = [[1;2;3;4;5;6;7];[5;6;7;8]].
Proof.
  cbv zeta. split; [exact d92_forever|]. split; [exact d92_calm|]. split; [do 4 eexists; vm_compute; reflexivity|]. split; [exact d92_reads|]. split; [exact d92_fair|].
  split; [vm_compute; reflexivity|]. split; [exact d92_alone|]. do 4 (split; [vm_compute; reflexivity|]).
  split; [left; eexists; vm_compute; right; left; reflexivity|]. do 2 (split; [vm_compute; reflexivity|]). vm_compute. reflexivity.
Qed.

(** Without starting afresh neither holds.  A writer that was in its call when a
    reader was killed: the call never ends, although a reader reads on. *)
Theorem C92_writer_afresh_needed : exists r W D V i0 c d, kforever steady r W D V /\ no_kills D i0 /\ reads_on r W D V d i0 /\ (forall c, kfair W D V c)
  /\ (forall j, (i0 <= j)%nat -> ~ written_by_other c (V j)) /\ pending c (upto V i0) = Some (CWrite [[1;2;3;4]]) /\ (forall j, (i0 <= j)%nat -> ~ ends c (V j)).
Proof. exact n92_writer_no. Qed.
Print Assumptions C92_writer_afresh_needed.

(** A reader that was in its call when a writer was killed: nothing more happens,
    although there is a message. *)
Theorem C92_reader_afresh_needed : exists r W D V i0 d buf niov, kforever steady r W D V /\ no_kills D i0 /\ (forall c, kfair W D V c)
  /\ pending d (upto V i0) = Some (CRead buf niov) /\ r_n r <= usable buf /\ 0 < niov /\ ring_unread (w_ring (W i0)) <> [] /\ (forall j, (i0 <= j)%nat -> V j = []).
Proof. exact n92_reader_no. Qed.
Print Assumptions C92_reader_afresh_needed.
