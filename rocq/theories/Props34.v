(** * C96: after processes were killed, a reader with an event loop *)
From Verif Require Import KillLoop KillLoopWitness.

(** From the [i0]th step on no process is killed; client [d], a non-blocking
    reader, calls shr_read when its selectable descriptor is readable
    ([kevent_loop] in KillFairSpec.v).  Whenever there is something for it, the
    descriptor is readable. *)
Theorem C96_ready : forall r W D V i0 d, kforever steady r W D V -> no_kills D i0 -> kevent_loop r W D V d i0 ->
  forall j, (i0 <= j)%nat -> available (w_ring (W j)) (c_q (cli (W j) d)) <> [] -> exists s, data_sock (W j) d = Some s /\ readable (W j) s.
Proof. exact l_ready. Qed.
Print Assumptions C96_ready.

(** All that was in the ring at the [i]th step is handed to a reader, in order,
    and what was handed out before comes first. *)
Theorem C96_delivered : forall r W D V i0, kforever steady r W D V -> no_kills D i0 ->
  forall d, kevent_loop r W D V d i0 -> r_drop r = false -> forall i, (i0 <= i)%nat ->
  exists j more, (i <= j)%nat /\ delivered (upto V j) = delivered (upto V i) ++ ring_unread (w_ring (W i)) ++ more.
Proof. exact l_delivery. Qed.
Print Assumptions C96_delivered.

(** The calls of the only writer that is still running, other than ones it was
    in when the last process was killed, end. *)
Theorem C96_calls_end : forall r W D V i0, kforever steady r W D V -> no_kills D i0 ->
  forall c d, kevent_loop r W D V d i0 -> kfair W D V c -> pending c (upto V i0) = None -> (forall j, (i0 <= j)%nat -> ~ written_by_other c (V j)) ->
  forall x i, (forall buf niov, x <> CRead buf niov) -> (i0 <= i)%nat -> pending c (upto V i) = Some x -> exists j, (i <= j)%nat /\ ends c (V j).
Proof. exact l_pipe. Qed.
Print Assumptions C96_calls_end.

(** In a ring with FARM a message is handed to the reader, unless the reader
    counts, in a read of its own, messages that were overwritten before it read
    them. *)
Theorem C96_farm : forall r W D V i0 d, kforever steady r W D V -> no_kills D i0 -> r_farm r = true -> kevent_loop r W D V d i0 ->
  forall i c ms, (i0 <= i)%nat -> In (ECommit c ms) (V i) -> exists j, (i < j)%nat /\
  ((exists k, (i <= k < j)%nat /\ exists e x, D k = Acts (ARun d e) /\ x = eldest (upto V k) (w_ring (W k)) - c_q (cli (W k) d)
      /\ 0 < x < W64 /\ c_md (cli (W (S k)) d) = u64 (c_md (cli (W k) d) + x))
   \/ exists pre post, delivered_to d (upto V j) = delivered_to d (upto V i) ++ pre ++ ms ++ post).
Proof. exact l_farm. Qed.
Print Assumptions C96_farm.

(** Client 2, a writer, is killed in step 6; client 1, the reader, had not read
    all.  It is handed what client 2 stored; client 0, which was asleep in step
    15, is woken by its read. *)
Example C96_case :
  kforever steady plain_ring W96 D96 V96 /\ no_kills D96 7 /\ (exists e line m, D96 6%nat = Killed 2 e line m) /\ kevent_loop plain_ring W96 D96 V96 1 7
  /\ r_drop plain_ring = false /\ kfair W96 D96 V96 0 /\ pending 0 (upto V96 7%nat) = None /\ (forall j, (7 <= j)%nat -> ~ written_by_other 0 (V96 j))
  /\ ring_unread (w_ring (W96 7%nat)) = [[1];[2;2]] /\ delivered (upto V96 7%nat) = []
  /\ pending 0 (upto V96 14%nat) = Some (CWrite [[1;2;3;4]]) /\ asleep (W96 14%nat) 0 = true /\ ends 0 (V96 16%nat)
  /\ delivered (upto V96 19%nat) = [[1];[2;2];[1;2;3;4;5;6;7];[1;2;3;4]].
Proof.
  split; [exact d96_forever|]. split; [exact d96_calm|]. split; [do 3 eexists; vm_compute; reflexivity|]. split; [exact d96_loop|]. split; [reflexivity|].
  split; [apply d96_fair; auto|]. split; [vm_compute; reflexivity|]. split; [exact d96_alone|]. do 4 (split; [vm_compute; reflexivity|]).
  split; [left; eexists; vm_compute; right; left; reflexivity|]. vm_compute. reflexivity.
Qed.
Example C96_farm_case :
  kforever steady farm_ring W97 D97 V97 /\ no_kills D97 7 /\ (exists e line m, D97 6%nat = Killed 2 e line m) /\ r_farm farm_ring = true /\ kevent_loop farm_ring W97 D97 V97 1 7
  /\ In (ECommit 0 [[3;3;3]]) (V97 10%nat) /\ In (ECommit 0 [[6;6;6]]) (V97 16%nat) /\ c_md (cli (W97 18%nat) 1) = 0 /\ c_md (cli (W97 19%nat) 1) = 1
  /\ delivered_to 1 (upto V97 19%nat) = [[1;1];[2;2];[4;4;4];[5;5;5];[6;6;6]].
Proof.
  split; [exact d97_forever|]. split; [exact d97_calm|]. split; [do 3 eexists; vm_compute; reflexivity|]. split; [reflexivity|]. split; [exact d97_loop|].
  do 2 (split; [vm_compute; auto|]). do 2 (split; [vm_compute; reflexivity|]). vm_compute. reflexivity.
Qed.

(** Without the descriptor being readable after the kill it fails: the event loop
    of a reader that had emptied the ring does not hear of what a writer stored
    that was killed before it woke anyone. *)
Theorem C96_first_needed : exists r W D V i0 i d, kforever steady r W D V /\ kevent_loop r W D V d i0 /\ (i0 < i)%nat /\ no_kills D i
  /\ pending d (upto V i) = None /\ ring_unread (w_ring (W i)) <> [] /\ (exists s, data_sock (W i) d = Some s /\ ~ readable (W i) s) /\ (forall j, (i <= j)%nat -> V j = []).
Proof. exact n96_first_no. Qed.
Print Assumptions C96_first_needed.
