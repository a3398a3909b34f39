(** * The theorems, thirty-third part: FARM rings after processes were killed (C95). *)
From Verif Require Import KillFarmWitness.

(** ** C95 *)
(** Whatever was killed before, at whatever point: if from the [i0]th step on no
    process is killed in the middle of a call, and a reader of a FARM ring that
    was not in a call then reads on, then all that anybody writes from then on is
    handed to it, in order - unless, before that, messages it had not read were
    overwritten; then they are added to the count that shr_farm_stat gives. *)
Theorem C95_farm : forall r W D V i0 d, kforever steady r W D V -> no_kills D i0 -> r_farm r = true -> reads_on r W D V d i0 ->
  forall i c ms, (i0 <= i)%nat -> In (ECommit c ms) (V i) -> exists j, (i < j)%nat /\
  ((exists k, (i <= k < j)%nat /\ exists e x, D k = Acts (ARun d e) /\ x = eldest (upto V k) (w_ring (W k)) - c_q (cli (W k) d)
      /\ 0 < x < W64 /\ c_md (cli (W (S k)) d) = u64 (c_md (cli (W k) d) + x))
   \/ exists pre post, delivered_to d (upto V j) = delivered_to d (upto V i) ++ pre ++ ms ++ post).
Proof. exact g_farm. Qed.
Print Assumptions C95_farm.

(** ... and the same of all that was in the ring and it had not read, which
    includes what a writer stored that was killed before it woke anyone. *)
Theorem C95_left : forall r W D V i0 d, kforever steady r W D V -> no_kills D i0 -> r_farm r = true -> reads_on r W D V d i0 ->
  forall i, (i0 <= i)%nat -> available (w_ring (W i)) (c_q (cli (W i) d)) <> [] -> exists j, (i < j)%nat /\
  ((exists k, (i <= k < j)%nat /\ exists e x, D k = Acts (ARun d e) /\ x = eldest (upto V k) (w_ring (W k)) - c_q (cli (W k) d)
      /\ 0 < x < W64 /\ c_md (cli (W (S k)) d) = u64 (c_md (cli (W k) d) + x))
   \/ exists pre post, delivered_to d (upto V j) = delivered_to d (upto V i) ++ pre ++ available (w_ring (W i)) (c_q (cli (W i) d)) ++ post).
Proof. exact g_left. Qed.
Print Assumptions C95_left.

(** Client 2, a writer, is killed in step 8; client 1 then reads on.  It is
    handed what client 2 stored and what is written in step 10.  Of the four
    messages written in steps 18 to 24 the first is overwritten; the reader's
    step 26 counts it. *)
Example C95_case :
  kforever steady farm_ring W95 D95 V95 /\ no_kills D95 9 /\ r_farm farm_ring = true /\ reads_on farm_ring W95 D95 V95 1 9
  /\ (exists e line m, D95 8%nat = Killed 2 e line m) /\ available (w_ring (W95 9%nat)) (c_q (cli (W95 9%nat) 1)) = [[2;2]]
  /\ In (ECommit 0 [[3]]) (V95 10%nat) /\ delivered_to 1 (upto V95 10%nat) = [[1;1]] /\ delivered_to 1 (upto V95 15%nat) = [[1;1];[2;2];[3]]
  /\ In (ECommit 0 [[4]]) (V95 18%nat) /\ In (ECommit 0 [[7]]) (V95 24%nat) /\ (exists e, D95 26%nat = Acts (ARun 1 e))
  /\ c_md (cli (W95 26%nat) 1) = 0 /\ c_md (cli (W95 27%nat) 1) = 1 /\ available (w_ring (W95 31%nat)) (c_q (cli (W95 31%nat) 1)) = [] /\ delivered_to 1 (upto V95 31%nat) = [[1;1];[2;2];[3];[5];[6];[7]].
Proof.
  split; [exact d95_forever|]. split; [exact d95_calm|]. split; [reflexivity|]. split; [exact d95_reads|].
  split; [do 3 eexists; vm_compute; reflexivity|]. split; [vm_compute; reflexivity|]. split; [vm_compute; auto|].
  do 2 (split; [vm_compute; reflexivity|]). do 2 (split; [vm_compute; auto|]). split; [eexists; vm_compute; reflexivity|]. do 3 (split; [vm_compute; reflexivity|]). vm_compute. reflexivity.
Qed.

(** Without reading afresh it fails: the reader that was asleep when the writer
    was killed is not woken, although there is a message for it. *)
Theorem C95_afresh_needed : exists r W D V i0 d buf niov, kforever steady r W D V /\ no_kills D i0 /\ r_farm r = true /\ kfair W D V d
  /\ pending d (upto V i0) = Some (CRead buf niov) /\ r_n r <= usable buf /\ 0 < niov
  /\ available (w_ring (W i0)) (c_q (cli (W i0) d)) <> [] /\ (forall j, (i0 <= j)%nat -> V j = []).
Proof. exact n95_reader_no. Qed.
Print Assumptions C95_afresh_needed.
