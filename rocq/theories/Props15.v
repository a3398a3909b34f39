(** * The theorems, fifteenth part: several handles in one process (C57). *)
From Verif Require Import PosixFacts.

(** ** C57 *)
(** Processes with any number of handles each ([proc h] is the process of handle
    [h]), each process using one handle at a time: never are two handles inside ... *)
Theorem C57_exclusion_partial : forall (S L : Type) (sect : nat -> L -> prog S L) priv proc s m t k c c' l l' p p',
  pfines sect priv proc true (outside s m) t k -> pr k c = PIn l p -> pr k c' = PIn l' p' -> c = c'.
Proof. exact @s_exclusion. Qed.
Print Assumptions C57_exclusion_partial.
(** ... what they do amounts to the critical sections one after the other ... *)
Theorem C57_serial_partial : forall (S L : Type) (sect : nat -> L -> prog S L) priv proc s m t k,
  pfines sect priv proc true (outside s m) t k -> holder k = None ->
  exists m1, serials sect priv (s, m) (flat_map in_order t) (shared k, m1)
    /\ forall c, pr k c = match m1 c with Some l => POut l | None => PDead end.
Proof. exact @s_free. Qed.
Print Assumptions C57_serial_partial.
(** ... and the ring behaves as a queue. *)
Theorem C57_queue_partial : forall proc r w evs t k, reach contract r w evs ->
  pfines (usect (r_mm (w_ring w))) upriv proc true (outside (w_ring w) nobody) t k -> no_kill t = true ->
  exists all, map fst all = unlocks t
    /\ (forall c, match pr k c with POut u => fst u = own c all | PIn u _ => fst u = own c all | PDead => False end)
    /\ (forall a xs, aq_run (abs (w_ring w)) (did all) = Some (a, xs) ->
          xs = saw all
          /\ (holder k = None -> a = abs (shared k) /\ works_as_queue (shared k))
          /\ (forall h done op line f, pr k h = PIn (done, Some op) (At line f) -> aq_step a op <> None ->
                 exists s' p', f (shared k) = Ok (s', p'))).
Proof. exact s_queue. Qed.
Print Assumptions C57_queue_partial.

(** handles 0 and 1 are of one process, handle 2 of another, which wants to write
    while the first reads what it wrote *)
Definition ring57 := w_ring (sw plain0 []).
Definition proc57 (h : nat) : nat := match h with 2%nat => 1%nat | _ => 0%nat end.
Definition sched57 : list fcmd6 :=
  [Decide 0 (QWrite [[1;2];[3]]); Decide 2 (QWrite [[4]])] ++ repeat (Go 0) 25
  ++ [Decide 1 (QRead 0 0 (zeros 10) 10); Go 1; Go 1; Decide 0 (QWrite [[5;5]])] ++ repeat (Go 1) 13 ++ repeat (Go 2) 20.
Example C57_case : let k := pconf proc57 (Some 3%nat) ring57 sched57 in
  reach contract plain_ring (sw plain0 []) (se plain0 [])
  /\ pfines (usect (r_mm ring57)) upriv proc57 true (outside ring57 nobody) (ptrace proc57 (Some 3%nat) ring57 sched57) k
  /\ no_kill (ptrace proc57 (Some 3%nat) ring57 sched57) = true
  /\ unlocks (ptrace proc57 (Some 3%nat) ring57 sched57) = [0; 1; 2]%nat
  /\ holder k = None.
Proof.
  split; [apply reach_contract; [exact plain_fresh|vm_compute; reflexivity]|].
  split; [apply (pplay proc57 (Some 3%nat)); vm_compute; reflexivity|]. split; [vm_compute; reflexivity|]. split; vm_compute; reflexivity.
Qed.

(** Two threads of one process, each with a handle of its own, write at the same
    time: both are inside, both writes succeed, one message is lost and an empty
    one that nobody wrote appears. *)
Definition threads57 : list fcmd6 :=
  [Decide 0 (QWrite [[1;2]]); Decide 1 (QWrite [[3;4]])] ++ concat (repeat [Go 0; Go 1] 20).
Theorem C57_threads_refuted : exists t k t1 k1 u0 p0 u1 p1,
  pfines (usect (r_mm ring57)) upriv (fun _ => 0%nat) false (outside ring57 nobody) t1 k1
  /\ pr k1 0%nat = PIn u0 p0 /\ pr k1 1%nat = PIn u1 p1
  /\ pfines (usect (r_mm ring57)) upriv (fun _ => 0%nat) false (outside ring57 nobody) t k
  /\ ring_unread ring57 = []
  /\ pr k 0%nat = POut ([(QWrite [[1;2]], WOk)], None)
  /\ pr k 1%nat = POut ([(QWrite [[3;4]], WOk)], None)
  /\ ring_unread (shared k) = [[3;4]; []].
Proof.
  exists (ptrace (fun _ => 0%nat) None ring57 threads57), (pconf (fun _ => 0%nat) None ring57 threads57).
  exists (ptrace (fun _ => 0%nat) None ring57 (firstn 4 threads57)), (pconf (fun _ => 0%nat) None ring57 (firstn 4 threads57)).
  do 4 eexists. split; [apply (pplay (fun _ => 0%nat) None); vm_compute; reflexivity|].
  split; [cbv -[usect ring57]; reflexivity|]. split; [cbv -[usect ring57]; reflexivity|].
  split; [apply (pplay (fun _ => 0%nat) None); vm_compute; reflexivity|].
  split; [vm_compute; reflexivity|]. split; [vm_compute; reflexivity|]. split; vm_compute; reflexivity.
Qed.
Print Assumptions C57_threads_refuted.

(** A process closes one handle while it is inside with another (in another
    thread, or in a signal handler): the lock is gone, and a handle of another
    process gets inside too. *)
Theorem C57_close_refuted : exists t k u0 p0 u2 p2,
  pfines (usect (r_mm ring57)) upriv proc57 false (outside ring57 nobody) t k
  /\ proc57 0 <> proc57 2
  /\ pr k 0%nat = PIn u0 p0 /\ pr k 2%nat = PIn u2 p2.
Proof.
  exists (ptrace proc57 None ring57 [Go 0; Kill 1; Go 2]%nat), (pconf proc57 None ring57 [Go 0; Kill 1; Go 2]%nat).
  do 4 eexists. split; [apply (pplay proc57 None); vm_compute; reflexivity|]. split; [discriminate|].
  split; cbv -[usect ring57]; reflexivity.
Qed.
Print Assumptions C57_close_refuted.
