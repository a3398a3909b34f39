(** * The theorems, sixth part: the file lock (C33). *)
From Verif Require Import LockWitness.

(** ** C33 *)
(** Processes with any critical sections [sect] and any private behaviour
    [priv] in between, interleaved statement by statement, and killed
    anywhere: never are two inside at the same time ... *)
Theorem C33_exclusion : forall (S L : Type) (sect : nat -> L -> prog S L) priv s m t k c c' l l' p p',
  fines sect priv (outside s m) t k -> pr k c = PIn l p -> pr k c' = PIn l' p' -> c = c'.
Proof. exact @l_exclusion. Qed.
Print Assumptions C33_exclusion.
(** ... whenever nobody is inside, the shared state, everybody's memory and
    who is dead are those after the critical sections one after the other in
    the order the lock was given up (those of killed processes: up to the
    statement where they were killed) ... *)
Theorem C33_serial : forall (S L : Type) (sect : nat -> L -> prog S L) priv s m t k,
  fines sect priv (outside s m) t k -> holder k = None ->
  exists m1, serials sect priv (s, m) (flat_map in_order t) (shared k, m1)
    /\ forall c, pr k c = match m1 c with Some l => POut l | None => PDead end.
Proof. exact @l_free. Qed.
Print Assumptions C33_serial.
(** ... and while [h] is inside, they are those, and [h] part of the way
    through its critical section, as if it were alone. *)
Theorem C33_inside : forall (S L : Type) (sect : nat -> L -> prog S L) priv s m t k h,
  fines sect priv (outside s m) t k -> holder k = Some h ->
  exists s1 m1 l p, serials sect priv (s, m) (flat_map in_order t) (s1, m1) /\ m1 h = Some l /\ pr k h = PIn l p
    /\ partway (sect h l) s1 p (shared k)
    /\ forall c, c <> h -> pr k c = match m1 c with Some l => POut l | None => PDead end.
Proof. exact @l_holder. Qed.
Print Assumptions C33_inside.

(** For the critical sections of shr_writev and shr_readv on a ring in any
    reachable state, any number of processes, nobody killed: what the processes
    did ([all], in the order of the unlocks) and the results each of them got
    are what a queue gives, and the ring holds what the queue holds; and no
    statement fails meanwhile. *)
Theorem C33_queue : forall r w evs t k, reach contract r w evs ->
  fines (usect (r_mm (w_ring w))) upriv (outside (w_ring w) nobody) t k -> no_kill t = true ->
  exists all, map fst all = unlocks t
    /\ (forall c, match pr k c with POut u => fst u = own c all | PIn u _ => fst u = own c all | PDead => False end)
    /\ (forall a xs, aq_run (abs (w_ring w)) (did all) = Some (a, xs) ->
          xs = saw all
          /\ match holder k with
             | None => a = abs (shared k) /\ works_as_queue (shared k)
             | Some h => forall done op line f, pr k h = PIn (done, Some op) (At line f) -> aq_step a op <> None ->
                 exists s' p', f (shared k) = Ok (s', p')
             end).
Proof. exact p_queue. Qed.
Print Assumptions C33_queue.

(** two writers and a reader, interleaved *)
Definition sched33 : list fcmd6 :=
  [Decide 0 (QWrite [[1;2];[3]]); Decide 1 (QWrite [[4]]); Go 0; Go 0; Go 0; Decide 2 (QRead 0 0 (zeros 10) 10)]
  ++ repeat (Go 0) 22 ++ [Decide 0 (QWrite [[5;5]])] ++ repeat (Go 1) 20 ++ [Decide 1 (QWrite [[6]])] ++ repeat (Go 2) 20.
Definition ring33 := w_ring (sw plain0 []).
Example C33_case : let k := fconf ring33 sched33 in
  reach contract plain_ring (sw plain0 []) (se plain0 [])
  /\ fines (usect (r_mm ring33)) upriv (outside ring33 nobody) (ftrace ring33 sched33) k
  /\ no_kill (ftrace ring33 sched33) = true /\ unlocks (ftrace ring33 sched33) = [0; 1; 2]%nat
  /\ holder k = None
  /\ pr k 0 = POut ([(QWrite [[1;2];[3]], WOk)], Some (QWrite [[5;5]]))
  /\ pr k 2 = POut ([(QRead 0 0 (zeros 10) 10, RGot [[1;2];[3];[4]] 0 0)], None)
  /\ aq_run (abs ring33) [QWrite [[1;2];[3]]; QWrite [[4]]; QRead 0 0 (zeros 10) 10] = Some (abs (shared k), [WOk; WOk; RGot [[1;2];[3];[4]] 0 0])
  /\ holder (fconf ring33 (sched33 ++ [Go 0; Go 0])) = Some 0%nat.
Proof.
  cbv zeta. split; [apply reach_contract; [exact plain_fresh|vm_compute; reflexivity]|].
  split; [apply fplay; vm_compute; reflexivity|].
  repeat (split; [vm_compute; reflexivity|]). vm_compute. reflexivity.
Qed.
