(** * The theorems, twelfth part: the ring as an atomic queue (C52). *)
From Verif Require Import Trace Witness.

(** ** C52 *)
(** What the callers of a new ring are told can be explained by one atomic
    queue, empty at first: see TraceSpec.v. *)
Theorem C52_linearizable : forall r w evs, reach contract r w evs -> exists p,
  atomic unharmed (mkaq (r_n r) (r_mm r) (r_drop r) (r_farm r) 0 [] []) evs (abs (w_ring w)) p
  /\ forall c, c_live (cli w c) = true -> p c = (c_q (cli w c), c_md (cli w c)).
Proof. exact f_linearizable. Qed.
Print Assumptions C52_linearizable.
(** A reader waits, a writer writes twice, the reader gets the first message,
    the writer is told that there is no room. *)
Definition s52 := [Open WRN 7; Open RD 8] ++ read 1 9 1 ++ write 0 [[1;2;3;4;5;6;7]] ++ [Recv 1] ++ [Call 0 (CWrite [[8;9;9;9]])]
  ++ [Run 0; Run 1] ++ write 0 [[1;2;3;4;5;6;7;8;9;10]] ++ write 0 [[1]].
Example C52_case : let w := sw plain0 s52 in let evs := se plain0 s52 in reach contract plain_ring w evs
  /\ evs = [EOpen WRN (Some 0%nat); EOpen RD (Some 1%nat); ECall 1 (CRead (zeros 9) 1);
     ECall 0 (CWrite [[1;2;3;4;5;6;7]]); ECommit 0 [[1;2;3;4;5;6;7]]; ERet 0 (RetWrite [[1;2;3;4;5;6;7]] 7);
     ECall 0 (CWrite [[8;9;9;9]]); ERet 0 (RetWrite [[8;9;9;9]] 0);
     ERet 1 (RetRead 7 [1;2;3;4;5;6;7;0;0] [(0, 7)]);
     ECall 0 (CWrite [[1;2;3;4;5;6;7;8;9;10]]); ECommit 0 [[1;2;3;4;5;6;7;8;9;10]]; ERet 0 (RetWrite [[1;2;3;4;5;6;7;8;9;10]] 10);
     ECall 0 (CWrite [[1]]); ERet 0 (RetWrite [[1]] 0)]
  /\ q_unread (abs (w_ring w)) = [[1;2;3;4;5;6;7;8;9;10]].
Proof.
  cbv zeta. split; [apply reach_contract; [exact plain_fresh|vm_compute; reflexivity]|]. split; vm_compute; reflexivity.
Qed.
(** The specification is a strong one: by itself it says that a queue without
    SHR_DROP hands out exactly what was put in, in order. *)
Theorem C52_spec_fifo : forall a0 evs a p, atomic unharmed a0 evs a p -> q_drop a0 = false -> q_farm a0 = false -> q_unread a0 = [] ->
  q_drop a = false /\ q_farm a = false /\ committed evs = delivered evs ++ q_unread a.
Proof. exact spec_fifo. Qed.
Print Assumptions C52_spec_fifo.
(** so a history in which a message is invented is not one of the queue *)
Example C52_excludes : forall n mm a p, ~ atomic unharmed (mkaq n mm false false 0 [] [])
  [EOpen RD (Some 0%nat); ECall 0 (CRead (zeros 9) 1); ERet 0 (RetRead 1 [1;0;0;0;0;0;0;0;0] [(0, 1)])] a p.
Proof.
  intros n mm a p H. destruct (C52_spec_fifo _ _ _ _ H eq_refl eq_refl eq_refl) as (_ & _ & E). discriminate E.
Qed.
