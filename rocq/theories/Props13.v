(** * Properties proved about the model: processes killed at any statement,
    in the middle of executions (C53).  Statements only; every proof is
    [exact] of a lemma. *)
From Verif Require Import KillFinal.

(** ** C53: a process may be killed anywhere; the others go on with a queue *)

(** The statements of a critical section, run to the end, do what the sections
    of executions do. *)
Theorem C53_sections : forall P r w evs c e w' ev, kreach P r w evs -> c_live (cli w c) = true -> step w (ARun c e) = Ok (w', ev) ->
  exec_all (section e (cli w c)) (shared w) = Ok (shared w', tt).
Proof. exact k_section. Qed.
Print Assumptions C53_sections.
Theorem C53_open_section : forall P r w evs e flags pid w' ev, kreach P r w evs -> has flags SHR_RDONLY && has flags SHR_WRONLY = false ->
  step w (AOpen e flags pid) = Ok (w', ev) -> exec_all (open_section e w flags pid) (shared w) = Ok (shared w', tt).
Proof. exact k_opening. Qed.
Print Assumptions C53_open_section.

(** Executions with kills are those of an atomic queue, to which the death of
    a process does no more than [maimed] allows.  (Excepted are the places of
    C32 and C46: [untorn].) *)
Theorem C53_atomic : forall r w evs, kreach contract r w evs -> exists p,
  atomic maimed (mkaq (r_n r) (r_mm r) (r_drop r) (r_farm r) 0 [] []) evs (abs (w_ring w)) p
  /\ forall c, c_live (cli w c) = true -> p c = (c_q (cli w c), c_md (cli w c)).
Proof. exact k_atomic. Qed.
Print Assumptions C53_atomic.
(** The survivors never run into an assertion or out of bounds. *)
Theorem C53_no_abort : forall r w evs a, kreach contract r w evs -> contract w a -> exists w' ev, step w a = Ok (w', ev).
Proof. exact k_total. Qed.
Print Assumptions C53_no_abort.
(** Without SHR_DROP and SHR_FARM: messages are read in the order written, and
    none is lost except those a killed reader had taken. *)
Theorem C53_fifo : forall r w evs, kreach contract r w evs -> r_drop r = false -> r_farm r = false ->
  exists taken, subseq (delivered evs) taken /\ committed evs = taken ++ ring_unread (w_ring w)
    /\ (no_reader_killed evs -> taken = delivered evs).
Proof. exact k_fifo. Qed.
Print Assumptions C53_fifo.

(** Client 0 is killed in bw_wake after storing [2;3]; another is killed in
    shr_open having taken a slot; client 2 is killed in shr_write before its
    message is in the ring; client 1 then reads. *)
Definition s53 := [Do (Open WR 7); Do (Open RD 8)] ++ map Do (write 0 [[1]]) ++ [Do (Call 0 (CWrite [[2;3]])); Kill 0 20; KillOpen RD 9 70;
  Do (Open WR 10); Do (Call 2 (CWrite [[4;5;6]])); Kill 2 1] ++ map Do (read 1 9 5).
Example C53_case : let w := kw plain0 s53 in let evs := ke plain0 s53 in kreach contract plain_ring w evs
  /\ evs = [EOpen WR (Some 0%nat); EOpen RD (Some 1%nat); ECall 0 (CWrite [[1]]); ECommit 0 [[1]]; ERet 0 (RetWrite [[1]] 1);
     ECall 0 (CWrite [[2;3]]); ECommit 0 [[2;3]]; ECrash 0; EOpen WR (Some 2%nat); ECall 2 (CWrite [[4;5;6]]); ECrash 2;
     ECall 1 (CRead (zeros 9) 5); ERet 1 (RetRead 3 [1;2;3;0;0;0;0;0;0] [(0, 1); (1, 2)])]
  /\ map c_live (w_cl w) = [false; true; false].
Proof. split; [apply kreach_contract; [exact plain_fresh|vm_compute; reflexivity]|]. vm_compute. repeat split; reflexivity. Qed.

(** A reader killed before it returned: its messages are gone. *)
Definition s53r := [Do (Open WR 7); Do (Open RD 8)] ++ map Do (write 0 [[1];[2]] ++ [Call 1 (CRead (zeros 9) 5)]) ++ [Kill 1 11].
Theorem C53_reader_refuted : exists r w evs, kreach faultless r w evs /\ r_drop r = false /\ r_farm r = false
  /\ committed evs = [[1];[2]] /\ delivered evs = [] /\ ring_unread (w_ring w) = [].
Proof.
  exists plain_ring, (kw plain0 s53r), (ke plain0 s53r). split; [apply kreach_faultless; [exact plain_fresh|vm_compute; reflexivity]|].
  vm_compute. repeat split; reflexivity.
Qed.
Print Assumptions C53_reader_refuted.
(** ** C54: and are woken *)
(** A writer killed between storing its message and waking the readers: a
    reader sleeps on although there is a message, and nothing will wake it. *)
Definition s53w := [Do (Open WR 7); Do (Open RD 8)] ++ map Do (read 1 9 1) ++ [Do (Call 0 (CWrite [[1;2]])); Kill 0 16].
Theorem C54_refuted : exists r w evs c s, kreach faultless r w evs /\ asleep w c = true /\ data_sock w c = Some s
  /\ ring_unread (w_ring w) = [[1;2]] /\ ~ readable w s /\ forall c', c' <> c -> c_live (cli w c') = false.
Proof.
  exists plain_ring, (kw plain0 s53w), (ke plain0 s53w), 1%nat, 1%nat. split; [apply kreach_faultless; [exact plain_fresh|vm_compute; reflexivity]|].
  split; [vm_compute; reflexivity|]. split; [vm_compute; reflexivity|]. split; [vm_compute; reflexivity|]. split; [unfold readable; vm_compute; discriminate|].
  intros [|[|[|c]]] N; [vm_compute; reflexivity|elim N; reflexivity|vm_compute; reflexivity|vm_compute; reflexivity].
Qed.
Print Assumptions C54_refuted.
