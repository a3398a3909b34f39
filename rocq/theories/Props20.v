(** * Properties proved about the model: opening a ring after processes were
    killed (C73).  Statements only; every proof is [exact] of a lemma. *)
From Verif Require Import KillFinal KillBwFinal KillCount KillOcc Witness.

(** ** C73: a ring in which processes were killed can be opened and used *)

(** shr_open accepts it (the places of C32 and C46 excepted, as in [kreach]). *)
Theorem C73_valid : forall r w evs, kreach contract r w evs -> validate_ring (w_fsz w) true (w_ring w) = 0.
Proof. exact k_valid. Qed.
Print Assumptions C73_valid.
(** And it succeeds while fewer than 64 clients of its kind are alive: what the
    killed ones have left registered, in whatever state, is reclaimed.
    ([orderly] excludes failing system calls, not kills.) *)
Theorem C73_open_succeeds : forall r w evs e flags pid, kreach orderly r w evs -> orderly w (AOpen e flags pid) -> e_bind e = true -> e_self e = true ->
  has flags SHR_RDONLY || has flags SHR_WRONLY = true -> flags mod SHR_OPEN_FENCE = 0 ->
  (has flags SHR_RDONLY = true -> (length (readers w) < BW_WAITMAX)%nat) ->
  (has flags SHR_WRONLY = true -> has flags SHR_NONBLOCK = false -> r_drop (w_ring w) = false -> (length (waiting_writers w) < BW_WAITMAX)%nat) ->
  exists w', step w (AOpen e flags pid) = Ok (w', [EOpen flags (Some (length (w_cl w)))]).
Proof. exact k_reclaimed. Qed.
Print Assumptions C73_open_succeeds.

(** 63 readers are registered, and a message is written; one process is killed
    in shr_open having taken the last slot, and one of the readers is killed in
    shr_read.  All slots are taken.  A further reader can open. *)
Definition d73 := map (fun i => Norm (Do (Open RD (Z.of_nat i + 100)))) (seq 0 63) ++ [Norm (Do (Open WR 400)); Norm (Do (Call 63 (CWrite [[1;2;3]]))); Norm (Do (Run 63)); Norm (KillOpen RD 300 70); Norm (Do (Call 17 (CRead (zeros 9) 1))); Norm (Kill 17 6)].
Definition w73 := Eval vm_compute in fw plain0 d73.
Definition e73 := Eval vm_compute in fe plain0 d73.
Example C73_case : kreach orderly plain_ring w73 e73 /\ orderly w73 (AOpen (calm (w_ks w73)) RD 500)
  /\ length (readers w73) = 62%nat /\ ws_pid (slot_of (w_w2r w73) 17) = 117 /\ ws_pid (slot_of (w_w2r w73) 63) = 300
  /\ forallb (fun s => negb (ws_pid s =? 0)) (h_wr (w_w2r w73)) = true
  /\ exists w', step w73 (AOpen (calm (w_ks w73)) RD 500) = Ok (w', [EOpen RD (Some 64%nat)]).
Proof.
  split; [exact (kreach_orderly _ _ d73 plain_fresh ltac:(vm_compute; reflexivity) ltac:(vm_compute; reflexivity))|].
  split; [apply (act_orderly _ (Open RD 500)); vm_compute; reflexivity|].
  split; [vm_compute; reflexivity|]. split; [vm_compute; reflexivity|]. split; [vm_compute; reflexivity|]. split; [vm_compute; reflexivity|].
  eexists. vm_compute. reflexivity.
Qed.
