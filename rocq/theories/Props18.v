(** * Properties proved about the model: processes interleaved statement by
    statement (C70).  Statements only; every proof is [exact] of a lemma. *)
From Verif Require Import FineFinal KillNap.

(** ** C70: the code between lock() and unlock() might as well happen at once *)

(** In Fine.v the process that has the lock executes one statement at a time;
    the others start calls, sleep, are woken by the datagrams it is sending and
    are interrupted, all at any moment; and it may be killed before any
    statement.  Whenever nobody has the lock, the ring, the handles, the sockets
    and the clients, and all that was called and returned up to then, are those
    of an execution of whole critical sections (Sys.v, Kill.v), to which C53-C56
    apply. *)
Theorem C70_atomic : forall r w evs,
  (freach well_named r (w, None) evs -> kreach well_named r w evs) /\ (freach flaky r (w, None) evs -> kreach flaky r w evs)
  /\ (freach steady r (w, None) evs -> kreach steady r w evs) /\ (freach orderly r (w, None) evs -> kreach orderly r w evs).
Proof. exact fine_atomic. Qed.
Print Assumptions C70_atomic.
(** Also in the middle of a section, nothing has been returned to anybody that
    could not have been in an execution of whole sections. *)
Theorem C70_midway : forall r w i evs,
  (freach well_named r (w, Some i) evs -> exists w0, kreach well_named r w0 evs) /\ (freach flaky r (w, Some i) evs -> exists w0, kreach flaky r w0 evs)
  /\ (freach steady r (w, Some i) evs -> exists w0, kreach steady r w0 evs) /\ (freach orderly r (w, Some i) evs -> exists w0, kreach orderly r w0 evs).
Proof. exact fine_midway. Qed.
Print Assumptions C70_midway.
(** Whatever the others have done meanwhile, the next statement of the process
    that has the lock is defined (no assertion fails, nothing is out of bounds),
    and it gets to unlock(). *)
Theorem C70_next : forall r w i evs, freach well_named r (w, Some i) evs ->
  (exists x, in_p i = Ret (Ok x)) \/ exists line f m p, in_p i = At line f /\ f (shared w) = Ok (m, p).
Proof. exact fine_next. Qed.
Print Assumptions C70_next.
Theorem C70_unlocks : forall r w i evs, freach well_named r (w, Some i) evs -> exists ev w', finishes (w, Some i) ev (w', None).
Proof. exact fine_done. Qed.
Print Assumptions C70_unlocks.
(** So, for one: messages are read in the order written, none lost except those
    a killed reader had taken. *)
Theorem C70_fifo : forall r w evs, freach well_named r (w, None) evs -> r_drop r = false -> r_farm r = false ->
  exists taken, subseq (delivered evs) taken /\ committed evs = taken ++ ring_unread (w_ring w) /\ (no_reader_killed evs -> taken = delivered evs).
Proof. exact fine_fifo. Qed.
Print Assumptions C70_fifo.
(** For another: a reader sleeps on although there are messages only if a writer
    was killed (cf. C54). *)
Theorem C70_sleepers : forall r w evs c buf niov, freach steady r (w, None) evs -> pending c evs = Some (CRead buf niov) -> asleep w c = true ->
  available (w_ring w) (c_q (cli w c)) <> [] -> (exists s, data_sock w c = Some s /\ readable w s) \/ orphaned evs.
Proof. exact (fun r w evs c buf niov R => k_lost_reader r w evs c buf niov (proj1 (proj2 (proj2 (fine_atomic r w evs))) R)). Qed.
Print Assumptions C70_sleepers.

(** Client 1 sleeps in shr_read.  Client 0 takes the lock in shr_write; client 2
    calls shr_write; client 0 is in bw_wake, having sent the datagram but not
    released the lock, when client 1 wakes up. *)
Definition s70 := [LockOpen WR 7; Rest; LockOpen RD 8; Rest; LockOpen WR 9; Rest; Out (Call 1 (CRead (zeros 9) 5)); Lock 1; Rest;
  Out (Call 0 (CWrite [[1;2];[3]])); Lock 0; Meanwhile (Call 2 (CWrite [[4]])); Stmts 100; Meanwhile (Recv 1)].
Definition c70 := [EOpen WR (Some 0%nat); EOpen RD (Some 1%nat); EOpen WR (Some 2%nat); ECall 1 (CRead (zeros 9) 5); ECall 0 (CWrite [[1;2];[3]]); ECall 2 (CWrite [[4]])].
Example C70_case : exists w i, freach steady plain_ring (w, Some i) c70
  /\ map c_pc (w_cl w) = [RunW KDirect [[1;2];[3]] 3 false; RunR (zeros 9) 5; RunW KDirect [[4]] 1 false] /\ ring_unread (w_ring w) = [[1;2];[3]].
Proof.
  destruct (splay (plain0, None) s70) as [[[w [i|]] evs]|] eqn:E.
  - assert (G : match splay (plain0, None) s70 with Some ((w, Some _), evs) => evs = c70 /\ map c_pc (w_cl w) = [RunW KDirect [[1;2];[3]] 3 false; RunR (zeros 9) 5; RunW KDirect [[4]] 1 false] /\ ring_unread (w_ring w) = [[1;2];[3]] | _ => False end) by (vm_compute; repeat split; reflexivity).
    rewrite E in G. destruct G as [-> G]. exists w, i. split; [|exact G]. apply (freach_steady plain_ring plain_size s70); [exact plain_fresh|exact E|vm_compute; reflexivity].
  - exfalso. assert (G : match splay (plain0, None) s70 with Some ((_, None), _) => False | _ => True end) by (vm_compute; exact I). rewrite E in G. exact G.
  - exfalso. assert (G : match splay (plain0, None) s70 with None => False | _ => True end) by (vm_compute; exact I). rewrite E in G. exact G.
Qed.
Definition after (s : list scmd) : option (list event * list bool * list bytes) :=
  match splay (plain0, None) s with Some ((w, None), evs) => Some (evs, map c_live (w_cl w), ring_unread (w_ring w)) | _ => None end.
(** It goes on; or is killed in bw_wake, and the others go on. *)
Definition s70a := s70 ++ [Rest; Lock 1; Rest; Lock 2; Rest].
Definition s70k := s70 ++ [Killed; Lock 2; Rest; Lock 1; Rest].
Lemma after_reach s evs l u : after s = Some (evs, l, u) -> zlen (committed evs) < W64 -> exists w, freach steady plain_ring (w, None) evs /\ map c_live (w_cl w) = l /\ ring_unread (w_ring w) = u.
Proof.
  unfold after. destruct (splay (plain0, None) s) as [[[w [i|]] evs']|] eqn:E; try discriminate. intros H B. injection H as -> <- <-. exists w. split; [|split; reflexivity].
  apply (freach_steady plain_ring plain_size s); [exact plain_fresh|exact E|exact B].
Qed.
Example C70_done : exists w, freach steady plain_ring (w, None) (c70 ++ [ECommit 0 [[1;2];[3]]; ERet 0 (RetWrite [[1;2];[3]] 3);
    ERet 1 (RetRead 3 [1;2;3;0;0;0;0;0;0] [(0, 2); (2, 1)]); ECommit 2 [[4]]; ERet 2 (RetWrite [[4]] 1)])
  /\ map c_live (w_cl w) = [true; true; true] /\ ring_unread (w_ring w) = [[4]].
Proof. apply (after_reach s70a); vm_compute; reflexivity. Qed.
Example C70_killed : exists w, freach steady plain_ring (w, None) (c70 ++ [ECommit 0 [[1;2];[3]]; ECrash 0; ECommit 2 [[4]]; ERet 2 (RetWrite [[4]] 1);
    ERet 1 (RetRead 4 [1;2;3;4;0;0;0;0;0] [(0, 2); (2, 1); (3, 1)])])
  /\ map c_live (w_cl w) = [false; true; true] /\ ring_unread (w_ring w) = [].
Proof. apply (after_reach s70k); vm_compute; reflexivity. Qed.
