(** * Properties proved about the model: wake-ups when processes are killed at
    any statement and connecting to a waiting process may fail (C54-C56).
    Statements only; every proof is [exact] of a lemma. *)
From Verif Require Import KillNap.

(** ** C54: who is left sleeping when a process is killed *)

(** With processes killed anywhere but sockets working: a reader sleeps on
    although there are messages only if the last messages stored are those of a
    writer killed before its call returned.  (C54_refuted in Props13.v is such a
    case.) *)
Theorem C54_readers_partial : forall r w evs c buf niov, kreach steady r w evs -> pending c evs = Some (CRead buf niov) -> asleep w c = true ->
  available (w_ring w) (c_q (cli w c)) <> [] -> (exists s, data_sock w c = Some s /\ readable w s) \/ orphaned evs.
Proof. exact k_lost_reader. Qed.
Print Assumptions C54_readers_partial.
(** And a writer sleeps on although its messages fit only if a reader was killed
    in shr_read and none has got messages since. *)
Theorem C54_writers_partial : forall r w evs c, kreach steady r w evs -> blocked_msgs w c <> [] ->
  nbytes (ring_unread (w_ring w)) + nbytes (blocked_msgs w c) <= r_n (w_ring w) ->
  zlen (ring_unread (w_ring w)) + zlen (blocked_msgs w c) <= r_mm (w_ring w) ->
  (exists s, space_sock w c = Some s /\ readable w s) \/ robbed evs.
Proof. exact k_lost_writer. Qed.
Print Assumptions C54_writers_partial.

(** A writer killed in bw_wake, the reader asleep; the next write, in which
    nothing fails, wakes it. *)
Definition s54 := map (fun k => Norm (Do k)) ([Open WR 7; Open RD 8] ++ read 1 9 1) ++ [Norm (KillOpen RD 9 70); Norm (Do (Open WR 10));
  Norm (Do (Call 2 (CWrite [[1]]))); Norm (Kill 2 16); Norm (Do (Call 0 (CWrite [[2]])))].
Example C54_case : let w := fw plain0 s54 in let evs := fe plain0 s54 in kreach steady plain_ring w evs
  /\ pending 1 evs = Some (CRead (zeros 9) 1) /\ asleep w 1 = true /\ available (w_ring w) (c_q (cli w 1)) = [[1]]
  /\ data_sock w 1 = Some 1%nat /\ ~ readable w 1
  /\ orphaned evs.
Proof.
  cbv zeta. split; [apply kreach_steady; [exact plain_fresh|vm_compute; reflexivity|reflexivity]|]. split; [vm_compute; reflexivity|]. split; [vm_compute; reflexivity|].
  split; [vm_compute; reflexivity|]. split; [vm_compute; reflexivity|]. split; [unfold readable; vm_compute; discriminate|].
  exists [EOpen WR (Some 0%nat); EOpen RD (Some 1%nat); ECall 1 (CRead (zeros 9) 1); EOpen WR (Some 2%nat); ECall 2 (CWrite [[1]])], 2%nat, [[1]], [ECall 0 (CWrite [[2]])].
  vm_compute. split; reflexivity.
Qed.

(** A reader killed in shr_read having freed the space; the writer asleep. *)
Definition s54w := map (fun k => Norm (Do k)) ([Open WR 7; Open RD 8] ++ write 0 [zeros 10] ++ write 0 [[1;2]] ++ [Call 1 (CRead (zeros 10) 1)]) ++ [Norm (Kill 1 7)].
Example C54_writer_case : let w := fw plain0 s54w in let evs := fe plain0 s54w in kreach steady plain_ring w evs
  /\ blocked_msgs w 0 = [[1;2]] /\ ring_unread (w_ring w) = [] /\ r_n (w_ring w) = 10 /\ r_mm (w_ring w) = 3
  /\ space_sock w 0 = Some 0%nat /\ ~ readable w 0 /\ robbed evs.
Proof.
  cbv zeta. split; [apply kreach_steady; [exact plain_fresh|vm_compute; reflexivity|reflexivity]|]. split; [vm_compute; reflexivity|]. split; [vm_compute; reflexivity|].
  split; [vm_compute; reflexivity|]. split; [vm_compute; reflexivity|]. split; [vm_compute; reflexivity|]. split; [unfold readable; vm_compute; discriminate|].
  exists (firstn 7 (fe plain0 s54w)), 1%nat, (zeros 10), 1, []. split; [vm_compute; reflexivity|]. split; [vm_compute; reflexivity|]. intros ? ? ? ? [].
Qed.

(** ** C55: wake-ups survive kills and failing connects *)

(** A write in which no socket call fails makes every reader's descriptor
    readable, whatever processes killed before it have left behind. *)
Theorem C55_wakes_readers : forall r w evs a w' ev c ms, kreach flaky r w evs -> flaky w a -> step w a = Ok (w', ev) -> In (ECommit c ms) ev ->
  good_env w a -> forall c' s, data_sock w' c' = Some s -> readable w' s.
Proof. exact (fun r w evs a w' ev c ms R Fl S I G => k_wake_readers r w evs a w' ev c ms R Fl S I (or_introl G)). Qed.
Print Assumptions C55_wakes_readers.
(** Connecting may fail: if shr_write or shr_flush then reports success, every
    reader's descriptor is readable all the same. *)
Theorem C55_success_wakes : forall r w evs a w' ev c ms x, kreach flaky r w evs -> flaky w a -> step w a = Ok (w', ev) -> In (ECommit c ms) ev ->
  In (ERet c x) ev -> success x -> forall c' s, data_sock w' c' = Some s -> readable w' s.
Proof. exact (fun r w evs a w' ev c ms x R Fl S I X1 X2 => k_wake_readers r w evs a w' ev c ms R Fl S I (or_intror (ex_intro _ x (conj X1 X2)))). Qed.
Print Assumptions C55_success_wakes.
(** A read that returns messages and in which no socket call fails makes every
    blocking writer's descriptor readable. *)
Theorem C55_wakes_writers : forall r w evs a w' ev c v b i, kreach flaky r w evs -> flaky w a -> step w a = Ok (w', ev) ->
  In (ERet c (RetRead v b i)) ev -> 0 < v -> good_env w a -> forall c' s, space_sock w' c' = Some s -> readable w' s.
Proof. exact k_wake_writers. Qed.
Print Assumptions C55_wakes_writers.
(** Wake-ups are not lost to what others do, nor to their being killed. *)
Theorem C55_wake_kept : forall r w evs a w' ev c s, kreach flaky r w evs -> flaky w a -> step w a = Ok (w', ev) -> actor a <> Some c ->
  (data_sock w c = Some s -> data_sock w' c = Some s /\ (readable w s -> readable w' s))
  /\ (space_sock w c = Some s -> space_sock w' c = Some s /\ (readable w s -> readable w' s)).
Proof. exact k_wake_kept. Qed.
Print Assumptions C55_wake_kept.
Theorem C55_kept_by_kill : forall r w evs c0 e line m c s, kreach flaky r w evs -> flaky w (ARun c0 e) -> c_live (cli w c0) = true ->
  dies_at (section e (cli w c0)) (shared w) line m -> c <> c0 ->
  (data_sock w c = Some s -> data_sock (killed w c0 m) c = Some s /\ (readable w s -> readable (killed w c0 m) s))
  /\ (space_sock w c = Some s -> space_sock (killed w c0 m) c = Some s /\ (readable w s -> readable (killed w c0 m) s)).
Proof. exact k_wake_kept_kill. Qed.
Print Assumptions C55_kept_by_kill.
Theorem C55_kept_by_kill_open : forall r w evs e flags pid line m c s, kreach flaky r w evs -> flaky w (AOpen e flags pid) ->
  dies_at (open_section e w flags pid) (shared w) line m ->
  (data_sock w c = Some s -> data_sock (killed_opening w m) c = Some s /\ (readable w s -> readable (killed_opening w m) s))
  /\ (space_sock w c = Some s -> space_sock (killed_opening w m) c = Some s /\ (readable w s -> readable (killed_opening w m) s)).
Proof. exact k_wake_kept_open. Qed.
Print Assumptions C55_kept_by_kill_open.
(** Every live waiter keeps its own slot in the file, with its process id and
    socket name in it. *)
Theorem C55_registered : forall r w evs, kreach flaky r w evs ->
  (forall c s, data_sock w c = Some s -> exists n, (n < BW_WAITMAX)%nat /\ k_open (sk (w_ks w) s) = true
      /\ ws_pid (slot_of (w_w2r w) n) = k_pid (sk (w_ks w) s) /\ ws_name (slot_of (w_w2r w) n) = k_name (sk (w_ks w) s) /\ k_pid (sk (w_ks w) s) <> 0)
  /\ (forall c s, space_sock w c = Some s -> exists n, (n < BW_WAITMAX)%nat /\ k_open (sk (w_ks w) s) = true
      /\ ws_pid (slot_of (w_r2w w) n) = k_pid (sk (w_ks w) s) /\ ws_name (slot_of (w_r2w w) n) = k_name (sk (w_ks w) s) /\ k_pid (sk (w_ks w) s) <> 0)
  /\ (forall c c' s, data_sock w c = Some s -> data_sock w c' = Some s -> c = c')
  /\ (forall c c' s, space_sock w c = Some s -> space_sock w c' = Some s -> c = c')
  /\ (forall c c' s, data_sock w c = Some s -> space_sock w c' = Some s -> False).
Proof. exact k_registered. Qed.
Print Assumptions C55_registered.

(** From the state of C54_case: the write is done with all sockets working, and
    the reader is woken; or with no connect succeeding, and it reports an error. *)
Example C55_case : let s1 := s54 ++ [Norm (Do (Run 0))] in let s2 := s54 ++ [NoConnect 0] in
  kreach flaky plain_ring (fw plain0 s1) (fe plain0 s1) /\ fe plain0 s1 = fe plain0 s54 ++ [ECommit 0 [[2]]; ERet 0 (RetWrite [[2]] 1)]
  /\ data_sock (fw plain0 s1) 1 = Some 1%nat /\ readable (fw plain0 s1) 1
  /\ kreach flaky plain_ring (fw plain0 s2) (fe plain0 s2) /\ fe plain0 s2 = fe plain0 s54 ++ [ECommit 0 [[2]]; ERet 0 (RetWrite [[2]] (-1))]
  /\ ~ readable (fw plain0 s2) 1.
Proof.
  cbv zeta. split; [apply kreach_flaky; [exact plain_fresh|vm_compute; reflexivity]|]. split; [vm_compute; reflexivity|]. split; [vm_compute; reflexivity|].
  split; [unfold readable; vm_compute; reflexivity|]. split; [apply kreach_flaky; [exact plain_fresh|vm_compute; reflexivity]|]. split; [vm_compute; reflexivity|].
  unfold readable. vm_compute. discriminate.
Qed.
(** What the connected writer can still say: a later write succeeds without
    connecting, since no connect is needed. *)
Example C55_connected : let s := s54 ++ [Norm (Do (Run 0)); Norm (Do (Recv 1)); Norm (Do (Run 1)); Norm (Do (Call 0 (CWrite [[3]]))); NoConnect 0] in
  kreach flaky plain_ring (fw plain0 s) (fe plain0 s) /\ exists e1, fe plain0 s = e1 ++ [ECommit 0 [[3]]; ERet 0 (RetWrite [[3]] 1)] /\ readable (fw plain0 s) 1.
Proof.
  cbv zeta. split; [apply kreach_flaky; [exact plain_fresh|vm_compute; reflexivity]|].
  exists (fe plain0 (s54 ++ [Norm (Do (Run 0)); Norm (Do (Recv 1)); Norm (Do (Run 1)); Norm (Do (Call 0 (CWrite [[3]])))])).
  split; [vm_compute; reflexivity|]. unfold readable. vm_compute. reflexivity.
Qed.

(** ** C56: a successful read has woken the blocked writers *)

(** Not if connecting failed: shr_read ignores the failure of bw_wake (shr.c
    l.849) and returns the messages.  Here the writer goes on sleeping although
    its message fits and shr_read returned 10. *)
Definition s56 := map (fun k => Norm (Do k)) ([Open RD 8; Open WR 7] ++ write 1 [zeros 10] ++ write 1 [[1;2]] ++ [Call 0 (CRead (zeros 10) 1)]) ++ [NoConnect 0].
Theorem C56_refuted : exists r w evs c c' v b i s e1, kreach flaky r w evs /\ evs = e1 ++ [ERet c' (RetRead v b i)] /\ 0 < v
  /\ asleep w c = true /\ blocked_msgs w c = [[1;2]] /\ space_sock w c = Some s /\ ~ readable w s
  /\ ring_unread (w_ring w) = [] /\ 2 <= r_n (w_ring w) /\ 1 <= r_mm (w_ring w).
Proof.
  exists plain_ring, (fw plain0 s56), (fe plain0 s56), 1%nat, 0%nat, 10, (zeros 10), [(0, 10)], 1%nat, (firstn 7 (fe plain0 s56)).
  split; [apply kreach_flaky; [exact plain_fresh|vm_compute; reflexivity]|]. split; [vm_compute; reflexivity|]. split; [lia|].
  split; [vm_compute; reflexivity|]. split; [vm_compute; reflexivity|]. split; [vm_compute; reflexivity|]. split; [unfold readable; vm_compute; discriminate|].
  split; [vm_compute; reflexivity|]. split; [vm_compute; discriminate|vm_compute; discriminate].
Qed.
Print Assumptions C56_refuted.
