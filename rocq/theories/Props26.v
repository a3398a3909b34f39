(** * The theorems, twenty-sixth part: the ring across power failures (C85).
    Statements only; every proof is [exact] of a lemma. *)
From Verif Require Import RebootWitness.

(** ** C85: with SHR_SYNC the ring goes on as a queue after power failures *)

(** Nothing is left out by allowing for power failures. *)
Theorem C85_every_execution : forall mid (P : world -> action -> Prop) r w evs u, dreach P r w evs u -> rreach mid P r w evs u.
Proof. exact rb_every. Qed.
Print Assumptions C85_every_execution.

(** However often the power failed, what may be on the disk when it fails next,
    between sections, is the ring as the processes see it ... *)
Theorem C85_nothing_lost : forall mid r w evs u x, rreach mid faultless r w evs u -> has (r_gflags r) SHR_SYNC = true -> was_opened evs -> survives u x -> im_ring x = w_ring w.
Proof. exact rb_nothing_lost. Qed.
Print Assumptions C85_nothing_lost.
(** ... the ring is one that shr_open accepts and that works as a queue ... *)
Theorem C85_valid : forall mid r w evs u, rreach mid faultless r w evs u -> has (r_gflags r) SHR_SYNC = true -> validate_ring (w_fsz w) true (w_ring w) = 0.
Proof. exact rb_valid. Qed.
Print Assumptions C85_valid.
Theorem C85_works : forall mid r w evs u, rreach mid faultless r w evs u -> has (r_gflags r) SHR_SYNC = true -> works_as_queue (w_ring w).
Proof. exact rb_works. Qed.
Print Assumptions C85_works.
(** ... and no call aborts or leaves its bounds. *)
Theorem C85_no_abort : forall mid r w evs u a, rreach mid faultless r w evs u -> has (r_gflags r) SHR_SYNC = true -> contract w a ->
  exists w' ev m u', step w a = Ok (w', ev) /\ exec_all (dprog w a) (shared w, u) = Ok ((m, u'), tt).
Proof. exact rb_no_abort. Qed.
Print Assumptions C85_no_abort.

(** The whole history, over all the power failures, is that of one atomic
    queue.  When the power fails between sections this is the queue that a
    death does not touch ... *)
Theorem C85_atomic : forall r w evs u, rreach false faultless r w evs u -> has (r_gflags r) SHR_SYNC = true -> exists p,
  atomic unharmed (mkaq (r_n r) (r_mm r) (r_drop r) (r_farm r) 0 [] []) evs (abs (w_ring w)) p
  /\ forall c, c_live (cli w c) = true -> p c = (c_q (cli w c), c_md (cli w c)).
Proof. exact rb_atomic. Qed.
Print Assumptions C85_atomic.
(** ... and when it fails inside sections the queue to which a death does what
    [maimed] allows, as in C53. *)
Theorem C85_atomic_during : forall mid r w evs u, rreach mid faultless r w evs u -> has (r_gflags r) SHR_SYNC = true -> exists p,
  atomic maimed (mkaq (r_n r) (r_mm r) (r_drop r) (r_farm r) 0 [] []) evs (abs (w_ring w)) p
  /\ forall c, c_live (cli w c) = true -> p c = (c_q (cli w c), c_md (cli w c)).
Proof. exact rb_atomic_during. Qed.
Print Assumptions C85_atomic_during.
(** So without SHR_DROP and SHR_FARM every message is read once, in the order
    written, by processes before and after the power failures. *)
Theorem C85_fifo : forall r w evs u, rreach false faultless r w evs u -> has (r_gflags r) SHR_SYNC = true -> r_drop r = false -> r_farm r = false ->
  committed evs = delivered evs ++ ring_unread (w_ring w).
Proof. exact rb_fifo. Qed.
Print Assumptions C85_fifo.
Theorem C85_fifo_during : forall mid r w evs u, rreach mid faultless r w evs u -> has (r_gflags r) SHR_SYNC = true -> r_drop r = false -> r_farm r = false ->
  exists taken, subseq (delivered evs) taken /\ committed evs = taken ++ ring_unread (w_ring w) /\ (no_reader_killed evs -> taken = delivered evs).
Proof. exact rb_fifo_during. Qed.
Print Assumptions C85_fifo_during.

(** What [rreach true] says of a power failure inside a section is all that
    happens, when what is called stores nothing but control fields or the file
    is no longer than a page; but for the places of C54 ([untorn]). *)
Theorem C85_during_partial : forall r w evs u a x, rreach true faultless r w evs u -> has (r_gflags r) SHR_SYNC = true -> was_opened evs -> faultless w a ->
  (match a with ARun c _ => only_control (cli w c) | _ => True end)
  \/ SIZEOF_CTRL + r_n (w_ring w) + r_pad_len (w_ring w) + r_mv_len (w_ring w) + r_app_len (w_ring w) <= PAGE ->
  fails_in w u a x ->
  (exists w1 ev, im_ring x = w_ring w1 /\ (forall c, c_live (cli w1 c) = false) /\ (seq_bound r (evs ++ ev) -> rreach true faultless r w1 (evs ++ ev) (Some [x])))
  \/ exists c e line m, a = ARun c e /\ dies_at (section e (cli w c)) (shared w) line m /\ untorn w c m line = false /\ im_ring x = sh_ring m.
Proof. exact rb_during. Qed.
Print Assumptions C85_during_partial.

(** Who sleeps after power failures is woken, although the file still has the
    slots of the dead processes and the kernel may give their sockets' names to
    new ones. *)
Theorem C85_reader_wakes : forall mid r w evs u c buf niov, rreach mid (fun w a => faultless w a /\ steady w a) r w evs u -> has (r_gflags r) SHR_SYNC = true ->
  pending c evs = Some (CRead buf niov) -> asleep w c = true -> available (w_ring w) (c_q (cli w c)) <> [] ->
  exists w1, step w (AWake c) = Ok (w1, []) /\ asleep w1 c = false /\ w_ring w1 = w_ring w
    /\ forall e w2 ev, e_lock e = true -> step w1 (ARun c e) = Ok (w2, ev) ->
       asleep w2 c = false /\ exists v b i, ev = [ERet c (RetRead v b i)] /\ (0 < v \/ v = -2).
Proof. exact rb_reader_wakes. Qed.
Print Assumptions C85_reader_wakes.
Theorem C85_writer_wakes : forall mid r w evs u c, rreach mid (fun w a => faultless w a /\ steady w a) r w evs u -> has (r_gflags r) SHR_SYNC = true -> blocked_msgs w c <> [] ->
  nbytes (ring_unread (w_ring w)) + nbytes (blocked_msgs w c) <= r_n (w_ring w) ->
  zlen (ring_unread (w_ring w)) + zlen (blocked_msgs w c) <= r_mm (w_ring w) ->
  exists w1, step w (AWake c) = Ok (w1, []) /\ asleep w1 c = false /\ w_ring w1 = w_ring w
    /\ forall e w2 ev, e_lock e = true -> step w1 (ARun c e) = Ok (w2, ev) ->
       In (ECommit c (blocked_msgs w c)) ev /\ asleep w2 c = false.
Proof. exact rb_writer_wakes. Qed.
Print Assumptions C85_writer_wakes.

(** Two messages, one read; the power fails while the other client is about to
    read; new processes write and read; the last message finds the reader
    asleep. *)
Definition s85 : list rcmd := map R ([Open WR 7; Open RD 8] ++ write 0 [[1;2];[3]] ++ read 1 2 5 ++ [Call 1 (CRead (zeros 9) 5)]) ++ [Power]
  ++ map R ([Open WR 7; Open RD 8] ++ write 2 [[4;5]] ++ read 3 9 5 ++ read 3 9 5 ++ write 2 [[6]]).
Example C85_case : let w := rw false sync0 s85 in let evs := re false sync0 s85 in let u := ru false sync0 s85 in
  rreach false (fun w a => faultless w a /\ steady w a) sync_ring w evs u /\ rreach false faultless sync_ring w evs u
  /\ has (r_gflags sync_ring) SHR_SYNC = true /\ was_opened evs /\ r_drop sync_ring = false /\ r_farm sync_ring = false /\ (exists x, survives u x)
  /\ evs = [EOpen WR (Some 0%nat); EOpen RD (Some 1%nat); ECall 0 (CWrite [[1;2];[3]]); ECommit 0 [[1;2];[3]]; ERet 0 (RetWrite [[1;2];[3]] 3);
       ECall 1 (CRead [0;0] 5); ERet 1 (RetRead 2 [1;2] [(0, 2)]); ECall 1 (CRead (zeros 9) 5); ECrash 0; ECrash 1;
       EOpen WR (Some 2%nat); EOpen RD (Some 3%nat); ECall 2 (CWrite [[4;5]]); ECommit 2 [[4;5]]; ERet 2 (RetWrite [[4;5]] 2);
       ECall 3 (CRead (zeros 9) 5); ERet 3 (RetRead 3 [3;4;5;0;0;0;0;0;0] [(0, 1); (1, 2)]);
       ECall 3 (CRead (zeros 9) 5); ECall 2 (CWrite [[6]]); ECommit 2 [[6]]; ERet 2 (RetWrite [[6]] 1)]
  /\ ring_unread (w_ring w) = [[6]] /\ pending 3 evs = Some (CRead (zeros 9) 5) /\ asleep w 3 = true /\ available (w_ring w) (c_q (cli w 3)) = [[6]].
Proof.
  cbv zeta. assert (X : rreach false both sync_ring (rw false sync0 s85) (re false sync0 s85) (ru false sync0 s85)) by (apply rreach_script; [exact sync_fresh|vm_compute; reflexivity]).
  split; [exact X|]. split; [apply rreach_faultless, X|]. split; [reflexivity|]. split; [exists WR, 0%nat; vm_compute; tauto|]. split; [reflexivity|]. split; [reflexivity|].
  split; [assert (H : exists a l, ru false sync0 s85 = Some (a :: l)) by (vm_compute; eauto); destruct H as (a & l & ->); exists a; apply survives_in; left; reflexivity|].
  vm_compute. repeat split; reflexivity.
Qed.
(** The power fails inside the second write: its messages are there, as a
    whole, or not at all, depending on when. *)
Definition s85i (n j : nat) : list rcmd := map R ([Open WR 7; Open RD 8] ++ write 0 [[1;2]] ++ [Call 0 (CWrite [[3];[4]])]) ++ [PowerIn true 0 n j]
  ++ map R [Open RD 8; Call 2 (CRead (zeros 9) 5); Run 2].
Example C85_during_case : rreach true faultless sync_ring (rw true sync0 (s85i 30 30)) (re true sync0 (s85i 30 30)) (ru true sync0 (s85i 30 30))
  /\ rreach true faultless sync_ring (rw true sync0 (s85i 5 5)) (re true sync0 (s85i 5 5)) (ru true sync0 (s85i 5 5))
  /\ re true sync0 (s85i 30 30) = [EOpen WR (Some 0%nat); EOpen RD (Some 1%nat); ECall 0 (CWrite [[1;2]]); ECommit 0 [[1;2]]; ERet 0 (RetWrite [[1;2]] 2);
       ECall 0 (CWrite [[3];[4]]); ECommit 0 [[3];[4]]; ECrash 0; ECrash 1; EOpen RD (Some 2%nat);
       ECall 2 (CRead (zeros 9) 5); ERet 2 (RetRead 4 [1;2;3;4;0;0;0;0;0] [(0, 2); (2, 1); (3, 1)])]
  /\ re true sync0 (s85i 5 5) = [EOpen WR (Some 0%nat); EOpen RD (Some 1%nat); ECall 0 (CWrite [[1;2]]); ECommit 0 [[1;2]]; ERet 0 (RetWrite [[1;2]] 2);
       ECall 0 (CWrite [[3];[4]]); ECrash 0; ECrash 1; EOpen RD (Some 2%nat);
       ECall 2 (CRead (zeros 9) 5); ERet 2 (RetRead 2 [1;2;0;0;0;0;0;0;0] [(0, 2)])].
Proof.
  split; [apply rreach_faultless, rreach_script; [exact sync_fresh|vm_compute; reflexivity]|].
  split; [apply rreach_faultless, rreach_script; [exact sync_fresh|vm_compute; reflexivity]|].
  split; vm_compute; reflexivity.
Qed.
(** [C85_writer_wakes]: a writer sleeps after the power failure, and a reader
    makes room. *)
Definition s85w : list rcmd := map R ([Open WR 7] ++ write 0 [[1;2;3;4;5;6;7]]) ++ [Power] ++ map R ([Open WR 7; Open RDN 9] ++ write 1 [[8;9;10;11]] ++ read 2 9 1).
Example C85_writer_case : let w := rw false sync0 s85w in rreach false (fun w a => faultless w a /\ steady w a) sync_ring w (re false sync0 s85w) (ru false sync0 s85w)
  /\ blocked_msgs w 1 = [[8;9;10;11]] /\ ring_unread (w_ring w) = [] /\ r_n (w_ring w) = 10 /\ r_mm (w_ring w) = 3 /\ delivered (re false sync0 s85w) = [[1;2;3;4;5;6;7]].
Proof.
  cbv zeta. split; [exact (rreach_script false _ _ s85w sync_fresh ltac:(vm_compute; reflexivity))|]. vm_compute. repeat split; reflexivity.
Qed.
