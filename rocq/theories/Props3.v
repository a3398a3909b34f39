(** * The theorems, third part: blocking and wake-ups (C19-C23).

    [reach steady]: any number of processes open, close, read, write, wait, are
    interrupted or die, in any order; socket calls do not fail and the kernel
    never gives a new socket a name used before.  The theorems named
    [_refuted] show that the last hypothesis is needed. *)
From Verif Require Import Witness2 Buf.

(** ** C19 *)
Theorem C19_reader_wakes : forall r w evs c buf niov, reach steady r w evs ->
  pending c evs = Some (CRead buf niov) -> asleep w c = true -> available (w_ring w) (c_q (cli w c)) <> [] ->
  exists w1, step w (AWake c) = Ok (w1, []) /\ asleep w1 c = false /\ w_ring w1 = w_ring w
    /\ forall e w2 ev, e_lock e = true -> step w1 (ARun c e) = Ok (w2, ev) ->
       asleep w2 c = false /\ exists v b i, ev = [ERet c (RetRead v b i)] /\ (0 < v \/ v = -2).
Proof. exact f_reader_wakes. Qed.
Print Assumptions C19_reader_wakes.
(** two readers sleep, one message is written: both have been woken *)
Definition d19 := map Do ([Open WR 7; Open RD 8; Open RD 9] ++ read 1 9 1 ++ read 2 9 1 ++ write 0 [[5;6;7]]).
Example C19_case : let w := sw2 true plain0 d19 in reach steady plain_ring w (se2 true plain0 d19)
  /\ pending 1 (se2 true plain0 d19) = Some (CRead (zeros 9) 1) /\ asleep w 1 = true /\ asleep w 2 = true
  /\ available (w_ring w) (c_q (cli w 1)) = [[5;6;7]].
Proof.
  cbv zeta. split; [apply reach_steady2; [exact plain_fresh|vm_compute; reflexivity]|]. vm_compute. auto.
Qed.
(** without unique socket names: reader 1 dies; reader 2 registers in its slot
    and gets the same name, so that writer 0 keeps the connection to the dead
    socket, and takes its failure for the death of reader 2 *)
Definition d19x := [OpenAs WR 7 50; OpenAs RD 8 60] ++ map Do (write 0 [[9]]) ++ [Do (Die 1); OpenAs RD 9 60]
  ++ map Do (read 2 5 1) ++ map Do (read 2 5 1) ++ map Do (write 0 [[1;2]]).
Theorem C19_name_reuse_refuted : let w := sw2 false plain0 d19x in reach reliable plain_ring w (se2 false plain0 d19x)
  /\ asleep w 2 = true /\ pending 2 (se2 false plain0 d19x) = Some (CRead (zeros 5) 1)
  /\ available (w_ring w) (c_q (cli w 2)) = [[1;2]]
  /\ (exists s, data_sock w 2 = Some s /\ ~ readable w s) /\ step w (AWake 2) = Ok (w, []).
Proof.
  cbv zeta. split; [apply reach_reliable2; [exact plain_fresh|vm_compute; reflexivity]|].
  split; [vm_compute; reflexivity|]. split; [vm_compute; reflexivity|]. split; [vm_compute; reflexivity|].
  split; [|vm_compute; reflexivity]. exists 2%nat. split; [vm_compute; reflexivity|]. unfold readable. vm_compute. discriminate.
Qed.
Print Assumptions C19_name_reuse_refuted.

(** ** C20 *)
Theorem C20_writer_wakes : forall r w evs c, reach steady r w evs -> blocked_msgs w c <> [] ->
  nbytes (ring_unread (w_ring w)) + nbytes (blocked_msgs w c) <= r_n (w_ring w) ->
  zlen (ring_unread (w_ring w)) + zlen (blocked_msgs w c) <= r_mm (w_ring w) ->
  exists w1, step w (AWake c) = Ok (w1, []) /\ asleep w1 c = false /\ w_ring w1 = w_ring w
    /\ forall e w2 ev, e_lock e = true -> step w1 (ARun c e) = Ok (w2, ev) ->
       In (ECommit c (blocked_msgs w c)) ev /\ asleep w2 c = false.
Proof. exact f_writer_wakes. Qed.
Print Assumptions C20_writer_wakes.
Definition d20 := map Do ([Open WR 7; Open WR 8; Open RDN 9] ++ write 0 [[1;2;3;4;5;6;7]] ++ write 0 [[1;2;3;4]] ++ write 1 [[8;9];[10;11]] ++ read 2 9 1).
Example C20_case : let w := sw2 true plain0 d20 in reach steady plain_ring w (se2 true plain0 d20)
  /\ blocked_msgs w 0 = [[1;2;3;4]] /\ blocked_msgs w 1 = [[8;9];[10;11]] /\ ring_unread (w_ring w) = []
  /\ r_n (w_ring w) = 10 /\ r_mm (w_ring w) = 3.
Proof.
  cbv zeta. split; [apply reach_steady2; [exact plain_fresh|vm_compute; reflexivity]|]. vm_compute. auto.
Qed.
Definition d20x := [OpenAs RD 7 0; OpenAs WR 8 60] ++ map Do (write 1 [[9]] ++ read 0 5 1) ++ [Do (Die 1); OpenAs WR 9 60]
  ++ map Do (write 2 [[1;2;3;4;5;6]] ++ write 2 [[1;2;3;4;5]] ++ read 0 9 1).
Theorem C20_name_reuse_refuted : let w := sw2 false plain0 d20x in reach reliable plain_ring w (se2 false plain0 d20x)
  /\ asleep w 2 = true /\ blocked_msgs w 2 = [[1;2;3;4;5]] /\ ring_unread (w_ring w) = [] /\ r_n (w_ring w) = 10 /\ r_mm (w_ring w) = 3
  /\ step w (AWake 2) = Ok (w, []).
Proof.
  cbv zeta. split; [apply reach_reliable2; [exact plain_fresh|vm_compute; reflexivity]|]. vm_compute. auto 8.
Qed.
Print Assumptions C20_name_reuse_refuted.

(** ** C21 *)
(** shr_get_selectable_fd: for a non-blocking reader, the socket that the
    following theorems are about; for everybody else, none *)
Theorem C21_selectable_fd : forall r w evs c w' ev, reach contract r w evs -> idle w evs c -> step w (ACall c CSelFd) = Ok (w', ev) ->
  w' = w /\ exists o, ev = [ECall c CSelFd; ERet c (RetSel o)]
  /\ (if has (c_flags (cli w c)) SHR_RDONLY && nonblocking w c then exists s, o = Some s /\ data_sock w c = Some s else o = None).
Proof. exact f_sel. Qed.
Print Assumptions C21_selectable_fd.
Theorem C21_ready : forall r w evs c s, reach steady r w evs -> data_sock w c = Some s -> nonblocking w c = true ->
  available (w_ring w) (c_q (cli w c)) <> [] -> readable w s.
Proof. exact f_ready. Qed.
Print Assumptions C21_ready.
Theorem C21_after_read : forall r w evs c s buf niov e w' ev, reach steady r w evs -> steady w (ARun c e) -> data_sock w c = Some s ->
  pending c evs = Some (CRead buf niov) -> asleep w c = false ->
  step w (ARun c e) = Ok (w', ev) -> e_lock e = true -> asleep w' c = false ->
  (readable w' s <-> available (w_ring w') (c_q (cli w' c)) <> []).
Proof. exact f_unready. Qed.
Print Assumptions C21_after_read.
Theorem C21_after_open : forall r w evs e flags pid w' ev c s, reach steady r w evs -> steady w (AOpen e flags pid) ->
  step w (AOpen e flags pid) = Ok (w', ev) -> ev = [EOpen flags (Some c)] -> data_sock w' c = Some s ->
  (readable w' s <-> available (w_ring w') (c_q (cli w' c)) <> []).
Proof. exact f_open_ready. Qed.
Print Assumptions C21_after_open.
Definition d21 := map Do ([Open WR 7; Open RDN 8] ++ write 0 [[1];[2]] ++ read 1 9 1).
Definition d21b := d21 ++ [Do (Call 1 (CRead (zeros 9) 1))].
Example C21_case : let w := sw2 true plain0 d21 in reach steady plain_ring w (se2 true plain0 d21)
  /\ (exists w', step w (ACall 1 CSelFd) = Ok (w', [ECall 1 CSelFd; ERet 1 (RetSel (Some 1%nat))])) /\ nonblocking w 1 = true /\ available (w_ring w) (c_q (cli w 1)) = [[2]] /\ readable w 1
  /\ let w := sw2 true plain0 d21b in reach steady plain_ring w (se2 true plain0 d21b) /\ steady w (ARun 1 (calm (w_ks w)))
  /\ exists w' ev, step w (ARun 1 (calm (w_ks w))) = Ok (w', ev) /\ available (w_ring w') (c_q (cli w' 1)) = [] /\ ~ readable w' 1.
Proof.
  cbv zeta. split; [apply reach_steady2; [exact plain_fresh|vm_compute; reflexivity]|].
  split; [eexists; vm_compute; reflexivity|]. split; [vm_compute; reflexivity|]. split; [vm_compute; reflexivity|]. split; [unfold readable; vm_compute; reflexivity|].
  split; [apply reach_steady2; [exact plain_fresh|vm_compute; reflexivity]|].
  split; [apply orderly_steady, (act2_orderly _ (Do (Run 1))); vm_compute; reflexivity|].
  eexists _, _. split; [vm_compute; reflexivity|]. split; [vm_compute; reflexivity|]. unfold readable. vm_compute. discriminate.
Qed.

(** ** C22 *)
(** messages entering the ring make the socket of every reader readable,
    messages leaving it that of every waiting writer *)
Theorem C22_wakes_readers : forall r w evs a w' ev c ms, reach steady r w evs -> steady w a -> step w a = Ok (w', ev) -> In (ECommit c ms) ev ->
  forall c' s, data_sock w' c' = Some s -> readable w' s.
Proof. exact f_wake_readers. Qed.
Print Assumptions C22_wakes_readers.
Theorem C22_wakes_writers : forall r w evs a w' ev c v b i, reach steady r w evs -> steady w a -> step w a = Ok (w', ev) ->
  In (ERet c (RetRead v b i)) ev -> 0 < v -> forall c' s, space_sock w' c' = Some s -> readable w' s.
Proof. exact f_wake_writers. Qed.
Print Assumptions C22_wakes_writers.
Theorem C22_wake_kept : forall r w evs a w' ev c s, reach steady r w evs -> steady w a -> step w a = Ok (w', ev) -> actor a <> Some c ->
  (data_sock w c = Some s -> data_sock w' c = Some s /\ (readable w s -> readable w' s))
  /\ (space_sock w c = Some s -> space_sock w' c = Some s /\ (readable w s -> readable w' s)).
Proof. exact f_wake_kept. Qed.
Print Assumptions C22_wake_kept.
(** who is registered *)
Theorem C22_all_readers : forall r w evs c, reach contract r w evs -> c_live (cli w c) = true -> has (c_flags (cli w c)) SHR_RDONLY = true ->
  exists s, data_sock w c = Some s.
Proof. exact reader_registered. Qed.
Print Assumptions C22_all_readers.
Theorem C22_all_writers : forall r w evs c, reach contract r w evs -> c_live (cli w c) = true -> has (c_flags (cli w c)) SHR_WRONLY = true ->
  has (c_flags (cli w c)) SHR_NONBLOCK = false -> r_drop (w_ring w) = false -> exists s, space_sock w c = Some s.
Proof. exact writer_registered. Qed.
Print Assumptions C22_all_writers.
(** each in a slot and with an open socket of its own *)
Theorem C22_own_slot : forall r w evs, reach steady r w evs ->
  (forall c s, data_sock w c = Some s -> exists n, (n < BW_WAITMAX)%nat /\ k_open (sk (w_ks w) s) = true
      /\ ws_pid (slot_of (w_w2r w) n) = k_pid (sk (w_ks w) s) /\ ws_name (slot_of (w_w2r w) n) = k_name (sk (w_ks w) s) /\ k_pid (sk (w_ks w) s) <> 0)
  /\ (forall c s, space_sock w c = Some s -> exists n, (n < BW_WAITMAX)%nat /\ k_open (sk (w_ks w) s) = true
      /\ ws_pid (slot_of (w_r2w w) n) = k_pid (sk (w_ks w) s) /\ ws_name (slot_of (w_r2w w) n) = k_name (sk (w_ks w) s) /\ k_pid (sk (w_ks w) s) <> 0)
  /\ (forall c c' s, data_sock w c = Some s -> data_sock w c' = Some s -> c = c')
  /\ (forall c c' s, space_sock w c = Some s -> space_sock w c' = Some s -> c = c')
  /\ (forall c c' s, data_sock w c = Some s -> space_sock w c' = Some s -> False).
Proof. exact f_registered. Qed.
Print Assumptions C22_own_slot.
Theorem C22_at_most_64 : forall r w evs, reach steady r w evs ->
  (length (readers w) <= BW_WAITMAX)%nat /\ (length (waiting_writers w) <= BW_WAITMAX)%nat.
Proof. exact f_max_waiters. Qed.
Print Assumptions C22_at_most_64.
(** reader 3 registered after the writer connected, in the slot of the dead reader 1 *)
Definition d22 := map Do ([Open WR 7; Open RDN 8; Open RD 9] ++ write 0 [[1]] ++ [Die 1; Open RDN 10] ++ read 3 9 1 ++ read 2 9 1 ++ [Call 0 (CWrite [[2;3]])]).
Example C22_case : let w := sw2 true plain0 d22 in reach steady plain_ring w (se2 true plain0 d22) /\ steady w (ARun 0 (calm (w_ks w)))
  /\ readers w = [2;3]%nat /\ waiting_writers w = [0]%nat /\ data_sock w 3 = Some 3%nat /\ ~ readable w 3 /\ data_sock w 2 = Some 2%nat
  /\ exists w' ev, step w (ARun 0 (calm (w_ks w))) = Ok (w', ev) /\ In (ECommit 0 [[2;3]]) ev /\ readable w' 3 /\ readable w' 2.
Proof.
  cbv zeta. split; [apply reach_steady2; [exact plain_fresh|vm_compute; reflexivity]|].
  split; [apply orderly_steady, (act2_orderly _ (Do (Run 0))); vm_compute; reflexivity|].
  split; [vm_compute; reflexivity|]. split; [vm_compute; reflexivity|]. split; [vm_compute; reflexivity|].
  split; [unfold readable; vm_compute; discriminate|]. split; [vm_compute; reflexivity|].
  eexists _, _. split; [vm_compute; reflexivity|]. split; [vm_compute; auto|]. split; unfold readable; vm_compute; reflexivity.
Qed.
(** without unique names, the slot of a live, registered reader is purged *)
Theorem C22_name_reuse_refuted : let w := sw2 false plain0 d19x in reach reliable plain_ring w (se2 false plain0 d19x)
  /\ c_live (cli w 2) = true /\ data_sock w 2 = Some 2%nat /\ k_open (sk (w_ks w) 2) = true
  /\ forall n, (n < BW_WAITMAX)%nat -> ws_pid (slot_of (w_w2r w) n) = 0.
Proof.
  cbv zeta. split; [apply reach_reliable2; [exact plain_fresh|vm_compute; reflexivity]|].
  split; [vm_compute; reflexivity|]. split; [vm_compute; reflexivity|]. split; [vm_compute; reflexivity|].
  assert (H : forallb (fun s => ws_pid s =? 0) (h_wr (w_w2r (sw2 false plain0 d19x))) = true) by (vm_compute; reflexivity).
  rewrite forallb_forall in H. intros n Ln. apply Z.eqb_eq, H. apply nth_In. vm_compute length. exact Ln.
Qed.
Print Assumptions C22_name_reuse_refuted.

(** ** C23 *)
(** bw_open in wait mode, on any handle: if some slot is free or left by a
    process that no longer has the socket, it registers in such a slot, and
    every other slot it changes is that of a dead process *)
Theorem C23_reserve : forall e ks h pid name n, good_sockets ks e -> length (h_wr h) = BW_WAITMAX ->
  e_alloc e = true -> e_bind e = true -> e_self e = true -> (forall k, In k ks -> k_open k = true -> k_name k <> name) ->
  (n < BW_WAITMAX)%nat -> (ws_pid (slot_of h n) = 0 \/ ~ alive ks (slot_of h n)) ->
  exists ks' h' n', bw_open_wait e ks h pid name = (ks', h', Some (Wait n' (length ks) [])) /\ (n' < BW_WAITMAX)%nat
    /\ slot_of h' n' = mkws pid name /\ (ws_pid (slot_of h n') = 0 \/ ~ alive ks (slot_of h n'))
    /\ (forall m, m <> n' -> slot_of h' m = slot_of h m \/ (ws_pid (slot_of h' m) = 0 /\ ~ alive ks (slot_of h m))).
Proof. exact f_bw_reserve. Qed.
Print Assumptions C23_reserve.
(** in the system: whatever crashes happened, shr_open succeeds while fewer
    than 64 clients of its kind are alive *)
Theorem C23_open_succeeds : forall r w evs e flags pid, reach orderly r w evs -> orderly w (AOpen e flags pid) -> e_bind e = true -> e_self e = true ->
  has flags SHR_RDONLY || has flags SHR_WRONLY = true -> flags mod SHR_OPEN_FENCE = 0 ->
  (has flags SHR_RDONLY = true -> (length (readers w) < BW_WAITMAX)%nat) ->
  (has flags SHR_WRONLY = true -> has flags SHR_NONBLOCK = false -> r_drop (w_ring w) = false -> (length (waiting_writers w) < BW_WAITMAX)%nat) ->
  exists w', step w (AOpen e flags pid) = Ok (w', [EOpen flags (Some (length (w_cl w)))]).
Proof. exact f_reclaimed. Qed.
Print Assumptions C23_open_succeeds.
(** 64 readers registered and one of them dead: a 65th open succeeds *)
Definition d23 := map Do (map (fun i => Open RD (Z.of_nat i + 100)) (seq 0 64) ++ [Die 17]).
Definition w23 := Eval vm_compute in sw2 true plain0 d23.
Definition e23 := Eval vm_compute in se2 true plain0 d23.
Example C23_case : reach orderly plain_ring w23 e23 /\ orderly w23 (AOpen (calm (w_ks w23)) RD 500)
  /\ length (readers w23) = 63%nat /\ ws_pid (slot_of (w_w2r w23) 17) = 117
  /\ forallb (fun s => negb (ws_pid s =? 0)) (h_wr (w_w2r w23)) = true
  /\ exists w', step w23 (AOpen (calm (w_ks w23)) RD 500) = Ok (w', [EOpen RD (Some 64%nat)]).
Proof.
  split; [exact (reach_orderly2 _ _ d23 plain_fresh ltac:(vm_compute; reflexivity))|].
  split; [apply (act2_orderly _ (Do (Open RD 500))); vm_compute; reflexivity|].
  split; [vm_compute; reflexivity|]. split; [vm_compute; reflexivity|]. split; [vm_compute; reflexivity|].
  eexists. vm_compute. reflexivity.
Qed.
(** with all 64 alive it fails *)
Definition d23f := map Do (map (fun i => Open RD (Z.of_nat i + 100)) (seq 0 64)).
Example C23_full : let w := sw2 true plain0 d23f in length (readers w) = 64%nat /\ exists w', step w (AOpen (calm (w_ks w)) RD 500) = Ok (w', [EOpen RD None]).
Proof. cbv zeta. split; [vm_compute; reflexivity|]. eexists. vm_compute. reflexivity. Qed.
