(** * The theorems, fifth part: killed processes (C32, C46).

    The critical sections are taken apart into single stores (Micro.v);
    [dies_at p r line s]: a process executing [p] from ring [r] is killed just
    before the statement on [line] and leaves [s] (the kernel then releases its
    lock).  Run to the end, these programs do what the critical sections of
    all the other theorems do: *)
From Verif Require Import CrashFinal.

Theorem C32_faithful : forall smm iov len woken r o, ring_write r smm iov len = Ok o ->
  exec_all (write_p smm iov len woken) r
  = Ok (match o with None => (r, false) | Some r' => (if woken then stat_wrote r' len (zlen iov) else r', true) end).
Proof. exact write_exec. Qed.
Print Assumptions C32_faithful.
Theorem C46_faithful : forall q md buf niov r q' md' o, ring_read r q md buf niov = Ok (q', md', o) ->
  exec_all (read_p q md buf niov) r
  = Ok (match o with None => r | Some (x, _) => rd_ring x end,
        (q', md', match o with None => None | Some (x, cur') => Some (loc_of x, cur') end)).
Proof. exact read_exec. Qed.
Print Assumptions C46_faithful.

(** ** C32: a writer killed in the middle of shr_writev

    The full statement: whatever the line, the unread messages are those from
    before (less what a DROP ring discards for the new ones), possibly followed
    by all the new ones, and the ring works.  It is false (below); proved: *)

(** Killed anywhere but between the stores of drop_unread (l.663, 664), a
    writer leaves unread what was unread before, or those of them a DROP ring
    keeps, or these and all its messages - never a part of a message, nor a
    part of its messages. *)
Theorem C32_unread_partial : forall r w evs iov woken line s,
  reach contract r w evs -> okb (r_n (w_ring w)) (r_mm (w_ring w)) iov = true ->
  dies_at (write_p (r_mm (w_ring w)) iov (nbytes iov) woken) (w_ring w) line s ->
  line <> 663 -> line <> 664 ->
  let before := ring_unread (w_ring w) in
  let kept := fit_suffix (r_n (w_ring w)) (r_mm (w_ring w)) iov before in
  ring_unread s = if (line =? 929) || (line <=? 662) then before else if line <? 1004 then kept else kept ++ iov.
Proof. exact p_unread. Qed.
Print Assumptions C32_unread_partial.

(** Outside the intervals named in [torn] the ring goes on working exactly as
    a queue holding what is in it, whatever is written and read afterwards. *)
Theorem C32_usable_partial : forall r w evs iov woken line s,
  reach contract r w evs -> okb (r_n (w_ring w)) (r_mm (w_ring w)) iov = true ->
  (r_farm r = true -> zlen (committed evs) + zlen iov < W64) ->
  dies_at (write_p (r_mm (w_ring w)) iov (nbytes iov) woken) (w_ring w) line s ->
  torn (w_ring w) s line = false -> works_as_queue s.
Proof. exact p_usable. Qed.
Print Assumptions C32_usable_partial.

(** Anywhere but on l.663, 664: the unread messages can still be read, in
    order and intact, as long as nobody writes (rings without SHR_FARM). *)
Theorem C32_drain_partial : forall r w evs iov woken line s ops,
  reach contract r w evs -> okb (r_n (w_ring w)) (r_mm (w_ring w)) iov = true ->
  r_farm r = false -> dies_at (write_p (r_mm (w_ring w)) iov (nbytes iov) woken) (w_ring w) line s ->
  line <> 663 -> line <> 664 -> forallb is_read ops = true ->
  exists s' xs, r_run s ops = Ok (s', xs) /\ map got xs = drain (ring_unread s) ops.
Proof. exact p_drain. Qed.
Print Assumptions C32_drain_partial.

Definition rdop := QRead 0 0 (zeros 10) 10.
Definition opens32 := [Open WRN 7; Open RDN 8].
(** 10 bytes, 3 messages: three messages written, two of them read *)
Definition ev32 := opens32 ++ write 0 [[1;1;1]] ++ write 0 [[2;2;2]] ++ write 0 [[3;3;3]] ++ read 1 6 2.
(** the hypotheses are met: killed while copying the second byte of a message
    whose space was taken from messages already read; the next message is then
    written and all are read *)
Example C32_case : let w := sw plain0 ev32 in
  reach contract plain_ring w (se plain0 ev32)
  /\ okb (r_n (w_ring w)) (r_mm (w_ring w)) [[4;4;4]] = true
  /\ ring_unread (w_ring w) = [[3;3;3]]
  /\ exists s, dies_at (write_p (r_mm (w_ring w)) [[4;4;4]] (nbytes [[4;4;4]]) true) (w_ring w) 994 s
    /\ torn (w_ring w) s 994 = false /\ ring_unread s = [[3;3;3]]
    /\ s <> w_ring w
    /\ exists s', r_run s [QWrite [[5;5;5]; [6;6;6]]; rdop] = Ok (s', [WOk; RGot [[3;3;3]; [5;5;5]; [6;6;6]] 0 0]).
Proof.
  cbv zeta. split; [apply reach_contract; [exact plain_fresh|vm_compute; reflexivity]|].
  do 2 (split; [vm_compute; reflexivity|]).
  exists (left_ring (killed_writing (sw plain0 ev32) [[4;4;4]] 12)).
  split; [apply (kill_dies 12); vm_compute; reflexivity|].
  do 2 (split; [vm_compute; reflexivity|]).
  split; [intros H; apply (f_equal r_q) in H; vm_compute in H; discriminate|].
  eexists. vm_compute. reflexivity.
Qed.

(** What is false.  In all of these the writer dies at the line given, in a
    reachable state, and afterwards: *)
(** a DROP ring with [[1];[2];[3]] unread: message 1, which was about to be
    dropped, is delivered after the later ones (l.663) *)
Definition three32 := opens32 ++ write 0 [[1]] ++ write 0 [[2]] ++ write 0 [[3]].
Theorem C32_order_refuted : exists w evs s,
  reach contract drop_ring w evs /\ okb (r_n (w_ring w)) (r_mm (w_ring w)) [[4]] = true
  /\ ring_unread (w_ring w) = [[1];[2];[3]]
  /\ dies_at (write_p (r_mm (w_ring w)) [[4]] (nbytes [[4]]) true) (w_ring w) 663 s
  /\ exists s', r_run s [rdop] = Ok (s', [RGot [[2];[3];[1]] 0 0]).
Proof.
  apply (refute_write three32 drop0 drop_ring drop_size [[4]] 4 663 [rdop] _ (fun x => ring_unread x = [[1];[2];[3]]));
    [reflexivity|exact drop_fresh|vm_compute; reflexivity..].
Qed.
Print Assumptions C32_order_refuted.
(** a later message is corrupted (l.975) *)
Theorem C32_corrupt_refuted : exists w evs s,
  reach contract plain_ring w evs /\ okb (r_n (w_ring w)) (r_mm (w_ring w)) [[4;4;4]] = true
  /\ ring_unread (w_ring w) = [[3;3;3]]
  /\ dies_at (write_p (r_mm (w_ring w)) [[4;4;4]] (nbytes [[4;4;4]]) true) (w_ring w) 975 s
  /\ exists s', r_run s [QWrite [[5;5;5]]; rdop] = Ok (s', [WOk; RGot [[3;3;3];[5;5;1]] 0 0]).
Proof.
  apply (refute_write ev32 plain0 plain_ring plain_size [[4;4;4]] 5 975 _ _ (fun x => ring_unread x = [[3;3;3]]));
    [reflexivity|exact plain_fresh|vm_compute; reflexivity..].
Qed.
Print Assumptions C32_corrupt_refuted.
(** a message unread before is overwritten by a later write (l.1000) *)
Theorem C32_overwrite_refuted : exists w evs s,
  reach contract plain_ring w evs /\ okb (r_n (w_ring w)) (r_mm (w_ring w)) [[4;4;4;4]] = true
  /\ ring_unread (w_ring w) = [[1;1;1;1]]
  /\ dies_at (write_p (r_mm (w_ring w)) [[4;4;4;4]] (nbytes [[4;4;4;4]]) true) (w_ring w) 1000 s
  /\ exists s', r_run s [QWrite [[5;5;5;5;5;5]]; rdop] = Ok (s', [WOk; RGot [[5;5;5;5];[5;5;5;5;5;5]] 0 0]).
Proof.
  apply (refute_write (opens32 ++ write 0 [[1;1;1;1]]) plain0 plain_ring plain_size [[4;4;4;4]] 15 1000 _ _ (fun x => ring_unread x = [[1;1;1;1]]));
    [reflexivity|exact plain_fresh|vm_compute; reflexivity..].
Qed.
Print Assumptions C32_overwrite_refuted.
(** an empty ring stays full for good: nothing can be written or read (l.1001) *)
Theorem C32_wedged_refuted : exists w evs s,
  reach contract plain_ring w evs /\ okb (r_n (w_ring w)) (r_mm (w_ring w)) [[1;2;3;4;5;6;7;8;9;10]] = true
  /\ ring_unread (w_ring w) = []
  /\ dies_at (write_p (r_mm (w_ring w)) [[1;2;3;4;5;6;7;8;9;10]] (nbytes [[1;2;3;4;5;6;7;8;9;10]]) true) (w_ring w) 1001 s
  /\ exists s', r_run s [QWrite [[5]]; rdop] = Ok (s', [WFull; RNone 0 0]).
Proof.
  apply (refute_write opens32 plain0 plain_ring plain_size [[1;2;3;4;5;6;7;8;9;10]] 21 1001 _ _ (fun x => ring_unread x = []));
    [reflexivity|exact plain_fresh|vm_compute; reflexivity..].
Qed.
Print Assumptions C32_wedged_refuted.
(** from then on readers lag one message behind the writers (l.1002): message 5
    is written but 4 is delivered in its place *)
Theorem C32_lag_refuted : exists w evs s,
  reach contract plain_ring w evs /\ okb (r_n (w_ring w)) (r_mm (w_ring w)) [[4;4;4]] = true
  /\ ring_unread (w_ring w) = [[3;3;3]]
  /\ dies_at (write_p (r_mm (w_ring w)) [[4;4;4]] (nbytes [[4;4;4]]) true) (w_ring w) 1002 s
  /\ exists s', r_run s [QWrite [[5;5;5]]; rdop; rdop] = Ok (s', [WOk; RGot [[3;3;3];[4;4;4]] 0 0; RNone 0 0]).
Proof.
  apply (refute_write ev32 plain0 plain_ring plain_size [[4;4;4]] 17 1002 _ _ (fun x => ring_unread x = [[3;3;3]]));
    [reflexivity|exact plain_fresh|vm_compute; reflexivity..].
Qed.
Print Assumptions C32_lag_refuted.

(** ** C46: a reader killed in the middle of shr_readv *)
(** Killed anywhere but between the stores of r->r and r->m (l.840, 841), it
    leaves a ring that works; nothing is lost but what it had taken, the
    eldest [c] messages, none of those it was not going to take. *)
Theorem C46_safe_partial : forall r w evs q md buf niov line s,
  reach contract r w evs -> 0 < zlen buf -> 0 <= niov ->
  dies_at (read_p q md buf niov) (w_ring w) line s -> torn_read line = false ->
  works_as_queue s /\ ring_retained s = ring_retained (w_ring w)
  /\ (if r_farm r then ring_unread s = ring_unread (w_ring w)
      else exists c, 0 <= c <= zlen (take_fit (Z.to_nat niov) (usable buf) (ring_unread (w_ring w)))
                     /\ ring_unread s = skipn (Z.to_nat c) (ring_unread (w_ring w))).
Proof. exact p_read_left. Qed.
Print Assumptions C46_safe_partial.
(** On a ring with SHR_FARM that is everywhere. *)
Theorem C46_farm : forall r w evs q md buf niov line s,
  reach contract r w evs -> 0 < zlen buf -> 0 <= niov -> r_farm r = true ->
  dies_at (read_p q md buf niov) (w_ring w) line s -> torn_read line = false.
Proof. exact p_read_farm. Qed.
Print Assumptions C46_farm.
Example C46_case : let w := sw plain0 ev32 in
  reach contract plain_ring w (se plain0 ev32) /\ ring_unread (w_ring w) = [[3;3;3]]
  /\ exists s, dies_at (read_p 0 0 (zeros 10) 10) (w_ring w) 847 s /\ torn_read 847 = false /\ ring_unread s = []
     /\ exists s', dies_at (read_p 0 0 (zeros 10) 10) (w_ring w) 839 s' /\ torn_read 839 = false /\ ring_unread s' = [[3;3;3]].
Proof.
  cbv zeta. split; [apply reach_contract; [exact plain_fresh|vm_compute; reflexivity]|]. split; [vm_compute; reflexivity|].
  exists (left_ring (killed_reading (sw plain0 ev32) 0 0 (zeros 10) 10 6)). split; [apply (kill_dies 6); vm_compute; reflexivity|].
  do 2 (split; [vm_compute; reflexivity|]).
  exists (left_ring (killed_reading (sw plain0 ev32) 0 0 (zeros 10) 10 2)). split; [apply (kill_dies 2); vm_compute; reflexivity|].
  split; vm_compute; reflexivity.
Qed.
(** What is false: a reader killed on l.840 while taking message 4; message 5
    is then written, and message 3, read before, is delivered again *)
Definition ks46 := opens32 ++ write 0 [[1]] ++ write 0 [[2]] ++ write 0 [[3]] ++ read 1 10 3 ++ write 0 [[4]].
Theorem C46_refuted : exists w evs s,
  reach contract plain_ring w evs /\ ring_unread (w_ring w) = [[4]]
  /\ dies_at (read_p 0 0 (zeros 10) 10) (w_ring w) 840 s
  /\ exists s', r_run s [QWrite [[5]]; rdop; rdop] = Ok (s', [WOk; RGot [[5];[3]] 0 0; RNone 0 0]).
Proof.
  apply (refute_read ks46 plain0 plain_ring plain_size 0 0 (zeros 10) 10 3 840 _ _ (fun x => ring_unread x = [[4]]));
    [reflexivity|exact plain_fresh|vm_compute; reflexivity..].
Qed.
Print Assumptions C46_refuted.
