(** * The theorems, first part: queue, log, calls (C01-C18, C26, C30).

    Every statement uses only Sys.v (the model) and Spec.v (the vocabulary).
    [reach contract r w evs]: starting from a fresh ring [r], any number of
    processes calling the API in any order, being scheduled, woken,
    interrupted, refused and killed (outside the lock) in any way, have
    produced the events [evs] and the state [w].  [contract] only restricts
    the callers; [reliable], [faultless], [undisturbed] also restrict the
    environment (Spec.v).  Beside each theorem a concrete case. *)
From Verif Require Import Final.

(** ** C01 *)
Theorem C01_fifo_exactly_once : forall r w evs, reach contract r w evs -> r_drop r = false ->
  committed evs = delivered evs ++ ring_unread (w_ring w).
Proof. exact f_fifo. Qed.
Print Assumptions C01_fifo_exactly_once.
Definition s01 := [Open WR 7; Open RD 8; Open RDN 9] ++ write 0 [[1;2;3]] ++ write 0 [[4;5;6;7]] ++ read 1 6 1
  ++ write 0 [[8;9;10;11;12]] ++ [Call 0 (CWrite [[13;14]]); Run 0] ++ read 2 20 9 ++ [Recv 0; Run 0].
Example C01_case : reach contract plain_ring (sw plain0 s01) (se plain0 s01)
  /\ delivered (se plain0 s01) = [[1;2;3]; [4;5;6;7]; [8;9;10;11;12]]
  /\ ring_unread (w_ring (sw plain0 s01)) = [[13;14]].
Proof. split; [apply reach_contract; [exact plain_fresh|vm_compute; reflexivity]|]. split; vm_compute; reflexivity. Qed.

(** the same with SHR_DROP: what is gone is what was delivered interleaved with what was dropped *)
Theorem C01_drop_history : forall r w evs, reach contract r w evs -> r_farm r = false ->
  exists gone dropped, committed evs = gone ++ ring_unread (w_ring w) /\ merge (delivered evs) dropped gone.
Proof. exact f_drop_history. Qed.
Print Assumptions C01_drop_history.

(** ** C02 *)
Theorem C02_boundaries_and_bytes : forall r w evs pre c x post, reach contract r w evs ->
  evs = pre ++ ERet c x :: post -> read_msgs x <> [] ->
  exists before after, committed pre = before ++ read_msgs x ++ after.
Proof. exact f_boundaries. Qed.
Print Assumptions C02_boundaries_and_bytes.
(** a message that wraps around the end of a FARM ring *)
Definition s02 := [Open WR 7; Open RDN 8] ++ write 0 [[1;2;3]] ++ write 0 [[4;5;6;7]] ++ write 0 [[8;9;10;11;12]] ++ read 1 20 9.
Example C02_case : reach contract farm_ring (sw farm0 s02) (se farm0 s02)
  /\ exists pre x, se farm0 s02 = pre ++ [ERet 1 x] /\ read_msgs x = [[4;5;6;7]; [8;9;10;11;12]].
Proof.
  split; [apply reach_contract; [exact farm_fresh|vm_compute; reflexivity]|].
  eexists (removelast (se farm0 s02)), (match last (se farm0 s02) (ECrash 0) with ERet _ x => x | _ => RetClosed end).
  split; vm_compute; reflexivity.
Qed.

(** ** C03 *)
(** every step of the system: messages enter only by a commit, at the end, all
    together; otherwise the content only shrinks from the front by what is delivered *)
Theorem C03_contiguous : forall r w evs a w' ev, reach contract r w evs -> contract w a -> step w a = Ok (w', ev) ->
  (forall c ms, In (ECommit c ms) ev -> committed ev = ms
     /\ (if r_drop r then least_drop (r_n r) (r_mm r) ms (ring_unread (w_ring w)) (ring_unread (w_ring w'))
         else ring_unread (w_ring w') = ring_unread (w_ring w) ++ ms))
  /\ (committed ev = [] ->
      (r_farm r = true -> ring_unread (w_ring w') = ring_unread (w_ring w))
      /\ (r_farm r = false -> ring_unread (w_ring w) = delivered ev ++ ring_unread (w_ring w'))
      /\ ring_retained (w_ring w') = ring_retained (w_ring w)).
Proof. exact f_step_content. Qed.
Print Assumptions C03_contiguous.
(** a write in progress: it goes on without effect, or its process dies without
    effect, or it returns 0 or a negative value without effect, or all its
    messages enter and it returns their total size (-1 only if a wake-up or
    msync failed, see C35) *)
Theorem C03_all_or_nothing : forall r w evs a w' ev c iov, reach contract r w evs -> contract w a -> step w a = Ok (w', ev) ->
  pending c evs = Some (CWrite iov) -> unbuffered w c ->
  (pending c (evs ++ ev) = Some (CWrite iov) /\ committed_by c ev = [] /\ accepted_by c ev = [])
  \/ (ev = [ECrash c] /\ w_ring w' = w_ring w)
  \/ (exists v, v <= 0 /\ ev = [ERet c (RetWrite iov v)] /\ w_ring w' = w_ring w)
  \/ (exists v kept, ev = [ECommit c iov; ERet c (RetWrite iov v)]
      /\ (v = nbytes iov \/ v = -1) /\ (faultless w a -> v = nbytes iov)
      /\ ring_unread (w_ring w') = kept ++ iov).
Proof. exact f_write_outcomes. Qed.
Print Assumptions C03_all_or_nothing.
Definition s03 := [Open WR 7; Open RDN 8] ++ write 0 [[1;2;3]] ++ [Call 0 (CWrite [[4;5];[6];[7;8]]); Run 0] ++ read 1 20 9 ++ [Recv 0].
Example C03_case : let w := sw plain0 s03 in let evs := se plain0 s03 in
  reach contract plain_ring w evs /\ pending 0 evs = Some (CWrite [[4;5];[6];[7;8]]) /\ unbuffered w 0
  /\ exists w', step w (ARun 0 (calm (w_ks w))) = Ok (w', [ECommit 0 [[4;5];[6];[7;8]]; ERet 0 (RetWrite [[4;5];[6];[7;8]] 5)]).
Proof.
  cbv zeta. split; [apply reach_contract; [exact plain_fresh|vm_compute; reflexivity]|].
  split; [vm_compute; reflexivity|]. split; [vm_compute; reflexivity|]. eexists. vm_compute. reflexivity.
Qed.

(** ** C04 *)
Theorem C04_rejected_writes : forall r w evs c iov w' ev, reach contract r w evs -> contract w (ACall c (CWrite iov)) ->
  idle w evs c -> step w (ACall c (CWrite iov)) = Ok (w', ev) ->
  (refused (r_n r) (r_mm r) iov -> ev = [ECall c (CWrite iov); ERet c (RetWrite iov (-1))] /\ w' = w)
  /\ (~ refused (r_n r) (r_mm r) iov ->
      (ev = [ECall c (CWrite iov)] \/ ev = [ECall c (CWrite iov); ERet c (RetWrite iov (nbytes iov))])
      /\ 0 < nbytes iov /\ w_ring w' = w_ring w /\ asleep w' c = false).
Proof. exact f_refused. Qed.
Print Assumptions C04_rejected_writes.
Definition s04 := [Open WR 7] ++ write 0 [[1;2;3]].
Example C04_case : let w := sw plain0 s04 in let evs := se plain0 s04 in
  reach contract plain_ring w evs /\ idle w evs 0
  /\ Forall (refused (r_n plain_ring) (r_mm plain_ring)) [[]; [[]]; [[1];[2];[3];[4]]; [[1;2;3;4;5;6];[7;8;9;10;11]]]
  /\ ~ refused (r_n plain_ring) (r_mm plain_ring) [[1;2;3;4;5];[6;7;8;9;10]].
Proof.
  cbv zeta. split; [apply reach_contract; [exact plain_fresh|vm_compute; reflexivity]|]. split; [split; vm_compute; reflexivity|].
  split; [repeat constructor; unfold refused; cbn; auto; right; right; vm_compute; auto|].
  intros [H|[H|[H|H]]]; try discriminate; vm_compute in H; discriminate.
Qed.

(** ** C05, C06 *)
Theorem C05_C06_write_pass : forall r w evs c e iov w' ev, reach contract r w evs ->
  pending c evs = Some (CWrite iov) -> unbuffered w c -> asleep w c = false ->
  step w (ARun c e) = Ok (w', ev) -> e_lock e = true ->
  nbytes iov <= r_n r /\ zlen iov <= r_mm r /\
  ((r_drop r = false /\ ~ (nbytes (ring_unread (w_ring w)) + nbytes iov <= r_n r /\ zlen (ring_unread (w_ring w)) + zlen iov <= r_mm r)
    /\ w_ring w' = w_ring w
    /\ (if nonblocking w c then ev = [ERet c (RetWrite iov 0)] else ev = [] /\ asleep w' c = true))
   \/ ((r_drop r = true \/ (nbytes (ring_unread (w_ring w)) + nbytes iov <= r_n r /\ zlen (ring_unread (w_ring w)) + zlen iov <= r_mm r))
    /\ (exists v, ev = [ECommit c iov; ERet c (RetWrite iov v)] /\ (v = nbytes iov \/ v = -1)
         /\ (faultless w (ARun c e) -> v = nbytes iov))
    /\ least_drop (r_n r) (r_mm r) iov (ring_unread (w_ring w)) (ring_unread (w_ring w'))
    /\ least_drop (r_n r) (r_mm r) iov (ring_retained (w_ring w)) (ring_retained (w_ring w')))).
Proof. exact f_write_pass. Qed.
Print Assumptions C05_C06_write_pass.
(** full to the last byte, across the wrap; one byte more does not fit *)
Definition s05 n := [Open WRN 7; Open RDN 8] ++ write 0 [[1;2;3;4]] ++ read 1 20 9 ++ write 0 [[1;2;3;4;5;6;7]] ++ [Call 0 (CWrite [zeros n])].
Example C05_case : let w := sw plain0 (s05 3) in let evs := se plain0 (s05 3) in
  reach contract plain_ring w evs /\ pending 0 evs = Some (CWrite [[0;0;0]]) /\ unbuffered w 0 /\ asleep w 0 = false
  /\ exists w', step w (ARun 0 (calm (w_ks w))) = Ok (w', [ECommit 0 [[0;0;0]]; ERet 0 (RetWrite [[0;0;0]] 3)]).
Proof.
  cbv zeta. split; [apply reach_contract; [exact plain_fresh|vm_compute; reflexivity]|].
  repeat (split; [vm_compute; reflexivity|]). eexists. vm_compute. reflexivity.
Qed.
Example C05_case_full : let w := sw plain0 (s05 4) in let evs := se plain0 (s05 4) in
  reach contract plain_ring w evs /\ pending 0 evs = Some (CWrite [[0;0;0;0]]) /\ unbuffered w 0 /\ asleep w 0 = false
  /\ exists w', step w (ARun 0 (calm (w_ks w))) = Ok (w', [ERet 0 (RetWrite [[0;0;0;0]] 0)]).
Proof.
  cbv zeta. split; [apply reach_contract; [exact plain_fresh|vm_compute; reflexivity]|].
  repeat (split; [vm_compute; reflexivity|]). eexists. vm_compute. reflexivity.
Qed.
Example C06_case : let w := sw drop0 (s05 4) in let evs := se drop0 (s05 4) in
  reach contract drop_ring w evs /\ pending 0 evs = Some (CWrite [[0;0;0;0]]) /\ unbuffered w 0 /\ asleep w 0 = false
  /\ exists w', step w (ARun 0 (calm (w_ks w))) = Ok (w', [ECommit 0 [[0;0;0;0]]; ERet 0 (RetWrite [[0;0;0;0]] 4)])
       /\ ring_unread (w_ring w') = [[0;0;0;0]].
Proof.
  cbv zeta. split; [apply reach_contract; [exact drop_fresh|vm_compute; reflexivity]|].
  repeat (split; [vm_compute; reflexivity|]). eexists. split; vm_compute; reflexivity.
Qed.

(** ** C07, C08, C09 *)
Theorem C07_C08_C09_read_pass : forall r w evs c e buf niov w' ev, reach contract r w evs ->
  pending c evs = Some (CRead buf niov) -> asleep w c = false ->
  step w (ARun c e) = Ok (w', ev) -> e_lock e = true ->
  let av := available (w_ring w) (c_q (cli w c)) in
  let av' := available (w_ring w') (c_q (cli w' c)) in
  (av = [] /\ av' = [] /\ w_ring w' = w_ring w
     /\ (if nonblocking w c then ev = [ERet c (RetRead 0 buf [])] /\ asleep w' c = false
         else ev = [] /\ asleep w' c = true))
  \/ (exists taken, asleep w' c = false /\ av <> [] /\ longest_fit niov (usable buf) av taken av'
       /\ ev = [ERet c (RetRead (match taken with [] => -2 | _ => nbytes taken end)
                         (concat taken ++ skipn (length (concat taken)) buf) (tile 0 taken))]).
Proof. exact f_read_pass. Qed.
Print Assumptions C07_C08_C09_read_pass.
Theorem C08_zero_length : forall r w evs c buf niov w' ev, reach contract r w evs -> contract w (ACall c (CRead buf niov)) ->
  idle w evs c -> step w (ACall c (CRead buf niov)) = Ok (w', ev) ->
  (buf = [] \/ niov = 0 -> ev = [ECall c (CRead buf niov); ERet c (RetRead (-1) buf [])] /\ w' = w)
  /\ (buf <> [] /\ niov <> 0 -> ev = [ECall c (CRead buf niov)] /\ w_ring w' = w_ring w /\ asleep w' c = false).
Proof. exact f_read_zero. Qed.
Print Assumptions C08_zero_length.
Definition s07 n := [Open WR 7; Open RDN 8] ++ write 0 [[1;2;3];[4;5];[6]] ++ [Call 1 (CRead (zeros n) 2)].
Example C07_case : let w := sw plain0 (s07 7) in let evs := se plain0 (s07 7) in
  reach contract plain_ring w evs /\ pending 1 evs = Some (CRead (zeros 7) 2) /\ asleep w 1 = false
  /\ exists w', step w (ARun 1 (calm (w_ks w))) = Ok (w', [ERet 1 (RetRead 5 [1;2;3;4;5;0;0] [(0,3);(3,2)])]).
Proof.
  cbv zeta. split; [apply reach_contract; [exact plain_fresh|vm_compute; reflexivity]|].
  repeat (split; [vm_compute; reflexivity|]). eexists. vm_compute. reflexivity.
Qed.
Example C08_case : let w := sw farm0 (s07 2) in let evs := se farm0 (s07 2) in
  reach contract farm_ring w evs /\ pending 1 evs = Some (CRead (zeros 2) 2) /\ asleep w 1 = false
  /\ exists w', step w (ARun 1 (calm (w_ks w))) = Ok (w', [ERet 1 (RetRead (-2) [0;0] [])]).
Proof.
  cbv zeta. split; [apply reach_contract; [exact farm_fresh|vm_compute; reflexivity]|].
  repeat (split; [vm_compute; reflexivity|]). eexists. vm_compute. reflexivity.
Qed.
Definition s09 := [Open WR 7; Open RDN 8] ++ write 0 [[1;2;3]] ++ read 1 9 1 ++ [Call 1 (CRead (zeros 2) 2)].
Example C09_case : let w := sw drop0 s09 in let evs := se drop0 s09 in
  reach contract drop_ring w evs /\ pending 1 evs = Some (CRead (zeros 2) 2) /\ asleep w 1 = false /\ nonblocking w 1 = true
  /\ exists w', step w (ARun 1 (calm (w_ks w))) = Ok (w', [ERet 1 (RetRead 0 [0;0] [])]).
Proof.
  cbv zeta. split; [apply reach_contract; [exact drop_fresh|vm_compute; reflexivity]|].
  repeat (split; [vm_compute; reflexivity|]). eexists. vm_compute. reflexivity.
Qed.

(** ** C10, C11, C12 *)
(** got + lost = distance moved, in order, starting at the oldest message
    present at the time of the open, skipping only messages no longer there;
    [lost_reported] is what shr_farm_stat told so far, [c_md] what it would
    tell now *)
Theorem C10_farm_follow : forall r w evs c, reach contract r w evs -> r_farm r = true -> c_live (cli w c) = true ->
  exists pre flags post w1, evs = pre ++ EOpen flags (Some c) :: post /\ reach contract r w1 pre
    /\ follow (committed evs) (eldest evs (w_ring w)) (eldest pre (w_ring w1))
         (delivered_to c evs) (lost_reported c evs + c_md (cli w c)) (c_q (cli w c)).
Proof. exact f_follow. Qed.
Print Assumptions C10_farm_follow.
Theorem C10_farm_next : forall r w evs c, reach contract r w evs -> r_farm r = true -> c_live (cli w c) = true ->
  available (w_ring w) (c_q (cli w c)) =
  skipn (Z.to_nat (Z.max (c_q (cli w c)) (eldest evs (w_ring w)))) (committed evs).
Proof. exact f_next. Qed.
Print Assumptions C10_farm_next.
Theorem C10_farm_stat : forall r w evs c reset w' ev, reach contract r w evs -> contract w (ACall c (CFarmStat reset)) ->
  idle w evs c -> step w (ACall c (CFarmStat reset)) = Ok (w', ev) ->
  ev = [ECall c (CFarmStat reset); ERet c (RetFarm reset (c_md (cli w c)))]
  /\ c_md (cli w' c) = (if reset then 0 else c_md (cli w c)) /\ w_ring w' = w_ring w /\ c_q (cli w' c) = c_q (cli w c).
Proof. exact f_farm_stat. Qed.
Print Assumptions C10_farm_stat.
Theorem C10_farm_caught_up : forall r w evs c e buf niov w', reach contract r w evs -> r_farm r = true ->
  pending c evs = Some (CRead buf niov) -> e_lock e = true ->
  step w (ARun c e) = Ok (w', [ERet c (RetRead 0 buf [])]) -> c_q (cli w' c) = zlen (committed evs).
Proof. exact f_caught_up. Qed.
Print Assumptions C10_farm_caught_up.
(** a late and slow reader: opens after 4 messages (2 retained), misses 2 more *)
Definition s10 := [Open WR 7] ++ write 0 [[1;1;1]] ++ write 0 [[2;2;2]] ++ write 0 [[3;3;3]] ++ write 0 [[4;4;4]]
  ++ [Open RDN 8] ++ write 0 [[5;5;5;5]] ++ write 0 [[6;6;6;6]] ++ read 1 9 9 ++ [Call 1 (CFarmStat true)] ++ write 0 [[7;7;7]].
Example C10_case : reach contract farm_ring (sw farm0 s10) (se farm0 s10) /\ c_live (cli (sw farm0 s10) 1) = true
  /\ delivered_to 1 (se farm0 s10) = [[5;5;5;5];[6;6;6;6]] /\ lost_reported 1 (se farm0 s10) = 3
  /\ c_q (cli (sw farm0 s10) 1) = 6.
Proof. split; [apply reach_contract; [exact farm_fresh|vm_compute; reflexivity]|]. repeat split; vm_compute; reflexivity. Qed.
Theorem C11_farm_independent : forall r w evs a w' ev c, reach contract r w evs -> contract w a -> step w a = Ok (w', ev) ->
  r_farm r = true -> committed ev = [] -> actor a <> Some c -> c_live (cli w c) = true ->
  ring_unread (w_ring w') = ring_unread (w_ring w) /\ ring_retained (w_ring w') = ring_retained (w_ring w)
  /\ available (w_ring w') (c_q (cli w' c)) = available (w_ring w) (c_q (cli w c)) /\ c_md (cli w' c) = c_md (cli w c).
Proof. exact f_independent. Qed.
Print Assumptions C11_farm_independent.
Definition s11 := s10 ++ [Open RDN 9; Call 1 (CRead (zeros 9) 9)].
Example C11_case : let w := sw farm0 s11 in reach contract farm_ring w (se farm0 s11) /\ c_live (cli w 2) = true
  /\ available (w_ring w) (c_q (cli w 2)) = [[6;6;6;6];[7;7;7]]
  /\ exists w', step w (ARun 1 (calm (w_ks w))) = Ok (w', [ERet 1 (RetRead 3 [7;7;7;0;0;0;0;0;0] [(0,3)])]).
Proof.
  cbv zeta. split; [apply reach_contract; [exact farm_fresh|vm_compute; reflexivity]|].
  repeat (split; [vm_compute; reflexivity|]). eexists. vm_compute. reflexivity.
Qed.
(** retention: what a write removes is least (C05_C06_write_pass, last clause);
    on a FARM ring what counts as unread is what is retained *)
Theorem C12_farm_unread : forall r w evs, reach contract r w evs -> r_farm r = true ->
  ring_unread (w_ring w) = ring_retained (w_ring w).
Proof. exact f_farm_unread. Qed.
Print Assumptions C12_farm_unread.
Theorem C12_C26_open_reads : forall r w evs e flags pid w' ev c, reach contract r w evs -> contract w (AOpen e flags pid) ->
  step w (AOpen e flags pid) = Ok (w', ev) -> In (EOpen flags (Some c)) ev ->
  ring_unread (w_ring w') = ring_unread (w_ring w)
  /\ available (w_ring w') (c_q (cli w' c)) = (if r_farm r then ring_retained (w_ring w) else ring_unread (w_ring w))
  /\ c_md (cli w' c) = 0 /\ c_live (cli w' c) = true /\ c_flags (cli w' c) = flags /\ c_pid (cli w' c) = pid.
Proof. exact f_open_reads. Qed.
Print Assumptions C12_C26_open_reads.
Example C12_case : let w := sw farm0 s10 in reach contract farm_ring w (se farm0 s10)
  /\ ring_retained (w_ring w) = [[6;6;6;6];[7;7;7]]
  /\ exists w', step w (AOpen (calm (w_ks w)) RDN 12) = Ok (w', [EOpen RDN (Some 2%nat)]).
Proof.
  cbv zeta. split; [apply reach_contract; [exact farm_fresh|vm_compute; reflexivity]|].
  repeat (split; [vm_compute; reflexivity|]). eexists. vm_compute. reflexivity.
Qed.

(** ** C13, C14 *)
Theorem C13_counters : forall r w evs, reach contract r w evs ->
  let s := r_stat (w_ring w) in let P := since_reset evs in
  st_mr s = u64 (zlen (delivered P)) /\ st_br s = u64 (nbytes (delivered P))
  /\ (exists D, 0 <= D /\ st_md s = u64 D
       /\ unread_at_reset evs + zlen (committed P) = (if r_farm r then 0 else zlen (delivered P)) + D + zlen (ring_unread (w_ring w)))
  /\ (exists D, 0 <= D /\ st_bd s = u64 D
       /\ bytes_at_reset evs + nbytes (committed P) = (if r_farm r then 0 else nbytes (delivered P)) + D + nbytes (ring_unread (w_ring w))).
Proof. exact f_counters. Qed.
Print Assumptions C13_counters.
Theorem C13_write_counters : forall r w evs, reach reliable r w evs ->
  st_mw (r_stat (w_ring w)) = u64 (zlen (committed (since_reset evs)))
  /\ st_bw (r_stat (w_ring w)) = u64 (nbytes (committed (since_reset evs))).
Proof. exact f_write_counters. Qed.
Print Assumptions C13_write_counters.
Theorem C13_reconcile : forall r w evs, reach reliable r w evs ->
  let s := r_stat (w_ring w) in
  u64 (st_mw s + unread_at_reset evs) = u64 ((if r_farm r then 0 else st_mr s) + st_md s + zlen (ring_unread (w_ring w)))
  /\ u64 (st_bw s + bytes_at_reset evs) = u64 ((if r_farm r then 0 else st_br s) + st_bd s + nbytes (ring_unread (w_ring w))).
Proof. exact f_reconcile. Qed.
Print Assumptions C13_reconcile.
Definition s13 := [Open WR 7; Open RDN 8] ++ write 0 [[1;1;1;1]] ++ write 0 [[2;2;2]] ++ [Call 1 (CStat (Some (5,6))); Run 1]
  ++ write 0 [[3;3;3;3;3]] ++ read 1 3 1 ++ write 0 [[4]].
Example C13_case : reach reliable drop_ring (sw drop0 s13) (se drop0 s13)
  /\ r_stat (w_ring (sw drop0 s13)) = mkstat (5,6) 6 3 2 1 1 4
  /\ unread_at_reset (se drop0 s13) = 2 /\ bytes_at_reset (se drop0 s13) = 7
  /\ ring_unread (w_ring (sw drop0 s13)) = [[3;3;3;3;3];[4]].
Proof. split; [apply reach_reliable; [exact drop_fresh|vm_compute; reflexivity]|]. repeat split; vm_compute; reflexivity. Qed.
Theorem C14_stat : forall r w evs c e o w' ev, reach contract r w evs -> pending c evs = Some (CStat o) ->
  step w (ARun c e) = Ok (w', ev) -> e_lock e = true ->
  exists v so, ev = [ERet c (RetStat (match o with Some _ => true | None => false end) v (Some so))]
    /\ (e_msync e = true -> v = 0)
    /\ so_mu so = zlen (ring_unread (w_ring w)) /\ so_bu so = nbytes (ring_unread (w_ring w))
    /\ so_mu so <= so_mm so /\ so_bu so <= so_bn so /\ so_mm so = r_mm r /\ so_bn so = r_n r
    /\ so_cm so = zlen (cache_msgs (c_cache (cli w c))) /\ so_cb so = nbytes (cache_msgs (c_cache (cli w c)))
    /\ so_stat so = r_stat (w_ring w)
    /\ r_stat (w_ring w') = match o with Some t => mkstat t 0 0 0 0 0 0 | None => r_stat (w_ring w) end
    /\ ring_unread (w_ring w') = ring_unread (w_ring w) /\ ring_retained (w_ring w') = ring_retained (w_ring w)
    /\ r_app (w_ring w') = r_app (w_ring w)
    /\ (forall c', c_live (cli w c') = true -> available (w_ring w') (c_q (cli w' c')) = available (w_ring w) (c_q (cli w c'))).
Proof. exact f_stat. Qed.
Print Assumptions C14_stat.
Definition s14 := s13 ++ [Call 1 (CStat (Some (7,8)))].
Example C14_case : let w := sw drop0 s14 in reach contract drop_ring w (se drop0 s14)
  /\ pending 1 (se drop0 s14) = Some (CStat (Some (7,8)))
  /\ exists w' so, step w (ARun 1 (calm (w_ks w))) = Ok (w', [ERet 1 (RetStat true 0 (Some so))]) /\ so_mu so = 2 /\ so_bu so = 6.
Proof.
  cbv zeta. split; [apply reach_contract; [exact drop_fresh|vm_compute; reflexivity]|].
  split; [vm_compute; reflexivity|]. eexists _, _. split; [vm_compute; reflexivity|]. split; vm_compute; reflexivity.
Qed.

(** ** C15 *)
Theorem C15_no_abort_no_oob : forall r w evs a, reach contract r w evs -> contract w a ->
  exists w' ev, step w a = Ok (w', ev).
Proof. exact f_total. Qed.
Print Assumptions C15_no_abort_no_oob.
Example C15_case : let w := sw drop0 s14 in reach contract drop_ring w (se drop0 s14) /\ contract w (ACall 0 (CWrite [[1;2;3];[4;5;6]])).
Proof.
  cbv zeta. split; [apply reach_contract; [exact drop_fresh|vm_compute; reflexivity]|].
  intros _ _. apply call_ok_sound. vm_compute. reflexivity.
Qed.

(** ** C16, C17, C18 *)
Theorem C16_buffered_account : forall r w evs c, reach faultless r w evs -> account w evs c.
Proof. exact f_account. Qed.
Print Assumptions C16_buffered_account.
Definition s16 := [Open WRBN 7; Open RDN 8; Call 0 (CWrite [[1;1;1]]); Call 0 (CWrite [[2;2;2]]); Call 0 (CFlush false); Run 0;
  Call 0 (CWrite [[3;3;3]]); Call 0 (CWrite [[4;4;4]]); Call 0 (CWrite [[5;5;5]]); Call 0 (CFlush false); Run 0] ++ read 1 9 1
  ++ [Call 0 (CWrite [[6]]); Run 0].
Example C16_case : let w := sw plain0 s16 in let evs := se plain0 s16 in reach faultless plain_ring w evs
  /\ accepted_by 0 evs = [[1;1;1];[2;2;2];[3;3;3];[4;4;4];[5;5;5]]
  /\ committed_by 0 evs = [[1;1;1];[2;2;2]] /\ cache_msgs (c_cache (cli w 0)) = [[3;3;3];[4;4;4];[5;5;5]].
Proof. cbv zeta. split; [apply reach_faultless; [exact plain_fresh|vm_compute; reflexivity]|]. repeat split; vm_compute; reflexivity. Qed.
Theorem C17_cache_fits : forall r w evs c, reach contract r w evs -> c_live (cli w c) = true ->
  let ms := cache_msgs (c_cache (cli w c)) in
  nbytes ms <= r_n r /\ zlen ms <= r_mm r /\ Forall (fun b => 0 < zlen b) ms.
Proof. exact f_cache_fits. Qed.
Print Assumptions C17_cache_fits.
Theorem C17_C18_flush_pass : forall r w evs c e wait w' ev, reach contract r w evs ->
  pending c evs = Some (CFlush wait) -> wait = false \/ nonblocking w c = false -> asleep w c = false ->
  step w (ARun c e) = Ok (w', ev) -> e_lock e = true ->
  let ms := cache_msgs (c_cache (cli w c)) in
  let ms' := cache_msgs (c_cache (cli w' c)) in
  let u := ring_unread (w_ring w) in
  ms <> [] /\
  ((r_drop r = false /\ ~ (nbytes u + nbytes ms <= r_n r /\ zlen u + zlen ms <= r_mm r)
    /\ w_ring w' = w_ring w /\ ms' = ms
    /\ (if nonblocking w c then ev = [ERet c (RetFlush 0)] else ev = [] /\ asleep w' c = true))
   \/ ((r_drop r = true \/ (nbytes u + nbytes ms <= r_n r /\ zlen u + zlen ms <= r_mm r))
    /\ (exists v, ev = [ECommit c ms; ERet c (RetFlush v)]
         /\ ((v = nbytes ms /\ ms' = []) \/ (v = -1 /\ ms' = ms))
         /\ (faultless w (ARun c e) -> v = nbytes ms))
    /\ least_drop (r_n r) (r_mm r) ms u (ring_unread (w_ring w')))).
Proof. exact f_flush_pass. Qed.
Print Assumptions C17_C18_flush_pass.
Definition s17 := s16 ++ read 1 9 9 ++ [Call 0 (CFlush false)].
Example C17_case : let w := sw plain0 s17 in let evs := se plain0 s17 in reach contract plain_ring w evs
  /\ pending 0 evs = Some (CFlush false) /\ asleep w 0 = false
  /\ exists w', step w (ARun 0 (calm (w_ks w))) = Ok (w', [ECommit 0 [[3;3;3];[4;4;4];[5;5;5]]; ERet 0 (RetFlush 9)]).
Proof.
  cbv zeta. split; [apply reach_contract; [exact plain_fresh|vm_compute; reflexivity]|].
  repeat (split; [vm_compute; reflexivity|]). eexists. vm_compute. reflexivity.
Qed.
Theorem C18_flush_start : forall r w evs c wait w' ev, reach contract r w evs -> contract w (ACall c (CFlush wait)) ->
  idle w evs c -> step w (ACall c (CFlush wait)) = Ok (w', ev) ->
  (cache_msgs (c_cache (cli w c)) = [] -> ev = [ECall c (CFlush wait); ERet c (RetFlush 0)] /\ w' = w)
  /\ (cache_msgs (c_cache (cli w c)) <> [] ->
      ev = [ECall c (CFlush wait)] /\ w_ring w' = w_ring w /\ cache_msgs (c_cache (cli w' c)) = cache_msgs (c_cache (cli w c))
      /\ asleep w' c = false).
Proof. exact f_flush_start. Qed.
Print Assumptions C18_flush_start.
Theorem C18_flush_outcomes : forall r w evs a w' ev c wait, reach contract r w evs -> contract w a -> step w a = Ok (w', ev) ->
  pending c evs = Some (CFlush wait) ->
  let ms := cache_msgs (c_cache (cli w c)) in let ms' := cache_msgs (c_cache (cli w' c)) in
  let u := ring_unread (w_ring w) in
  ms <> [] /\
  ((pending c (evs ++ ev) = Some (CFlush wait) /\ committed_by c ev = [] /\ ms' = ms)
  \/ (ev = [ECrash c] /\ w_ring w' = w_ring w)
  \/ (exists v, v <= 0 /\ ev = [ERet c (RetFlush v)] /\ w_ring w' = w_ring w /\ ms' = ms
      /\ (v = 0 -> nonblocking w c = true /\ wait = false
            /\ r_drop r = false /\ ~ (nbytes u + nbytes ms <= r_n r /\ zlen u + zlen ms <= r_mm r)))
  \/ (exists v, ev = [ECommit c ms; ERet c (RetFlush v)]
      /\ ((v = nbytes ms /\ ms' = []) \/ (v = -1 /\ ms' = ms)) /\ (faultless w a -> v = nbytes ms)
      /\ least_drop (r_n r) (r_mm r) ms u (ring_unread (w_ring w')))).
Proof. exact f_flush_outcomes. Qed.
Print Assumptions C18_flush_outcomes.
(** the blocking mode (and every other flag) of a handle never changes *)
Theorem C18_flags_fixed : forall r w evs a w' ev c, reach contract r w evs -> contract w a -> step w a = Ok (w', ev) ->
  (c < length (w_cl w))%nat -> c_live (cli w' c) = true ->
  c_live (cli w c) = true /\ c_flags (cli w' c) = c_flags (cli w c) /\ c_pid (cli w' c) = c_pid (cli w c).
Proof. exact f_flags_fixed. Qed.
Print Assumptions C18_flags_fixed.
(** closing flushes: nothing a blocking writer had accepted is lost *)
Theorem C18_close_flushes : forall r w evs a w' ev c, reach undisturbed r w evs -> undisturbed w a -> step w a = Ok (w', ev) ->
  In (ERet c RetClosed) ev -> must_flush w c -> accepted_by c (evs ++ ev) = committed_by c (evs ++ ev).
Proof. exact f_close. Qed.
Print Assumptions C18_close_flushes.
(** a blocking flush that has to wait for a reader *)
Definition s18 := s16 ++ [Call 0 (CFlush true); Run 0; Run 0] ++ read 1 9 9 ++ [Recv 0].
Example C18_case : let w := sw plain0 s18 in let evs := se plain0 s18 in reach contract plain_ring w evs
  /\ pending 0 evs = Some (CFlush true) /\ c_flags (cli w 0) = WRBN
  /\ exists w', step w (ARun 0 (calm (w_ks w))) = Ok (w', [ECommit 0 [[3;3;3];[4;4;4];[5;5;5]]; ERet 0 (RetFlush 9)]).
Proof.
  cbv zeta. split; [apply reach_contract; [exact plain_fresh|vm_compute; reflexivity]|].
  repeat (split; [vm_compute; reflexivity|]). eexists. vm_compute. reflexivity.
Qed.
Definition s18c := [Open WRB 7; Open RDN 8; Call 0 (CWrite [[1;1;1]]); Call 0 (CWrite [[2;2;2]]); Call 0 CClose; Run 0].
Example C18_close_case : let w := sw plain0 s18c in let evs := se plain0 s18c in reach undisturbed plain_ring w evs
  /\ must_flush w 0 /\ accepted_by 0 evs = [[1;1;1];[2;2;2]]
  /\ exists w', step w (ARun 0 (calm (w_ks w))) = Ok (w', [ERet 0 RetClosed]).
Proof.
  cbv zeta. split; [apply reach_undisturbed; [exact plain_fresh|vm_compute; reflexivity]|].
  split; [left; vm_compute; reflexivity|]. split; [vm_compute; reflexivity|]. eexists. vm_compute. reflexivity.
Qed.

(** ** C30 *)
Theorem C30_appdata_history : forall r w evs, reach faultless r w evs -> r_app (w_ring w) = app_now (r_app r) evs.
Proof. exact f_app_history. Qed.
Print Assumptions C30_appdata_history.
Theorem C30_appdata_call : forall r w evs c e g s z w' ev, reach contract r w evs -> pending c evs = Some (CApp g s z) ->
  step w (ARun c e) = Ok (w', ev) ->
  let app := r_app (w_ring w) in let app' := r_app (w_ring w') in
  exists v out z', ev = [ERet c (RetApp v out z')] /\ (v = 0 \/ v = -1)
  /\ ring_unread (w_ring w') = ring_unread (w_ring w) /\ ring_retained (w_ring w') = ring_retained (w_ring w)
  /\ match g, s with
     | GAlloc, None | GBuf _, None => app' = app /\ (v = 0 -> out = Some app /\ z' = zlen app)
     | GNull, Some s | GBuf _, Some s =>
         (zlen s <> zlen app -> v = -1 /\ app' = app)
         /\ (v = 0 -> app' = s /\ (g = GNull \/ out = Some app))
         /\ (v = -1 -> e_msync e = true -> app' = app)
     | _, _ => app' = app
     end
  /\ (e_lock e = true -> e_alloc e = true -> e_msync e = true -> app <> [] ->
      match g, s with
      | GBuf b, None => zlen b = zlen app
      | GBuf b, Some s => zlen b = zlen app /\ zlen s = zlen app
      | GNull, Some s => zlen s = zlen app
      | _, _ => True
      end -> v = 0).
Proof. exact f_app_call. Qed.
Print Assumptions C30_appdata_call.
Definition s30 := [Open WR 7; Open RDN 8] ++ write 0 [[1;2;3;4;5;6;7]] ++ [Call 0 (CApp (GBuf (zeros 4)) (Some [9;8;7;6]) 4); Run 0]
  ++ read 1 9 1 ++ write 0 [[1;2;3;4;5;6;7]] ++ [Call 1 (CApp GAlloc None 0)].
Example C30_case : let w := sw plain0 s30 in let evs := se plain0 s30 in reach faultless plain_ring w evs
  /\ pending 1 evs = Some (CApp GAlloc None 0) /\ app_now (r_app plain_ring) evs = [9;8;7;6]
  /\ exists w', step w (ARun 1 (calm (w_ks w))) = Ok (w', [ERet 1 (RetApp 0 (Some [9;8;7;6]) 4)]).
Proof.
  cbv zeta. split; [apply reach_faultless; [exact plain_fresh|vm_compute; reflexivity]|].
  repeat (split; [vm_compute; reflexivity|]). eexists. vm_compute. reflexivity.
Qed.
