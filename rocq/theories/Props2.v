(** * The theorems, second part: creation, opening, flags, and what does not
    hold (C24-C27, C29, C31, C34-C36).

    Theorems named [_refuted] state that the English property is false of the
    code and give a concrete execution; the [_partial] theorem beside each says
    what does hold. *)
From Verif Require Import PollFacts.

(** ** C24 *)
Theorem C24_layout : forall data_sz flags appsize maxarg app,
  0 < data_sz -> 0 <= flags < SHR_OPEN_FENCE -> 0 <= appsize -> 0 <= maxarg -> zlen app = appsize ->
  let slots := if has flags SHR_MAXMSGS_2 && negb (maxarg =? 0) then maxarg else 100 + data_sz / 100 in
  let appl := if has flags SHR_APPDATA_1 then appsize else 0 in
  SIZEOF_CTRL + data_sz + SIZEOF_PTR + SIZEOF_MSG * slots + appl <= W64 ->
  exists l, init_layout data_sz flags appsize maxarg = Ok (Some l)
    /\ (* control, data, padding, slots, application data: consecutive, and nothing else *)
       l_n l = data_sz /\ 0 <= l_pad l < 8 /\ l_mv l = SIZEOF_MSG * slots /\ l_app l = appl
    /\ l_sz l = SIZEOF_CTRL + l_n l + l_pad l + l_mv l + l_app l
    /\ (SIZEOF_CTRL + l_n l + l_pad l) mod 8 = 0
    /\ l_mm l = slots /\ 0 < slots
    /\ let r := ring_of_layout l flags app in
       zlen (r_d r) = data_sz /\ zlen (r_mv r) = slots /\ r_app r = (if has flags SHR_APPDATA_1 then app else [])
       /\ ring_unread r = [] /\ ring_retained r = []
       /\ r_farm r = has flags SHR_FARM /\ r_drop r = has flags SHR_DROP || has flags SHR_FARM
       /\ has (r_gflags r) SHR_SYNC = has flags SHR_SYNC /\ has (r_gflags r) SHR_MLOCK = has flags SHR_MLOCK
       /\ r_stat r = stat0.
Proof.
  intros data_sz flags appsize maxarg app H1 H2 H3 H4 H5 slots appl H6.
  destruct (init_some data_sz flags appsize maxarg H1 H2) as [l E]. exists l. split; [exact E|].
  destruct (init_exact _ _ _ _ _ H1 H3 H4 E H6) as (A1 & A2 & A3 & A4 & A5 & A6 & A7 & A8).
  change (slots_wanted data_sz flags maxarg) with slots in *. change (app_wanted flags appsize) with appl in *.
  destruct (new_content l flags app ltac:(lia) ltac:(lia) A7) as (B1 & B2 & B3).
  split; [exact A1|]. split; [exact A5|]. split; [rewrite A7, A2; reflexivity|]. split; [exact A3|]. split; [exact A8|]. split; [exact A6|].
  split; [exact A2|]. split; [rewrite <- A2; exact A4|]. cbv zeta. split; [rewrite B1; exact A1|]. split; [rewrite B2; exact A2|exact B3].
Qed.
Print Assumptions C24_layout.
Example C24_case : SIZEOF_CTRL + 1001 + SIZEOF_PTR + SIZEOF_MSG * 110 + 5 <= W64 /\ 1001 mod 8 = 1
  /\ exists l, init_layout 1001 SHR_APPDATA_1 5 0 = Ok (Some l) /\ l_pad l = 7 /\ l_mm l = 110 /\ l_sz l = 1784 + 1001 + 7 + 1760 + 5.
Proof. split; [vm_compute; discriminate|]. split; [reflexivity|]. eexists. split; [vm_compute; reflexivity|]. repeat split. Qed.
(** and what is refused *)
Theorem C24_refusals : forall data_sz flags appsize maxarg,
  data_sz = 0 \/ SHR_OPEN_FENCE <= flags -> init_layout data_sz flags appsize maxarg = Ok None.
Proof. exact init_none. Qed.
Print Assumptions C24_refusals.

(** ** C25 *)
(** With 2^60 slots asked for, the size computation wraps: shr_init makes a
    file of 2784 bytes for a ring that says it has 2^60 slots; it can be
    opened, and the first write leaves the file.  The states are computed
    beforehand, step by step. *)
Definition l25 : layout := Eval vm_compute in geom 1000 SHR_MAXMSGS_2 0 1152921504606846976.
Definition w25 : world := Eval vm_compute in world0 (ring_of_layout l25 SHR_MAXMSGS_2 []) (l_sz l25).
Definition w25a : world := Eval vm_compute in match step w25 (AOpen (calm []) WR 7) with Ok (w, _) => w | _ => w25 end.
Definition w25b : world := Eval vm_compute in match step w25a (ACall 0 (CWrite [[1;2;3]])) with Ok (w, _) => w | _ => w25 end.
Theorem C25_refuted : exists data_sz flags maxarg l w w1 w2,
  0 < data_sz < W64 /\ 0 < maxarg < W64
  /\ init_layout data_sz flags 0 maxarg = Ok (Some l)
  /\ l_sz l < SIZEOF_CTRL + l_n l + l_pad l + SIZEOF_MSG * l_mm l + l_app l
  /\ w = world0 (ring_of_layout l flags []) (l_sz l)
  /\ step w (AOpen (calm []) WR 7) = Ok (w1, [EOpen WR (Some 0%nat)])
  /\ step w1 (ACall 0 (CWrite [[1;2;3]])) = Ok (w2, [ECall 0 (CWrite [[1;2;3]])])
  /\ step w2 (ARun 0 (calm (w_ks w2))) = UB.
Proof.
  exists 1000, SHR_MAXMSGS_2, 1152921504606846976, l25, w25, w25a, w25b.
  split; [lia|]. split; [lia|]. split; [vm_compute; reflexivity|]. split; [vm_compute; reflexivity|]. split; [vm_compute; reflexivity|].
  split; [vm_compute; reflexivity|]. split; [vm_compute; reflexivity|]. vm_compute. reflexivity.
Qed.
Print Assumptions C25_refuted.
(** if the regions fit size_t, the file is exactly as large as they are (and
    the ring made is one the other theorems apply to) *)
Theorem C25_partial : forall data_sz flags appsize maxarg l, 0 < data_sz -> 0 <= appsize -> 0 <= maxarg ->
  init_layout data_sz flags appsize maxarg = Ok (Some l) ->
  SIZEOF_CTRL + data_sz + SIZEOF_PTR
    + SIZEOF_MSG * (if has flags SHR_MAXMSGS_2 && negb (maxarg =? 0) then maxarg else 100 + data_sz / 100)
    + (if has flags SHR_APPDATA_1 then appsize else 0) <= W64 ->
  l_sz l = SIZEOF_CTRL + l_n l + l_pad l + SIZEOF_MSG * l_mm l + l_app l.
Proof.
  intros data_sz flags appsize maxarg l H1 H2 H3 E H4.
  destruct (init_exact _ _ _ _ _ H1 H2 H3 E H4) as (_ & _ & _ & _ & _ & _ & A7 & A8). rewrite A8, A7. reflexivity.
Qed.
Print Assumptions C25_partial.

(** ** C26 *)
(** in every reachable state - in particular once every process has closed its
    handle or died - shr_open's validation accepts the file *)
Theorem C26_always_valid : forall r w evs, reach contract r w evs -> validate_ring (w_fsz w) true (w_ring w) = 0.
Proof. exact f_valid. Qed.
Print Assumptions C26_always_valid.
Definition s26 := [Open WR 7; Open RD 8] ++ write 0 [[1;2;3;4;5;6]] ++ read 1 9 1 ++ write 0 [[7;8;9;10;11;12];[13]]
  ++ [Call 0 CClose; Run 0; Die 1].
Example C26_case : let w := sw plain0 s26 in reach contract plain_ring w (se plain0 s26)
  /\ c_live (cli w 0) = false /\ c_live (cli w 1) = false /\ ring_unread (w_ring w) = [[7;8;9;10;11;12];[13]]
  /\ validate_ring (w_fsz w) true (w_ring w) = 0
  /\ exists w', step w (AOpen (calm (w_ks w)) RD 9) = Ok (w', [EOpen RD (Some 2%nat)]).
Proof.
  cbv zeta. split; [apply reach_contract; [exact plain_fresh|vm_compute; reflexivity]|].
  repeat (split; [vm_compute; reflexivity|]). eexists. vm_compute. reflexivity.
Qed.

(** ** C27 *)
(** what passing validation guarantees, for any file contents: but only that *)
Theorem C27_accepted_partial : forall fsz r,
  0 <= r_n r -> 0 <= r_pad_len r -> 0 <= r_mv_len r -> 0 <= r_app_len r ->
  validate_ring fsz true r = 0 ->
  SIZEOF_CTRL < fsz /\ r_u r <= r_n r /\ r_i r < r_n r /\ r_r r < r_mm r
  /\ (SIZEOF_CTRL + r_n r + r_pad_len r + r_mv_len r + r_app_len r <= SSIZE_MAX ->
      SIZEOF_CTRL + r_n r + r_pad_len r + r_mv_len r + r_app_len r <= fsz).
Proof. exact validate_ring_facts. Qed.
Print Assumptions C27_accepted_partial.
Example C27_accepted_case : validate_ring plain_size true plain_ring = 0 /\ SIZEOF_CTRL + 10 + 6 + 48 + 4 = plain_size.
Proof. vm_compute. auto. Qed.
(** a file without the magic, or failing any of the checks, is refused and left
    as it is *)
Theorem C27_magic_partial : forall fsz r, validate_ring fsz false r < 0.
Proof. exact validate_magic. Qed.
Print Assumptions C27_magic_partial.
Theorem C27_refused_partial : forall e w flags pid, validate_ring (w_fsz w) true (w_ring w) <> 0 ->
  step w (AOpen e flags pid) = Ok (w, [EOpen flags None]).
Proof. exact open_invalid. Qed.
Print Assumptions C27_refused_partial.
Example C27_refused_case : validate_ring plain_size true (plain_ring <| r_u := 11 |>) = -5
  /\ validate_ring plain_size true (plain_ring <| r_i := 10 |>) = -6 /\ validate_ring plain_size true (plain_ring <| r_r := 3 |>) = -7
  /\ validate_ring (plain_size - 1) true plain_ring = -4 /\ validate_ring 1784 true plain_ring = -2.
Proof. vm_compute. auto. Qed.
(** the slot table is not looked at: a file with a slot pointing outside the
    data region passes, and reading it leaves the region *)
Definition bad27 : ring := plain_ring <| r_m := 1 |> <| r_mp := 1 |> <| r_u := 5 |> <| r_mv := [mkslot 1000 5; mkslot 0 0; mkslot 0 0] |>.
Definition w27 : world := world0 bad27 plain_size.
Definition w27a : world := Eval vm_compute in match step w27 (AOpen (calm []) RD 7) with Ok (w, _) => w | _ => w27 end.
Definition w27b : world := Eval vm_compute in match step w27a (ACall 0 (CRead (zeros 8) 1)) with Ok (w, _) => w | _ => w27 end.
Theorem C27_refuted : exists w w1 w2,
  validate_ring (w_fsz w) true (w_ring w) = 0
  /\ step w (AOpen (calm []) RD 7) = Ok (w1, [EOpen RD (Some 0%nat)])
  /\ step w1 (ACall 0 (CRead (zeros 8) 1)) = Ok (w2, [ECall 0 (CRead (zeros 8) 1)])
  /\ step w2 (ARun 0 (calm (w_ks w2))) = UB.
Proof. exists w27, w27a, w27b. repeat (split; [vm_compute; reflexivity|]). vm_compute. reflexivity. Qed.
Print Assumptions C27_refuted.

(** ** C29 *)
(** the flags shr_open accepts: at least one of RDONLY and WRONLY, and none of
    shr_init's *)
Theorem C29_flags_partial : forall flags,
  validate_flags flags = true <-> (has flags SHR_RDONLY || has flags SHR_WRONLY = true) /\ flags mod SHR_OPEN_FENCE = 0.
Proof. exact validate_flags_iff. Qed.
Print Assumptions C29_flags_partial.
Theorem C29_refused_partial : forall e w flags pid, validate_flags flags = false ->
  step w (AOpen e flags pid) = Ok (w, [EOpen flags None]).
Proof. exact open_bad_flags. Qed.
Print Assumptions C29_refused_partial.
Example C29_case : validate_flags RDN = true /\ validate_flags WRBN = true /\ validate_flags SHR_NONBLOCK = false
  /\ validate_flags (RD + SHR_DROP) = false /\ validate_flags (RD + WR) = true.
Proof. vm_compute. auto. Qed.
(** both are not refused, although documented as exclusive; and the handle so
    obtained aborts the process: its w2r handle is a waker, a read of an empty
    ring waits on it *)
Definition w29a : world := Eval vm_compute in match step plain0 (AOpen (calm []) (RD + WR) 7) with Ok (w, _) => w | _ => plain0 end.
Definition w29b : world := Eval vm_compute in match step w29a (ACall 0 (CRead (zeros 8) 1)) with Ok (w, _) => w | _ => plain0 end.
Theorem C29_refuted : exists w1 w2,
  step plain0 (AOpen (calm []) (SHR_RDONLY + SHR_WRONLY) 7) = Ok (w1, [EOpen (SHR_RDONLY + SHR_WRONLY) (Some 0%nat)])
  /\ step w1 (ACall 0 (CRead (zeros 8) 1)) = Ok (w2, [ECall 0 (CRead (zeros 8) 1)])
  /\ step w2 (ARun 0 (calm (w_ks w2))) = Abort.
Proof. exists w29a, w29b. repeat (split; [vm_compute; reflexivity|]). vm_compute. reflexivity. Qed.
Print Assumptions C29_refuted.

(** ** C31 *)
(** a get into a buffer larger than the application data copies *sz bytes, not
    the application data's size: it reads past it *)
Theorem C31_refuted : exists w evs b w',
  reach contract plain_ring w evs /\ zlen b > zlen (r_app plain_ring)
  /\ step w (ACall 0 (CApp (GBuf b) None (zlen b))) = Ok (w', [ECall 0 (CApp (GBuf b) None (zlen b))])
  /\ step w' (ARun 0 (calm (w_ks w'))) = UB.
Proof.
  exists (sw plain0 [Open RD 7]), (se plain0 [Open RD 7]), (zeros 5).
  exists (match step (sw plain0 [Open RD 7]) (ACall 0 (CApp (GBuf (zeros 5)) None 5)) with Ok (w, _) => w | _ => plain0 end).
  split; [apply reach_contract; [exact plain_fresh|vm_compute; reflexivity]|]. repeat (split; [vm_compute; reflexivity|]). vm_compute. reflexivity.
Qed.
Print Assumptions C31_refuted.
(** with a buffer of exactly that size it works (C30_appdata_call); with a
    smaller one the call fails without touching anything *)
Theorem C31_small_partial : forall e r b sz,
  sz < r_app_len r -> do_app e r (GBuf b) None sz = Ok (r, RetApp (-1) (Some b) sz).
Proof.
  intros e r b sz H. unfold do_app. destruct (negb (e_lock e)); [reflexivity|]. destruct (r_app_len r =? 0); [reflexivity|].
  destruct (Z.ltb_spec sz (r_app_len r)); [reflexivity|lia].
Qed.
Print Assumptions C31_small_partial.
Example C31_case : exists w', step (sw plain0 [Open RD 7; Call 0 (CApp (GBuf (zeros 3)) None 3)]) (ARun 0 (calm []))
  = Ok (w', [ERet 0 (RetApp (-1) (Some (zeros 3)) 3)]).
Proof. eexists. vm_compute. reflexivity. Qed.

(** ** C34 *)
(** an empty element after the first one is not rejected: the process dies
    on an assertion, inside the critical section *)
Theorem C34_refuted : exists w evs w',
  reach contract plain_ring w evs /\ idle w evs 0
  /\ step w (ACall 0 (CWrite [[1]; []])) = Ok (w', [ECall 0 (CWrite [[1]; []])])
  /\ step w' (ARun 0 (calm (w_ks w'))) = Abort.
Proof.
  exists (sw plain0 [Open WR 7]), (se plain0 [Open WR 7]).
  exists (match step (sw plain0 [Open WR 7]) (ACall 0 (CWrite [[1]; []])) with Ok (w, _) => w | _ => plain0 end).
  split; [apply reach_contract; [exact plain_fresh|vm_compute; reflexivity]|]. split; [vm_compute; auto|].
  split; [vm_compute; reflexivity|]. vm_compute. reflexivity.
Qed.
Print Assumptions C34_refuted.
(** an empty first element is rejected, with no effect *)
Theorem C34_first_partial : forall r w evs c iov w' ev,
  reach contract r w evs -> idle w evs c -> has (c_flags (cli w c)) SHR_WRONLY = true ->
  step w (ACall c (CWrite ([] :: iov))) = Ok (w', ev) ->
  ev = [ECall c (CWrite ([] :: iov)); ERet c (RetWrite ([] :: iov) (-1))] /\ w' = w.
Proof. exact f_first_empty. Qed.
Print Assumptions C34_first_partial.
Example C34_case : let w := sw plain0 [Open WR 7] in reach contract plain_ring w (se plain0 [Open WR 7]) /\ idle w (se plain0 [Open WR 7]) 0
  /\ exists w', step w (ACall 0 (CWrite [[]; [1]])) = Ok (w', [ECall 0 (CWrite [[]; [1]]); ERet 0 (RetWrite [[]; [1]] (-1))]).
Proof.
  cbv zeta. split; [apply reach_contract; [exact plain_fresh|vm_compute; reflexivity]|]. split; [vm_compute; auto|]. eexists. vm_compute. reflexivity.
Qed.

(** ** C35 *)
(** a write that returned -1 may have entered the ring: here waking a reader
    fails (socket() has no descriptor left) after the message was committed *)
Definition nosock (ks : socks) : env :=
  let e := calm ks in mkenv (e_lock e) (e_msync e) (e_alloc e) (fun _ => false) (e_connect e) (e_send e) (e_probe e)
    (e_bind e) (e_self e) (e_force e) (e_name e) (e_name2 e) (e_cap e).
Definition s35 := [Open WR 7; Open RDN 8; Call 0 (CWrite [[1;2]])].
Theorem C35_refuted : exists w evs e w',
  reach contract plain_ring w evs /\ pending 0 evs = Some (CWrite [[1;2]])
  /\ step w (ARun 0 e) = Ok (w', [ECommit 0 [[1;2]]; ERet 0 (RetWrite [[1;2]] (-1))])
  /\ ring_unread (w_ring w) = [] /\ ring_unread (w_ring w') = [[1;2]].
Proof.
  exists (sw plain0 s35), (se plain0 s35), (nosock (w_ks (sw plain0 s35))).
  exists (match step (sw plain0 s35) (ARun 0 (nosock (w_ks (sw plain0 s35)))) with Ok (w, _) => w | _ => plain0 end).
  split; [apply reach_contract; [exact plain_fresh|vm_compute; reflexivity]|].
  repeat (split; [vm_compute; reflexivity|]). vm_compute. reflexivity.
Qed.
Print Assumptions C35_refuted.
(** and a buffered writer whose flush returned -1 keeps the messages in its
    cache: its next flush writes them a second time *)
Definition s35b := [Open WRB 7; Open RDN 8; Call 0 (CWrite [[1;2]]); Call 0 (CFlush true)].
Definition w35b : world := match step (sw plain0 s35b) (ARun 0 (nosock (w_ks (sw plain0 s35b)))) with Ok (w, _) => w | _ => plain0 end.
Definition w35c : world := sw w35b [Call 0 (CFlush true)].
Theorem C35_duplicate_refuted : exists w evs w1 w2 w3,
  reach contract plain_ring w evs /\ accepted_by 0 evs = [[1;2]]
  /\ step w (ARun 0 (nosock (w_ks w))) = Ok (w1, [ECommit 0 [[1;2]]; ERet 0 (RetFlush (-1))])
  /\ step w1 (ACall 0 (CFlush true)) = Ok (w2, [ECall 0 (CFlush true)])
  /\ step w2 (ARun 0 (calm (w_ks w2))) = Ok (w3, [ECommit 0 [[1;2]]; ERet 0 (RetFlush 2)])
  /\ ring_unread (w_ring w3) = [[1;2];[1;2]].
Proof.
  exists (sw plain0 s35b), (se plain0 s35b), w35b, w35c, (match step w35c (ARun 0 (calm (w_ks w35c))) with Ok (w, _) => w | _ => plain0 end).
  split; [apply reach_contract; [exact plain_fresh|vm_compute; reflexivity]|].
  repeat (split; [vm_compute; reflexivity|]). vm_compute. reflexivity.
Qed.
Print Assumptions C35_duplicate_refuted.
(** when socket calls and msync do not fail, a write or flush that did not
    return a positive count left the ring as it was *)
Theorem C35_partial : forall r w evs a w' ev c x,
  reach faultless r w evs -> faultless w a -> step w a = Ok (w', ev) -> In (ERet c x) ev ->
  (exists iov v, x = RetWrite iov v /\ v <= 0) \/ (exists v, x = RetFlush v /\ v <= 0) ->
  committed ev = [] /\ w_ring w' = w_ring w.
Proof. exact f_failed_write. Qed.
Print Assumptions C35_partial.
Definition s35d := [Open WRN 7; Open RD 8] ++ write 0 [[1;2;3;4;5;6]] ++ [Call 0 (CWrite [[1;2;3;4;5]])].
Example C35_case : let w := sw plain0 s35d in reach faultless plain_ring w (se plain0 s35d)
  /\ exists w', step w (ARun 0 (calm (w_ks w))) = Ok (w', [ERet 0 (RetWrite [[1;2;3;4;5]] 0)]).
Proof.
  cbv zeta. split; [apply reach_faultless; [exact plain_fresh|vm_compute; reflexivity]|]. eexists. vm_compute. reflexivity.
Qed.

(** ** C36 *)
(** a call asleep in shr_read or shr_write (or the flush of a blocking writer)
    returns -3 when a registered descriptor becomes ready; nothing moved *)
Theorem C36_poll_wakes : forall r w evs c fd,
  reach contract r w evs -> asleep w c = true -> waits w c -> registered c fd evs ->
  exists w' ev, step w (APoll c fd) = Ok (w', ev) /\ asleep w' c = false
    /\ (match pending c evs with
        | Some (CRead buf _) => ev = [ERet c (RetRead (-3) buf [])]
        | Some (CWrite iov) => ev = [ERet c (RetWrite iov (-3))]
        | Some (CFlush _) => ev = [ERet c (RetFlush (-3))]
        | Some CClose => ev = []
        | _ => False
        end)
    /\ w_ring w' = w_ring w /\ c_cache (cli w' c) = c_cache (cli w c) /\ c_q (cli w' c) = c_q (cli w c).
Proof. exact f_poll. Qed.
Print Assumptions C36_poll_wakes.
(** -3 is returned for no other reason, and then no message moved *)
Theorem C36_poll_only : forall r w evs a w' ev c x,
  reach contract r w evs -> contract w a -> step w a = Ok (w', ev) -> In (ERet c x) ev -> ret_code x = Some (-3) ->
  exists fd, a = APoll c fd /\ registered c fd evs /\ asleep w c = true /\ ev = [ERet c x]
    /\ w_ring w' = w_ring w /\ c_cache (cli w' c) = c_cache (cli w c) /\ c_q (cli w' c) = c_q (cli w c).
Proof. exact f_poll_only. Qed.
Print Assumptions C36_poll_only.
(** a descriptor that was not registered disturbs nobody *)
Theorem C36_poll_other : forall r w evs c fd, reach contract r w evs -> ~ registered c fd evs -> step w (APoll c fd) = Ok (w, []).
Proof. exact f_poll_other. Qed.
Print Assumptions C36_poll_other.
Definition s36 := [Open WR 7; Open RD 8; Call 0 (CCtl 33); Call 1 (CCtl 44)] ++ write 0 [[1;2;3;4;5;6]] ++ read 1 9 1 ++ read 1 9 1
  ++ write 0 [[1;2;3;4;5;6;7]; [8]] ++ write 0 [[4;5;6]].
Example C36_case : let w := sw plain0 s36 in let evs := se plain0 s36 in reach contract plain_ring w evs
  /\ asleep w 0 = true /\ waits w 0 /\ registered 0 33 evs /\ asleep w 1 = true /\ waits w 1 /\ registered 1 44 evs
  /\ (exists w', step w (APoll 0 33) = Ok (w', [ERet 0 (RetWrite [[4;5;6]] (-3))]))
  /\ (exists w', step w (APoll 1 44) = Ok (w', [ERet 1 (RetRead (-3) (zeros 9) [])]))
  /\ step w (APoll 0 44) = Ok (w, []).
Proof.
  cbv zeta. split; [apply reach_contract; [exact plain_fresh|vm_compute; reflexivity]|].
  split; [vm_compute; reflexivity|]. split; [right; vm_compute; auto|].
  split; [exists (firstn 3 (se plain0 s36)), (skipn 4 (se plain0 s36)); vm_compute; auto|].
  split; [vm_compute; reflexivity|]. split; [left; vm_compute; reflexivity|].
  split; [exists (firstn 5 (se plain0 s36)), (skipn 6 (se plain0 s36)); vm_compute; auto|].
  do 2 (split; [eexists; vm_compute; reflexivity|]). vm_compute. reflexivity.
Qed.
(** what does not hold: a nonblocking buffered writer may register a descriptor
    (shr_ctl returns 0), and its waiting flush then does not react to it *)
Definition s36b := [Open WRBN 7; Open WR 8; Open RD 9; Call 0 (CCtl 33)] ++ write 1 [[1;2;3;4;5;6]] ++ [Call 0 (CWrite [[1;2;3;4;5]]); Call 0 (CFlush true); Run 0; Run 0].
Theorem C36_refuted : exists w evs,
  reach contract plain_ring w evs /\ registered 0 33 evs /\ asleep w 0 = true /\ pending 0 evs = Some (CFlush true)
  /\ step w (APoll 0 33) = Ok (w, []).
Proof.
  exists (sw plain0 s36b), (se plain0 s36b). split; [apply reach_contract; [exact plain_fresh|vm_compute; reflexivity]|].
  split; [exists (firstn 4 (se plain0 s36b)), (skipn 5 (se plain0 s36b)); vm_compute; auto|].
  do 2 (split; [vm_compute; reflexivity|]). vm_compute. reflexivity.
Qed.
Print Assumptions C36_refuted.
