(** * Kill: processes killed inside their critical sections, in the middle of
    executions.  Model only, no proofs.

    Sys.v runs critical sections as a whole and lets processes die outside
    them.  Here the same sections are given statement by statement (Micro.v,
    BwMicro.v) and a process may be killed before any of these statements: the
    kernel releases its lock and closes its sockets, and what it has stored so
    far stays. *)
From Verif Require Export BwMicro CrashSpec.

(** the memory shared by the processes, and the kernel's sockets *)
Record shm := mksh { sh_ring : ring; sh_w2r : bwh; sh_r2w : bwh; sh_ks : socks }.
Definition shared (w : world) : shm := mksh (w_ring w) (w_w2r w) (w_r2w w) (w_ks w).
Definition with_shared (w : world) (m : shm) : world :=
  mkw (sh_ring m) (w_fsz w) (sh_w2r m) (sh_r2w m) (sh_ks m) (w_cl w).
(** programs on the ring, on the handle on which readers wait ([true]) or
    writers wait ([false]) *)
Definition on_ring {A} (p : prog ring A) : prog shm A :=
  liftp sh_ring (fun m r => mksh r (sh_w2r m) (sh_r2w m) (sh_ks m)) p.
Definition get_bk (b : bool) (m : shm) : bks := mkbk (if b then sh_w2r m else sh_r2w m) (sh_ks m).
Definition put_bk (b : bool) (m : shm) (x : bks) : shm :=
  if b then mksh (sh_ring m) (b_h x) (sh_r2w m) (b_ks x) else mksh (sh_ring m) (sh_w2r m) (b_h x) (b_ks x).
Definition on_bw {A} (b : bool) (p : prog bks A) : prog shm A := liftp (get_bk b) (put_bk b) p.

(** src/shr.c l.1006-1007 *)
Definition wrote_p (len niov : Z) : prog ring unit :=
  At 1006 (fun r => Ok (r <| r_stat := r_stat r <| st_bw := u64 (st_bw (r_stat r) + len) |> |>,
  At 1007 (fun r => Ok (r <| r_stat := r_stat r <| st_mw := u64 (st_mw (r_stat r) + niov) |> |>, Ret tt)))).
(** l.337-338: the counters are zeroed (at once, here), then the time is stored *)
Definition reset_p (t : Z * Z) : prog ring unit :=
  At 337 (fun r => Ok (r <| r_stat := stat0 |>,
  At 338 (fun r => Ok (r <| r_stat := r_stat r <| st_start := t |> |>, Ret tt)))).
(** l.1069, 1075: memcpy into the application data, byte by byte *)
Fixpoint app_p (pos : Z) (bs : bytes) : prog ring unit :=
  match bs with
  | [] => Ret tt
  | x :: t => At 1069 (fun r => do a <- zset (r_app r) pos x; Ok (r <| r_app := a |>, app_p (pos + 1) t))
  end.
(** l.1041-1084, the part that stores in the ring *)
Definition setapp_p (get : getarg) (set : option bytes) (sz : Z) : prog ring unit :=
  At 1046 (fun r =>
    if r_app_len r =? 0 then Ok (r, Ret tt) else
    match get, set with
    | GAlloc, _ | _, None => Ok (r, Ret tt)
    | _, Some s => if negb (sz =? r_app_len r) then Ok (r, Ret tt) else
                   do a <- rd_mem 0 sz s; Ok (r, app_p 0 a)
    end).

(** What client [cl] does to the shared memory in the critical section it is
    about to enter (cf. run_client in Sys.v). *)
Definition section (e : env) (cl : client) : prog shm unit :=
  if negb (e_lock e) then Ret tt else
  match c_pc cl with
  | RunW _ iov len _ =>
      (* src/shr.c l.925-1013 *)
      run! stored <- on_ring (write_p (c_mm cl) iov len false);
      if stored : bool then
        match c_w2r cl with
        | None => At 1004 (fun _ => UB)
        | Some h =>
            run! x <- on_bw true (bw_wake_p e h);
            if snd x : bool then on_ring (wrote_p len (zlen iov)) else Ret tt
        end
      else Ret tt
  | RunR buf niov =>
      (* l.797-857 *)
      run! x <- on_ring (read_p (c_q cl) (c_md cl) buf niov);
      match snd x, c_w2r cl with
      | _, None => At 806 (fun _ => UB)
      | None, Some h =>
          if has (c_flags cl) SHR_NONBLOCK then run! _ <- on_bw true (bw_force_p e h false); Ret tt else Ret tt
      | Some (l, cur'), Some h =>
          run! _ <- (if rl_nr l >? 0 then
                       match c_r2w cl with
                       | None => At 849 (fun _ => UB)
                       | Some h2 => run! _ <- on_bw false (bw_wake_p e h2); Ret tt
                       end
                     else Ret tt);
          run! _ <- on_bw true (bw_force_p e h (match cur' with Some _ => true | None => false end)); Ret tt
      end
  | RunOpenR2W => run! _ <- on_bw false (bw_open_wait_p e (c_pid cl) (e_name e)); Ret tt    (* l.1122-1127 *)
  | RunClose =>
      (* l.1163-1166 *)
      run! _ <- (match c_w2r cl with Some h => on_bw true (bw_close_p h) | None => Ret tt end);
      match c_r2w cl with Some h => on_bw false (bw_close_p h) | None => Ret tt end
  | RunStat (Some t) => on_ring (reset_p t)
  | RunApp get set sz => on_ring (setapp_p get set sz)
  | _ => Ret tt
  end.

(** What shr_open does to the shared memory (cf. do_open in Sys.v;
    open_blockwake, l.444-474).  [u], [drop], [ok]: what it read of the ring
    before: the bytes in use, SHR_DROP, and whether the ring is accepted. *)
Definition close_opt (b : bool) (h : option bwt) : prog shm unit :=
  match h with Some h => on_bw b (bw_close_p h) | None => Ret tt end.
Definition fail_open (a b : option bwt) : prog shm unit :=
  run! _ <- close_opt false b; close_opt true a.
Definition open_section (e : env) (w : world) (flags pid : Z) : prog shm unit :=
  if negb (validate_flags flags) || negb (e_lock e) || (validate_ring (w_fsz w) true (w_ring w) <? 0)
     || has (r_gflags (w_ring w)) SHR_MLOCK && negb (e_alloc e) then Ret tt else
  if has flags SHR_RDONLY then
    run! a <- on_bw true (bw_open_wait_p e pid (e_name e));
    run! b <- on_bw false (bw_open_wake_p e);
    match a, b with
    | Some x, Some _ =>
        run! ok <- on_bw true (bw_force_p e x (negb (r_u (w_ring w) =? 0)));
        if ok : bool then Ret tt else fail_open a b
    | _, _ => fail_open a b
    end
  else
    run! a <- on_bw true (bw_open_wake_p e);
    match a with
    | None => Ret tt
    | Some _ =>
        if negb (has flags SHR_NONBLOCK) && negb (r_drop (w_ring w)) then
          run! b <- on_bw false (bw_open_wait_p e pid (e_name e));
          match b with None => fail_open a None | Some _ => Ret tt end
        else Ret tt
    end.

(** ** being killed *)

(** the kernel closes the sockets the killed process made in the section: those
    beyond the [n] that existed before *)
Definition close_new (n : nat) (ks : socks) : socks := firstn n ks ++ map (fun k => k <| k_open := false |>) (skipn n ks).
(** client [c] is killed, leaving [m]; one whose process dies in shr_open *)
Definition killed (w : world) (c : nat) (m : shm) : world :=
  let cl := cli w c in
  let w' := with_shared w m in
  let ks := drop_sock (drop_sock (close_new (length (w_ks w)) (w_ks w')) (c_w2r cl)) (c_r2w cl) in
  setc (w' <| w_ks := ks |>) c (cl <| c_live := false |> <| c_pc := Idle |>).
Definition killed_opening (w : world) (m : shm) : world :=
  with_shared w m <| w_ks := close_new (length (w_ks w)) (sh_ks m) |>.

(** Killed at [line], a writer has put its messages in the ring if it was past
    the stores of l.1000-1002. *)
Definition kill_events (w : world) (c : nat) (line : Z) : list event :=
  (match c_pc (cli w c) with RunW _ iov _ _ => if 1004 <=? line then [ECommit c iov] else [] | _ => [] end) ++ [ECrash c].
(** It was not killed at one of the places where that leaves the ring damaged
    (C32, C46; [torn] and [torn_read] of CrashSpec.v). *)
Definition untorn (w : world) (c : nat) (m : shm) (line : Z) : bool :=
  match c_pc (cli w c) with
  | RunW _ _ _ _ => negb (torn (w_ring w) (sh_ring m) line)
  | RunR _ _ => negb (torn_read line)
  | _ => true
  end.

(** Executions with processes killed anywhere else.  [P] restricts the actions
    as in [exec], and likewise the sections in which processes are killed. *)
Inductive kexec (P : world -> action -> Prop) (w0 : world) : world -> list event -> Prop :=
| kx_nil : kexec P w0 w0 []
| kx_step w evs a w' ev : kexec P w0 w evs -> P w a -> step w a = Ok (w', ev) -> kexec P w0 w' (evs ++ ev)
| kx_kill w evs c e line m : kexec P w0 w evs -> P w (ARun c e) -> c_live (cli w c) = true ->
    dies_at (section e (cli w c)) (shared w) line m -> untorn w c m line = true ->
    kexec P w0 (killed w c m) (evs ++ kill_events w c line)
| kx_kill_open w evs e flags pid line m : kexec P w0 w evs -> P w (AOpen e flags pid) ->
    dies_at (open_section e w flags pid) (shared w) line m ->
    kexec P w0 (killed_opening w m) evs.
Definition kreach (P : world -> action -> Prop) (r : ring) (w : world) (evs : list event) : Prop :=
  exists fsz, fresh r fsz /\ kexec P (world0 r fsz) w evs /\ seq_bound r evs.
