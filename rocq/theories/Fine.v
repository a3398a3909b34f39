(** * Fine: all the processes using a ring, interleaved statement by statement.
    Model only, no proofs.

    Sys.v lets the code between lock() and unlock() happen at once.  Here a
    process takes the lock, executes one statement at a time (Micro.v,
    BwMicro.v) with the others going on meanwhile, and gives the lock up.  What
    the others can do without the lock: start calls (up to their lock()), wait
    in bw_wait_ul, receive the datagrams sent to their sockets (which the
    process holding the lock may be sending at that very moment), be
    interrupted by signals or by descriptors registered with shr_ctl.

    Not modelled while another process is between lock() and unlock(): lock()
    giving up (EINTR), and the death of a process that has sockets.  (Both are
    possible here when the lock is free; the death of the process holding the
    lock is possible before any of its statements.) *)
From Verif Require Export Kill Spec.

(** What happens in a critical section, and the results: the new state of the
    process's handle and the events of run_client (Sys.v); for shr_open the
    new handle, if any. *)
Definition fres := outcome (option client * list event).

(** cf. run_client in Sys.v and section in Kill.v.  [sync]: what shr_sync
    returns at the end (the gflags it looks at never change). *)
Definition fsection (e : env) (sync : bool) (c : nat) (cl : client) : prog shm fres :=
  match c_pc cl with
  | RunW k iov len nb =>
      (* src/shr.c l.925-1013 *)
      let done cl v ev : fres := do (cl, rs) <- end_write cl k iov v; Ok (Some cl, ev ++ rets c rs) in
      run! stored <- on_ring (write_p (c_mm cl) iov len false);
      if stored : bool then
        match c_w2r cl with
        | None => At 1004 (fun _ => UB)
        | Some h =>
            run! x <- on_bw true (bw_wake_p e h);
            let cl := cl <| c_w2r := Some (fst x) |> in
            if snd x : bool
            then run! _ <- on_ring (wrote_p len (zlen iov)); Ret (done cl (if sync then len else -1) [ECommit c iov])
            else Ret (done cl (-1) [ECommit c iov])
        end
      else Ret (if nb then done cl 0 [] else
                match c_r2w cl with
                | Some (Wait _ _ _) => Ok (Some (cl <| c_pc := WaitW k iov len nb |>), [])
                | _ => Abort
                end)
  | RunR buf niov =>
      (* l.797-857 *)
      run! x <- on_ring (read_p (c_q cl) (c_md cl) buf niov);
      let '(q, md, got) := x in
      let cl := cl <| c_q := q |> <| c_md := md |> in
      let done cl v buf iov : fres := Ok (Some (cl <| c_pc := Idle |>), [ERet c (RetRead v buf iov)]) in
      match got, c_w2r cl with
      | _, None => At 806 (fun _ => UB)
      | None, Some h =>
          if has (c_flags cl) SHR_NONBLOCK then run! _ <- on_bw true (bw_force_p e h false); Ret (done cl 0 buf [])
          else Ret (match h with Wait _ _ _ => Ok (Some (cl <| c_pc := WaitR buf niov |>), []) | Wake _ _ => Abort end)
      | Some (l, cur'), Some h =>
          run! cl <- (if rl_nr l >? 0 then
                        match c_r2w cl with
                        | None => At 849 (fun _ => UB)
                        | Some h2 => run! y <- on_bw false (bw_wake_p e h2); Ret (cl <| c_r2w := Some (fst y) |>)
                        end
                      else Ret cl);
          run! _ <- on_bw true (bw_force_p e h (match cur' with Some _ => true | None => false end));
          Ret (done cl (if zlen (rl_iov l) >? 0 then rl_nr l else -2) (rl_buf l) (rev (rl_iov l)))
      end
  | RunOpenR2W =>
      (* l.1122-1127 *)
      run! o <- on_bw false (bw_open_wait_p e (c_pid cl) (e_name e));
      Ret (match o with
           | None => Ok (Some (cl <| c_pc := Idle |>), [ERet c (RetFlush (-1))])
           | Some b => do (cl, rs) <- flush_write (cl <| c_r2w := Some b |>) KFlush false; Ok (Some cl, rets c rs)
           end)
  | RunClose =>
      (* l.1163-1166 *)
      run! _ <- (match c_w2r cl with Some h => on_bw true (bw_close_p h) | None => Ret tt end);
      run! _ <- (match c_r2w cl with Some h => on_bw false (bw_close_p h) | None => Ret tt end);
      Ret (Ok (Some (cl <| c_live := false |> <| c_w2r := None |> <| c_r2w := None |>
                        <| c_cache := cache0 |> <| c_pc := Idle |>), [ERet c RetClosed]))
  | RunStat reset =>
      (* l.318-347 *)
      At 320 (fun m =>
        let so := stat_of (sh_ring m) cl in
        let done (b : bool) : fres := Ok (Some (cl <| c_pc := Idle |>), [ERet c (RetStat b (if sync then 0 else -1) (Some so))]) in
        Ok (m, match reset with
               | None => Ret (done false)
               | Some t => run! _ <- on_ring (reset_p t); Ret (done true)
               end))
  | RunApp get set sz =>
      (* l.1046-1082: what is read, at once; what is stored, byte by byte *)
      At 1046 (fun m =>
        let r := sh_ring m in
        let done (x : ret) : fres := Ok (Some (cl <| c_pc := Idle |>), [ERet c x]) in
        let rc := if sync then 0 else -1 in
        let gout := match get with GBuf b => Some b | _ => None end in
        if r_app_len r =? 0 then Ok (m, Ret (done (RetApp (-1) gout sz))) else
        match get, set with
        | GNull, None => Ok (m, Ret (done (RetApp rc None sz)))
        | GAlloc, None =>
            if negb (e_alloc e) then Ok (m, Ret (done (RetApp (-1) None (r_app_len r)))) else
            do a <- rd_mem 0 (r_app_len r) (r_app r);
            Ok (m, Ret (done (RetApp rc (Some a) (r_app_len r))))
        | GBuf b, None =>
            if sz <? r_app_len r then Ok (m, Ret (done (RetApp (-1) gout sz))) else
            do a <- rd_mem 0 sz (r_app r);
            do b <- wr_mem 0 a b;
            Ok (m, Ret (done (RetApp rc (Some b) (r_app_len r))))
        | GNull, Some s =>
            if negb (sz =? r_app_len r) then Ok (m, Ret (done (RetApp (-1) gout sz))) else
            do a <- rd_mem 0 sz s;
            Ok (m, run! _ <- on_ring (app_p 0 a); Ret (done (RetApp rc None sz)))
        | GAlloc, Some _ => Ok (m, Ret (done (RetApp rc None sz)))
        | GBuf b, Some s =>
            if negb (sz =? r_app_len r) then Ok (m, Ret (done (RetApp (-1) gout sz))) else
            do a <- rd_mem 0 sz (r_app r);
            do b <- wr_mem 0 a b;
            do a <- rd_mem 0 sz s;
            Ok (m, run! _ <- on_ring (app_p 0 a); Ret (done (RetApp rc (Some b) sz)))
        end)
  | Idle | WaitW _ _ _ _ | WaitR _ _ => At 0 (fun _ => Stuck)   (* does not take the lock *)
  end.

(** shr_open (src/shr.c l.591-615; cf. do_open in Sys.v and open_section in
    Kill.v).  [fsz]: the size of the file.  It reads the header of the ring
    (at once), then registers. *)
Definition fopen (e : env) (fsz flags pid : Z) : prog shm fres :=
  At 591 (fun m =>
    let r := sh_ring m in
    let fails : prog shm fres := Ret (Ok (None, [])) in
    let undo a b : prog shm fres := run! _ <- fail_open a b; fails in
    let finish (a b : option bwt) : prog shm fres :=
      Ret (Ok (match init_cache e r flags with
               | None => None
               | Some ca => if shr_sync e r then Some (mkcl true pid flags (r_q r) 0 a b ca (r_n r) (r_mm r) Idle) else None
               end, [])) in
    Ok (m,
      if negb (validate_flags flags) || negb (e_lock e) || (validate_ring fsz true r <? 0)
         || has (r_gflags r) SHR_MLOCK && negb (e_alloc e) then fails else
      if has flags SHR_RDONLY then
        run! a <- on_bw true (bw_open_wait_p e pid (e_name e));
        run! b <- on_bw false (bw_open_wake_p e);
        match a, b with
        | Some x, Some _ =>
            run! ok <- on_bw true (bw_force_p e x (negb (r_u r =? 0)));
            if ok : bool then finish a b else undo a b
        | _, _ => undo a b
        end
      else
        run! a <- on_bw true (bw_open_wake_p e);
        match a with
        | None => fails
        | Some _ =>
            if negb (has flags SHR_NONBLOCK) && negb (r_drop r) then
              run! b <- on_bw false (bw_open_wait_p e pid (e_name e));
              match b with None => undo a None | Some _ => finish a b end
            else finish a None
        end)).

(** Who has the lock: a process in a call, or one in shr_open. *)
Inductive who := InCall (c : nat) (e : env) | InOpen (e : env) (flags pid : Z).
(** ... the world when it took the lock, and what it is still going to do *)
Record inside := mkin { in_w : world; in_who : who; in_p : prog shm fres }.
Definition fstate := (world * option inside)%type.

Definition wants_lock (cl : client) : bool :=
  c_live cl && match c_pc cl with Idle | WaitW _ _ _ _ | WaitR _ _ => false | _ => true end.
Definition holds (x : who) (c : nat) : Prop := match x with InCall c' _ => c = c' | InOpen _ _ _ => False end.
Definition act (x : who) : action := match x with InCall c e => ARun c e | InOpen e flags pid => AOpen e flags pid end.
Definition body (w : world) (x : who) : prog shm fres :=
  match x with
  | InCall c e => fsection e (shr_sync e (w_ring w)) c (cli w c)
  | InOpen e flags pid => fopen e (w_fsz w) flags pid
  end.
Definition ready (w : world) (x : who) : Prop :=
  match x with
  | InCall c e => wants_lock (cli w c) = true /\ e_lock e = true
  | InOpen e _ _ => e_lock e = true
  end.

(** without the lock: what is possible when nobody has it, and what is possible
    while [x] has it *)
Definition unlocked (a : action) : Prop :=
  match a with AOpen e _ _ | ARun _ e => e_lock e = false | _ => True end.
Definition no_sock (h : option bwt) : Prop := match h with Some (Wait _ _ _) => False | _ => True end.
Definition meanwhile (w : world) (x : who) (a : action) : Prop :=
  match a with
  | ACall c _ | AWake c | AEintr c | APoll c _ => ~ holds x c
  | ACrash c => ~ holds x c /\ no_sock (c_w2r (cli w c)) /\ no_sock (c_r2w (cli w c))
  | AOpen _ _ _ | ARun _ _ => False
  end.

(** giving up the lock with result [r] *)
Definition leave (w : world) (x : who) (r : option client * list event) : world * list event :=
  match x with
  | InCall c _ => (setc w c (match fst r with Some cl => cl | None => cli w c end), snd r)
  | InOpen _ flags _ =>
      match fst r with
      | None => (w, [EOpen flags None])
      | Some cl => (w <| w_cl := w_cl w ++ [cl] |>, [EOpen flags (Some (length (w_cl w)))])
      end
  end.
(** the process that has the lock since [w0] is killed before [line] *)
Definition die (w0 w : world) (x : who) (line : Z) : world * list event :=
  let ks := close_new (length (w_ks w0)) (w_ks w) in
  match x with
  | InCall c _ =>
      let cl := cli w c in
      (setc (w <| w_ks := drop_sock (drop_sock ks (c_w2r cl)) (c_r2w cl) |>) c (cl <| c_live := false |> <| c_pc := Idle |>),
       kill_events w0 c line)
  | InOpen _ _ _ => (w <| w_ks := ks |>, [])
  end.
Definition intact (w0 w : world) (x : who) (line : Z) : bool :=
  match x with InCall c _ => untorn w0 c (shared w) line | InOpen _ _ _ => true end.

(** One statement, or one action that needs no lock; with its events. *)
Inductive fstep (P : world -> action -> Prop) : fstate -> list event -> fstate -> Prop :=
| fs_free w a w' ev : unlocked a -> P w a -> step w a = Ok (w', ev) -> fstep P (w, None) ev (w', None)
| fs_meanwhile w i a w' ev : meanwhile w (in_who i) a -> P w a -> step w a = Ok (w', ev) -> fstep P (w, Some i) ev (w', Some i)
| fs_lock w x : ready w x -> P w (act x) -> fstep P (w, None) [] (w, Some (mkin w x (body w x)))
| fs_stmt w w0 x line f m p : f (shared w) = Ok (m, p) ->
    fstep P (w, Some (mkin w0 x (At line f))) [] (with_shared w m, Some (mkin w0 x p))
| fs_unlock w w0 x r w' ev : leave w x r = (w', ev) -> fstep P (w, Some (mkin w0 x (Ret (Ok r)))) ev (w', None)
| fs_kill w w0 x line f w' ev : intact w0 w x line = true -> die w0 w x line = (w', ev) ->
    fstep P (w, Some (mkin w0 x (At line f))) ev (w', None).
Inductive fexec (P : world -> action -> Prop) (w0 : world) : fstate -> list event -> Prop :=
| fx_nil : fexec P w0 (w0, None) []
| fx_step s evs ev s' : fexec P w0 s evs -> fstep P s ev s' -> fexec P w0 s' (evs ++ ev).
(** what can be reached from a fresh ring *)
Definition freach (P : world -> action -> Prop) (r : ring) (s : fstate) (evs : list event) : Prop :=
  exists fsz, fresh r fsz /\ fexec P (world0 r fsz) s evs /\ seq_bound r evs.

(** Callers obey the API, the kernel gives new sockets new names; anything may
    fail. *)
Definition well_named (w : world) (a : action) : Prop := contract w a /\ new_names w a.
(** The process that has the lock goes on, alone, until it gives it up. *)
Inductive finishes : fstate -> list event -> fstate -> Prop :=
| fi_unlock w w0 x r w' ev : leave w x r = (w', ev) -> finishes (w, Some (mkin w0 x (Ret (Ok r)))) ev (w', None)
| fi_stmt w w0 x line f m p ev s : f (shared w) = Ok (m, p) -> finishes (with_shared w m, Some (mkin w0 x p)) ev s ->
    finishes (w, Some (mkin w0 x (At line f))) ev s.
