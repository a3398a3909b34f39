(** * Disk: the ring file on disk, and rings with SHR_SYNC (src/shr.c l.174-185,
    msync).  Model only, no proofs.

    The processes work on a shared mapping of the file.  The kernel writes its
    pages to the disk when it likes, each page by itself, and msync(MS_SYNC)
    writes all of them before it returns.  If the power fails, each page of the
    file is what it was in memory at some time since the last msync that
    succeeded (a page is written as a whole, and each store is wholly in memory
    or not at all).  If msync fails nothing is known of what it has written. *)
From Verif Require Export Kill Init.

(** what is in the file (the magic number, never changed, is left out) *)
Record image := mkim { im_ring : ring; im_w2r : bwh; im_r2w : bwh }.
Definition im (m : shm) : image := mkim (sh_ring m) (sh_w2r m) (sh_r2w m).
(** The contents the file has had in memory since the last msync that
    succeeded, beginning with those then written.  [None]: there was no such
    msync (shr_init, src/shr.c l.201-301, makes the file without msync). *)
Definition store := option (list image).

(** A program on the memory, its effects on the file noted. *)
Definition note (m : shm) (u : store) : store := option_map (cons (im m)) u.
Definition mem {A} (p : prog shm A) : prog (shm * store) A := liftp fst (fun t m => (m, note m (snd t))) p.
(** src/shr.c l.174-185: shr_sync, called at [line] *)
Definition msync_p (line : Z) (e : env) : prog (shm * store) unit :=
  At line (fun t => Ok (if has (r_gflags (sh_ring (fst t))) SHR_SYNC && e_msync e then (fst t, Some [im (fst t)]) else t, Ret tt)).

(** shr_appdata gets to l.1078 (l.1047-1077) *)
Definition app_done (e : env) (get : getarg) (set : option bytes) (sz : Z) (r : ring) : bool :=
  negb (r_app_len r =? 0) &&
  match get, set with
  | GNull, None | GAlloc, Some _ => true
  | GAlloc, None => e_alloc e
  | GBuf _, None => negb (sz <? r_app_len r)
  | _, Some _ => sz =? r_app_len r
  end.
(** [section] of Kill.v with its msync *)
Definition dsection (e : env) (cl : client) : prog (shm * store) unit :=
  if negb (e_lock e) then Ret tt else
  match c_pc cl with
  | RunW _ iov len _ =>
      (* src/shr.c l.925-1013 *)
      run! stored <- mem (on_ring (write_p (c_mm cl) iov len false));
      if stored : bool then
        match c_w2r cl with
        | None => At 1004 (fun _ => UB)
        | Some h =>
            run! x <- mem (on_bw true (bw_wake_p e h));
            if snd x : bool then run! _ <- mem (on_ring (wrote_p len (zlen iov))); msync_p 1008 e else Ret tt
        end
      else Ret tt
  | RunR buf niov =>
      (* l.797-857 *)
      run! x <- mem (on_ring (read_p (c_q cl) (c_md cl) buf niov));
      match snd x, c_w2r cl with
      | _, None => At 806 (fun _ => UB)
      | None, Some h =>
          if has (c_flags cl) SHR_NONBLOCK then run! _ <- mem (on_bw true (bw_force_p e h false)); Ret tt else Ret tt
      | Some (l, cur'), Some h =>
          run! _ <- (if rl_nr l >? 0 then
                       match c_r2w cl with
                       | None => At 849 (fun _ => UB)
                       | Some h2 => run! _ <- mem (on_bw false (bw_wake_p e h2)); Ret tt
                       end
                     else Ret tt);
          run! _ <- mem (on_bw true (bw_force_p e h (match cur' with Some _ => true | None => false end)));
          msync_p 852 e
      end
  | RunOpenR2W => run! _ <- mem (on_bw false (bw_open_wait_p e (c_pid cl) (e_name e))); Ret tt    (* l.1122-1127 *)
  | RunClose =>
      (* l.1163-1166 *)
      run! _ <- (match c_w2r cl with Some h => mem (on_bw true (bw_close_p h)) | None => Ret tt end);
      match c_r2w cl with Some h => mem (on_bw false (bw_close_p h)) | None => Ret tt end
  | RunStat reset =>
      (* l.318-342 *)
      run! _ <- (match reset with Some t => mem (on_ring (reset_p t)) | None => Ret tt end);
      msync_p 342 e
  | RunApp get set sz =>
      (* l.1046-1078 *)
      At 1046 (fun t => Ok (t,
        if app_done e get set sz (sh_ring (fst t))
        then run! _ <- mem (on_ring (setapp_p get set sz)); msync_p 1078 e else Ret tt))
  | _ => Ret tt
  end.
(** [open_section] of Kill.v with the msync of src/shr.c l.611, reached when
    everything before succeeded.  (When that msync fails shr_open fails, and
    nothing is known of what it wrote.) *)
Definition opened (e : env) (w : world) (flags pid : Z) : bool :=
  match do_open e w flags pid with Ok (_, Some _) => true | _ => false end.
Definition dopen (e : env) (w : world) (flags pid : Z) : prog (shm * store) unit :=
  run! _ <- mem (open_section e w flags pid);
  if opened e w flags pid then msync_p 611 e else Ret tt.
(** what an action of Sys.v does to the disk; those not named here do not touch
    the file *)
Definition dprog (w : world) (a : action) : prog (shm * store) unit :=
  match a with
  | AOpen e flags pid => dopen e w flags pid
  | ARun c e => if c_live (cli w c) then dsection e (cli w c) else Ret tt
  | _ => Ret tt
  end.

(** Executions as [exec] in Spec.v, with the disk. *)
Inductive dexec (P : world -> action -> Prop) (w0 : world) : world -> list event -> store -> Prop :=
| dx_nil : dexec P w0 w0 [] None
| dx_step w evs u a w' ev m u' : dexec P w0 w evs u -> P w a -> step w a = Ok (w', ev) ->
    exec_all (dprog w a) (shared w, u) = Ok ((m, u'), tt) -> dexec P w0 w' (evs ++ ev) u'.
