(** * BwApi: lib/bw.c as a library of its own.  Model only, no proofs.

    Processes share one zeroed bw_handle and the lock that protects it, and call
    the functions of lib/bw.h: bw_open, bw_wake, bw_force, bw_ctl and bw_close
    with the lock held, bw_ready_ul and bw_wait_ul without it.  A process can be
    killed between calls, and before any statement of a call.

    The calls are the programs of BwMicro.v.  One process may have several
    handles open.  Simplified: recvmsg and epoll_wait do not fail; fork is not
    modelled. *)
From Verif Require Export BwMicro.

(** ** the calls *)
Inductive bcall :=
| BcWake                    (* bw_wake, lib/bw.c l.632-647 *)
| BcForce (want : bool)     (* bw_force, l.708-738 *)
| BcReady                   (* bw_ready_ul, l.510-535 *)
| BcWait                    (* bw_wait_ul, l.556-594, returning for a wake-up *)
| BcOther (fd : Z)          (* the same, epoll having reported another descriptor *)
| BcCtl (fd : Z)            (* bw_ctl(BW_POLLFD), l.757-791 *)
| BcClose.                  (* bw_close, l.444-473 *)

(** lib/bw.c l.510-535: bw_ready_ul; recvmsg with MSG_DONTWAIT takes one datagram
    if there is one *)
Definition bw_ready_p (w : bwt) : prog bks Z :=
  match w with
  | Wake _ _ => At 10514 (fun _ => Abort)
  | Wait _ sid _ => At 10520 (fun s => Ok (s <| b_ks := bw_recv (b_ks s) sid |>, Ret 0))
  end.
(** lib/bw.c l.556-594: bw_wait_ul.  Stuck: epoll_wait does not return (as long
    as nothing is queued). *)
Definition bw_wait_p (w : bwt) : prog bks Z :=
  match w with
  | Wake _ _ => At 10561 (fun _ => Abort)
  | Wait _ sid _ => At 10571 (fun s => if k_pend (sk (b_ks s) sid) >? 0 then Ok (s, bw_ready_p w) else Stuck)
  end.
(** the same when epoll_wait reports descriptor [fd], which the caller has added
    with bw_ctl: l.579-583 *)
Definition bw_other_p (w : bwt) (fd : Z) : prog bks Z :=
  match w with
  | Wake _ _ => At 10561 (fun _ => Abort)
  | Wait _ _ polls => At 10571 (fun s => if existsb (Z.eqb fd) polls then Ok (s, Ret (-3)) else Stuck)
  end.

Definition code (ok : bool) : Z := if ok then 0 else -1.
(** one call on the handle [h]: the handle afterwards and what is returned *)
Definition call_p (e : env) (h : bwt) (x : bcall) : prog bks (option bwt * Z) :=
  match x with
  | BcWake => run! r <- bw_wake_p e h; Ret (Some (fst r), code (snd r))
  | BcForce want => run! ok <- bw_force_p e h want; Ret (Some h, code ok)
  | BcReady => run! v <- bw_ready_p h; Ret (Some h, v)
  | BcWait => run! v <- bw_wait_p h; Ret (Some h, v)
  | BcOther fd => run! v <- bw_other_p h fd; Ret (Some h, v)
  | BcCtl fd => match bw_ctl h fd with
               | Ok (h', ok) => Ret (Some h', code ok)
               | _ => At 10767 (fun _ => Abort)
               end
  | BcClose => run! _ <- bw_close_p h; Ret (None, 0)
  end.
(** bw_open(BW_WAIT or BW_WAKE), l.340-433 *)
Definition open_p (e : env) (wait : bool) (pid : Z) : prog bks (option bwt) :=
  if wait then bw_open_wait_p e pid (e_name e) else bw_open_wake_p e.

(** ** processes *)
Record bcl := mkbcl { bc_pid : Z; bc_h : option bwt }.
#[export] Instance eta_bcl : Settable _ := settable! mkbcl <bc_pid; bc_h>.
(** the shared memory and the kernel's sockets; every handle ever opened *)
Record bsys := mkbsys { y_s : bks; y_cl : list bcl }.
Definition bcli (y : bsys) (c : nat) : bcl := nth c (y_cl y) (mkbcl 0 None).
Definition bsys0 : bsys := mkbsys (mkbk bwh0 []) [].

(** The kernel, when a process ends: its sockets are closed. *)
Definition shut_pid (pid : Z) (ks : socks) : socks :=
  map (fun k => if k_pid k =? pid then k <| k_open := false |> else k) ks.
Definition ended (pid : Z) (y : bsys) (s : bks) : bsys :=
  mkbsys (s <| b_ks := shut_pid pid (b_ks s) |>)
         (map (fun c => if bc_pid c =? pid then c <| bc_h := None |> else c) (y_cl y)).

(** what is observed: a bw_open, numbered by the handles, in wait mode or not,
    and its success; a call and its result; a process that ended, between
    calls, in a call or in bw_open. *)
Inductive bev :=
| BOpened (c : nat) (wait ok : bool)
| BRet (c : nat) (x : bcall) (v : Z)
| BDied (pid : Z) (inside : option (nat * bcall)).

Inductive bstep (P : bsys -> env -> Prop) (y : bsys) : bev -> bsys -> Prop :=
| bs_open e wait pid s o : P y e -> 0 < pid -> exec_all (open_p e wait pid) (y_s y) = Ok (s, o) ->
    bstep P y (BOpened (length (y_cl y)) wait (if o then true else false)) (mkbsys s (y_cl y ++ [mkbcl pid o]))
| bs_call e c h x s o v : P y e -> bc_h (bcli y c) = Some h -> exec_all (call_p e h x) (y_s y) = Ok (s, (o, v)) ->
    bstep P y (BRet c x v) (mkbsys s (set_nat (y_cl y) c (bcli y c <| bc_h := o |>)))
| bs_die pid : bstep P y (BDied pid None) (ended pid y (y_s y))
| bs_kill e c h x line s : P y e -> bc_h (bcli y c) = Some h -> dies_at (call_p e h x) (y_s y) line s ->
    bstep P y (BDied (bc_pid (bcli y c)) (Some (c, x))) (ended (bc_pid (bcli y c)) y s)
| bs_kill_open e wait pid line s : P y e -> 0 < pid -> dies_at (open_p e wait pid) (y_s y) line s ->
    bstep P y (BDied pid None) (ended pid y s).

(** executions, the events in order *)
Inductive breach (P : bsys -> env -> Prop) : bsys -> list bev -> Prop :=
| br_start : breach P bsys0 []
| br_step y evs v y' : breach P y evs -> bstep P y v y' -> breach P y' (evs ++ [v]).
