(** * BwSpec: what users of lib/bw.h rely on, in terms of calls and results *)
From Verif Require Export BwApi KillSpec.

(** System calls may fail, except that what has_pid_socket says is true and
    sending to a living process does not fail (other than by a full queue); and
    the kernel never gives a socket a name it has given before. *)
Definition honest (y : bsys) (e : env) : Prop :=
  honest_sockets (b_ks (y_s y)) e /\ forall k, In k (b_ks (y_s y)) -> k_name k <> e_name e.
(** as before, but names of sockets that are closed may be given again *)
Definition recycling (y : bsys) (e : env) : Prop :=
  honest_sockets (b_ks (y_s y)) e /\ forall k, In k (b_ks (y_s y)) -> k_open k = true -> k_name k <> e_name e.

(** [c] is open in wait mode, with so many wake-ups queued *)
Definition queued (y : bsys) (c : nat) : option Z :=
  match bc_h (bcli y c) with
  | Some (Wait _ sid _) => Some (k_pend (sk (b_ks (y_s y)) sid))
  | _ => None
  end.
Definition waiting (y : bsys) (c : nat) : Prop := queued y c <> None.
(** its descriptor is readable *)
Definition readable (y : bsys) (c : nat) : Prop := exists n, queued y c = Some n /\ 0 < n.
Definition waiters (y : bsys) : list nat :=
  filter (fun c => match queued y c with Some _ => true | None => false end) (seq 0 (length (y_cl y))).

(** the events by which [c] gives up wake-ups, and the end of its process *)
Definition takes (y : bsys) (c : nat) (v : bev) : Prop :=
  match v with
  | BRet c' BcReady _ | BRet c' BcWait _ | BRet c' (BcForce false) _ | BRet c' BcClose _ => c' = c
  | BDied pid _ => bc_pid (bcli y c) = pid
  | _ => False
  end.
(** An upper bound on the wake-ups [c] has been sent and not taken: a bw_wake that
    returns 0, or in which the caller is killed, sends at most one; bw_force(1)
    ensures there is one. *)
Definition sent (c : nat) (n : Z) (v : bev) : Z :=
  match v with
  | BRet _ BcWake 0 | BDied _ (Some (_, BcWake)) => n + 1
  | BRet c' (BcForce true) 0 => if (c' =? c)%nat then Z.max n 1 else n
  | BRet c' (BcForce false) 0 => if (c' =? c)%nat then 0 else n
  | BRet c' BcReady _ | BRet c' BcWait _ => if (c' =? c)%nat then Z.max 0 (n - 1) else n
  | BOpened c' _ _ => if (c' =? c)%nat then 0 else n
  | _ => n
  end.
Definition credit (c : nat) (evs : list bev) : Z := fold_left (sent c) evs 0.
(** no system call fails *)
Definition working (y : bsys) (e : env) : Prop :=
  good_sockets (b_ks (y_s y)) e /\ (forall k, In k (b_ks (y_s y)) -> k_name k <> e_name e)
  /\ e_alloc e = true /\ e_bind e = true /\ e_self e = true.
(** [c] is open *)
Definition opened_as (y : bsys) (c : nat) (h : bwt) : Prop := bc_h (bcli y c) = Some h.
(** lib/bw.h: which calls are for which mode.  The others are stopped by an assertion. *)
Definition allowed (y : bsys) (c : nat) (x : bcall) : Prop :=
  match x with BcWake => ~ waiting y c | BcClose => True | _ => waiting y c end.
