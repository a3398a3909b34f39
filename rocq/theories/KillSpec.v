(** * KillSpec: executions in which socket calls may fail and processes are
    killed (C55).  Definitions only. *)
From Verif Require Export Kill.

(** Connecting to a waiting process may fail (no descriptors left, say) and so
    may emptying one's own socket; but sends to a process that is alive succeed
    or find its queue full, and has_pid_socket tells exactly whether the process
    has an open socket of that name. *)
Record honest_sockets (ks : socks) (e : env) : Prop := mkhs {
  hs_send : forall n, e_send e n = true;
  hs_probe : forall pid name, e_probe e pid name = 0 <->
      ~ (exists k, In k ks /\ k_open k = true /\ k_pid k = pid /\ k_name k = name) }.
Definition flaky (w : world) (a : action) : Prop :=
  contract w a /\ match a with AOpen e _ _ | ARun _ e => honest_sockets (w_ks w) e | _ => True end /\ new_names w a.
(** A return value that reports success: shr_write stored the messages, shr_flush
    stored those held back. *)
Definition success (x : ret) : Prop := match x with RetWrite _ v => 0 < v | RetFlush v => 0 < v | _ => False end.
(** The last messages stored in the ring are those of a writer that was killed
    before its call returned. *)
Definition orphaned (evs : list event) : Prop :=
  exists e1 c ms e2, evs = e1 ++ [ECommit c ms; ECrash c] ++ e2 /\ committed e2 = [].
(** A reader was killed in shr_read, and no shr_read has returned messages since. *)
Definition robbed (evs : list event) : Prop :=
  exists e1 c buf niov e2, evs = e1 ++ [ECrash c] ++ e2 /\ pending c e1 = Some (CRead buf niov)
    /\ forall c' v b i, In (ERet c' (RetRead v b i)) e2 -> v <= 0.
