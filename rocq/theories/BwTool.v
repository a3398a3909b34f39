(** * BwTool: lib/bw-tool.c, the program that waits for a wake-up or sends one,
    on top of lib/bw.c (BwApi.v).  Model only, no proofs.

    One process running the tool among other processes that use the same
    handle in any way (other instances of the tool among them).  Not modelled:
    the option parser and "make" (a file of the right size is what BwApi.v
    starts from); the text of messages about failing system calls.  A call that
    can fail for lack of the file or the lock may do so at any time. *)
From Verif Require Export BwSpec.

(** lib/bw-tool.c l.21-30: the options: argument "wake" rather than "wait", -f,
    -c, -w.  (-d and -a: a delay and a signal may come in any execution.) *)
Record topts := mktopts { to_wake : bool; to_force : bool; to_clear : bool; to_api : bool }.

(** what is printed *)
Inductive said :=
| FdReady (r : bool)        (* l.146: "fd ready" or "fd clear" *)
| GotSignal                 (* l.124: "got signal" *)
| Awoken                    (* l.244: "bw_wait_ul: awoken" *)
| WaitError                 (* l.245: "bw_wait_ul: error" *)
| SignalBlocked.            (* l.247: "signal while blocked" *)

(** where the tool is; [c] is its handle *)
Inductive tph :=
| PStart                    (* before the lock, l.220 or l.235 *)
| POpen (c : nat)           (* wait: bw_open has returned, l.238-240 *)
| PBlock (c : nat)          (* in select, l.255, or bw_wait_ul, l.243 *)
| PReady (c : nat)          (* before bw_ready_ul, l.256 *)
| PSig (c : nat)            (* before the lock, l.249 *)
| PLock (c : nat)           (* before the lock, l.258 *)
| PWake (c : nat)           (* wake: before the second lock, l.225 *)
| PLeave (code : Z)         (* at "done", l.268; -1 is "error exit" *)
| PGone.
Record tool := mktool { t_y : bsys; t_ph : tph; t_sig : bool (* a signal is pending *) }.
#[export] Instance eta_tool : Settable _ := settable! mktool <t_y; t_ph; t_sig>.

(** the descriptor added with bw_ctl(BW_POLLFD): the signalfd *)
Definition SIGFD : Z := 3.

(** what is observed; [Mine]: of a call the tool makes *)
Inductive tev :=
| Mine (v : bev)
| Other (v : bev)
| Said (s : said)
| Signal                    (* HUP, TERM, INT, QUIT or ALRM; all are blocked *)
| Exit (code : Z).

(** [v], done by a process other than [pid] *)
Definition foreign (pid : Z) (y' : bsys) (v : bev) : Prop :=
  match v with
  | BOpened c _ _ | BRet c _ _ => bc_pid (bcli y' c) <> pid
  | BDied p _ => p <> pid
  end.

(** lib/bw-tool.c l.244-253: what follows bw_wait_ul *)
Definition wait_says (v : Z) : list tev :=
  if v =? 0 then [Said Awoken] else if v =? -1 then [Said WaitError] else if v =? -2 then [Said SignalBlocked; Said GotSignal] else [].
Definition wait_next (c : nat) (v : Z) : tph := if v =? -2 then PSig c else PLock c.

(** bw_force, its result not looked at: l.259 and l.260 *)
Inductive tforce (P : bsys -> env -> Prop) (c : nat) (want : bool) (y : bsys) : bool -> list tev -> bsys -> Prop :=
| tf_no : tforce P c want y false [] y
| tf_yes v y' : bstep P y (BRet c (BcForce want) v) y' -> tforce P c want y true [Mine (BRet c (BcForce want) v)] y'.

Inductive tstep (P : bsys -> env -> Prop) (o : topts) (pid : Z) (t : tool) : list tev -> tool -> Prop :=
| ts_other v y' : bstep P (t_y t) v y' -> foreign pid y' v -> tstep P o pid t [Other v] (t <| t_y := y' |>)
| ts_signal : tstep P o pid t [Signal] (t <| t_sig := true |>)
(* killed, within a call or not *)
| ts_killed i y' : t_ph t <> PGone -> bstep P (t_y t) (BDied pid i) y' -> tstep P o pid t [Mine (BDied pid i)] (mktool y' PGone (t_sig t))
(* l.218-225, l.233-238, l.249, l.255 and l.258: the file or the lock is not to be had, or select fails *)
| ts_fail c : t_ph t = PStart \/ t_ph t = POpen c \/ t_ph t = PWake c \/ t_ph t = PBlock c \/ t_ph t = PSig c \/ t_ph t = PLock c ->
    tstep P o pid t [] (t <| t_ph := PLeave (-1) |>)
(* l.220-223 and l.235-238, under the lock *)
| ts_open c ok y' : t_ph t = PStart -> bstep P (t_y t) (BOpened c (negb (to_wake o)) ok) y' -> bc_pid (bcli y' c) = pid ->
    tstep P o pid t [Mine (BOpened c (negb (to_wake o)) ok)]
      (mktool y' (if ok then if to_wake o then PWake c else POpen c else PLeave (-1)) (t_sig t))
(* l.225-228: bw_wake and bw_close under one lock; the unlock may fail *)
| ts_wake_no c v y' : t_ph t = PWake c -> bstep P (t_y t) (BRet c BcWake v) y' -> v <> 0 ->
    tstep P o pid t [Mine (BRet c BcWake v)] (mktool y' (PLeave (-1)) (t_sig t))
| ts_wake c u y1 y' code : code = 0 \/ code = -1 -> t_ph t = PWake c -> bstep P (t_y t) (BRet c BcWake 0) y1 -> bstep P y1 (BRet c BcClose u) y' ->
    tstep P o pid t [Mine (BRet c BcWake 0); Mine (BRet c BcClose u)] (mktool y' (PLeave code) (t_sig t))
(* l.240 *)
| ts_ctl c v y' : t_ph t = POpen c -> bstep P (t_y t) (BRet c (BcCtl SIGFD) v) y' ->
    tstep P o pid t [Mine (BRet c (BcCtl SIGFD) v)] (mktool y' (if v =? 0 then PBlock c else PLeave (-1)) (t_sig t))
(* l.255: await_readiness, l.128-154 *)
| ts_select c : t_ph t = PBlock c -> to_api o = false -> readable (t_y t) c \/ t_sig t = true ->
    tstep P o pid t (Said (FdReady true) :: if t_sig t then [Said GotSignal] else []) (t <| t_ph := if t_sig t then PLeave (-1) else PReady c |>)
(* l.256 *)
| ts_ready c v y' : t_ph t = PReady c -> bstep P (t_y t) (BRet c BcReady v) y' ->
    tstep P o pid t [Mine (BRet c BcReady v)] (mktool y' (if v <? 0 then PLeave (-1) else PLock c) (t_sig t))
(* l.243: bw_wait_ul, for a wake-up or for the signalfd *)
| ts_wait c x v y' : t_ph t = PBlock c -> to_api o = true -> x = BcWait \/ x = BcOther SIGFD /\ t_sig t = true -> bstep P (t_y t) (BRet c x v) y' ->
    tstep P o pid t (Mine (BRet c x v) :: wait_says v) (mktool y' (wait_next c v) (t_sig t))
(* l.249-252 *)
| ts_sigclose c v y' : t_ph t = PSig c -> bstep P (t_y t) (BRet c BcClose v) y' ->
    tstep P o pid t [Mine (BRet c BcClose v)] (mktool y' (PLeave (-1)) (t_sig t))
(* l.258-263, under the lock.  A signal ends the program without bw_close. *)
| ts_last_sig c e1 e2 y1 y2 : t_ph t = PLock c -> tforce P c true (t_y t) (to_force o) e1 y1 -> tforce P c false y1 (to_clear o) e2 y2 -> t_sig t = true ->
    tstep P o pid t (e1 ++ e2 ++ [Said (FdReady true); Said GotSignal]) (mktool y2 (PLeave (-1)) (t_sig t))
| ts_last c e1 e2 y1 y2 r v y' code : code = 0 \/ code = -1 -> t_ph t = PLock c -> tforce P c true (t_y t) (to_force o) e1 y1 -> tforce P c false y1 (to_clear o) e2 y2 -> t_sig t = false ->
    (r = true <-> readable y2 c) -> bstep P y2 (BRet c BcClose v) y' ->
    tstep P o pid t (e1 ++ e2 ++ [Said (FdReady r); Mine (BRet c BcClose v)]) (mktool y' (PLeave code) (t_sig t))
(* l.268-275 *)
| ts_exit code y' : t_ph t = PLeave code -> bstep P (t_y t) (BDied pid None) y' -> tstep P o pid t [Exit code; Mine (BDied pid None)] (mktool y' PGone (t_sig t)).

(** executions: the tool is started when other processes have done [evs0] *)
Inductive treach (P : bsys -> env -> Prop) (o : topts) (pid : Z) : tool -> list tev -> Prop :=
| tr_start y evs0 : breach P y evs0 -> (forall c, (c < length (y_cl y))%nat -> bc_pid (bcli y c) <> pid) -> treach P o pid (mktool y PStart false) (map Other evs0)
| tr_step t evs l t' : treach P o pid t evs -> tstep P o pid t l t' -> treach P o pid t' (evs ++ l).
