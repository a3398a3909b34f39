(** * The theorems, thirty-second part: lib/bw-tool.c (C94). *)
From Verif Require Import BwToolRun.

(** ** C94 *)
(** "bw-tool wait" leaves with code 0 only after another process has sent a
    wake-up since it opened the handle, and after it has closed the handle. *)
Theorem C94_wait : forall o pid t evs, treach honest o pid t evs -> to_wake o = false -> In (Exit 0) evs ->
  exists a b, evs = a ++ Exit 0 :: b /\ woken a /\ closes a.
Proof. exact exit_wait. Qed.
Print Assumptions C94_wait.
(** It goes on as soon as its handle is readable, *)
Theorem C94_goes_on : forall o pid t evs c e, treach honest o pid t evs -> t_ph t = PBlock c -> readable (t_y t) c -> honest (t_y t) e ->
  exists l t', tstep honest o pid t l t' /\ (In (Said (FdReady true)) l \/ In (Said Awoken) l).
Proof. exact goes_on. Qed.
Print Assumptions C94_goes_on.
(** and can then get to its end by itself, and leave with code 0, *)
Theorem C94_finishes : forall o pid t evs c, treach honest o pid t evs -> t_ph t = PBlock c -> readable (t_y t) c -> t_sig t = false ->
  exists l t', truns honest o pid t l t' /\ In (Exit 0) l /\ by_itself l.
Proof. exact finishes. Qed.
Print Assumptions C94_finishes.
(** and until then, and as long as there is no signal, it does nothing, unless a
    system call fails or it is killed. *)
Theorem C94_stays : forall o pid t evs c l t', treach honest o pid t evs -> t_ph t = PBlock c -> ~ readable (t_y t) c -> t_sig t = false -> tstep honest o pid t l t' ->
  (exists v, l = [Other v]) \/ l = [Signal] \/ t_ph t' = PLeave (-1) /\ l = [] \/ (exists i, l = [Mine (BDied pid i)]).
Proof. exact stays. Qed.
Print Assumptions C94_stays.
(** "bw-tool wake" makes every open handle readable, and leaves with code 0 only
    if it has.  Missing, as in C74: the kernel giving a new socket the name of one
    that is closed. *)
Theorem C94_wake_partial : forall o pid t evs l t' c, treach honest o pid t evs -> tstep honest o pid t l t' -> In (Mine (BRet c BcWake 0)) l ->
  forall c', waiting (t_y t) c' -> readable (t_y t') c'.
Proof. exact wake_all_tool. Qed.
Print Assumptions C94_wake_partial.
Theorem C94_wake_exit : forall o pid t evs, treach honest o pid t evs -> to_wake o = true -> In (Exit 0) evs ->
  exists c a b, evs = a ++ Exit 0 :: b /\ In (Mine (BRet c BcWake 0)) a.
Proof. exact exit_wake. Qed.
Print Assumptions C94_wake_exit.
(** -c and -f: what is printed at the end, when there is no signal. *)
Theorem C94_forced : forall o pid t evs l t' r, treach honest o pid t evs -> tstep honest o pid t l t' -> t_sig t = false -> In (Said (FdReady r)) l ->
  (forall c, In (Mine (BRet c (BcForce false) 0)) l -> r = false)
  /\ (forall c, In (Mine (BRet c (BcForce true) 0)) l -> (forall v, ~ In (Mine (BRet c (BcForce false) v)) l) -> r = true).
Proof. exact forced. Qed.
Print Assumptions C94_forced.
(** After a signal "bw-tool wait" does not leave with code 0, and does not close
    the handle, unless it had before. *)
Theorem C94_signal : forall o pid t evs, treach honest o pid t evs -> to_wake o = false -> forall e1 e2, evs = e1 ++ Signal :: e2 ->
  closes e1 \/ ~ closes e2 /\ ~ In (Exit 0) e2.
Proof. exact signalled. Qed.
Print Assumptions C94_signal.
(** With -w a signal while the tool waits should be reported and the handle
    closed (l.246-252).  That never happens: bw_wait_ul returns -3, and -2 is
    tested for. *)
Theorem C94_signal_refuted : forall o pid t evs, treach honest o pid t evs -> ~ In (Said SignalBlocked) evs.
Proof. exact dead_branch. Qed.
Print Assumptions C94_signal_refuted.

(** process 5 waits; process 6 wakes it *)
Definition o_wait := mktopts false false false false.
Definition s_wait := [KOpen 50; KOther (Op false 6 60); KCtl; KOther (Cl 1 BcWake); KSelect; KReady; KLast; KExit].
Example C94_wait_case : treach honest o_wait 5 (tt o_wait 5 s_wait) (te o_wait 5 s_wait) /\ In (Exit 0) (te o_wait 5 s_wait)
  /\ t_ph (tt o_wait 5 (firstn 4 s_wait)) = PBlock 0 /\ t_sig (tt o_wait 5 (firstn 4 s_wait)) = false /\ readable (t_y (tt o_wait 5 (firstn 4 s_wait))) 0
  /\ t_ph (tt o_wait 5 (firstn 3 s_wait)) = PBlock 0 /\ ~ readable (t_y (tt o_wait 5 (firstn 3 s_wait))) 0.
Proof.
  split; [apply (tplay_ok o_wait 5 s_wait); vm_compute; reflexivity|]. split; [vm_compute; tauto|]. do 2 (split; [vm_compute; reflexivity|]).
  split; [apply readableb_ok; vm_compute; reflexivity|]. split; [vm_compute; reflexivity|]. rewrite <- readableb_ok. vm_compute. discriminate.
Qed.
(** processes 5 and 7 wait, and process 8 is the tool that wakes them *)
Definition o_wake := mktopts true false false false.
Definition s_wake := [KOther (Op true 5 50); KOpen 70; KOther (Op true 7 51); KWake; KExit].
Example C94_wake_case : treach honest o_wake 8 (tt o_wake 8 s_wake) (te o_wake 8 s_wake) /\ In (Exit 0) (te o_wake 8 s_wake)
  /\ waiters (t_y (tt o_wake 8 (firstn 3 s_wake))) = [0; 2]%nat /\ tplay1 o_wake 8 (tt o_wake 8 (firstn 3 s_wake)) KWake = Some ([Mine (BRet 1 BcWake 0); Mine (BRet 1 BcClose 0)], tt o_wake 8 (firstn 4 s_wake)).
Proof. split; [apply (tplay_ok o_wake 8 s_wake); vm_compute; reflexivity|]. split; [vm_compute; tauto|]. split; vm_compute; reflexivity. Qed.
(** with -w, -f and -c: a second wake-up is cleared; with -f alone it is there *)
Definition o_fc (c : bool) := mktopts false true c true.
Definition s_fc := [KOpen 50; KOther (Op false 6 60); KCtl; KOther (Cl 1 BcWake); KWait false; KLast; KExit].
Example C94_forced_case :
  te (o_fc true) 5 s_fc = [Mine (BOpened 0 true true); Other (BOpened 1 false true); Mine (BRet 0 (BcCtl SIGFD) 0); Other (BRet 1 BcWake 0); Mine (BRet 0 BcWait 0); Said Awoken;
     Mine (BRet 0 (BcForce true) 0); Mine (BRet 0 (BcForce false) 0); Said (FdReady false); Mine (BRet 0 BcClose 0); Exit 0; Mine (BDied 5 None)]
  /\ treach honest (o_fc true) 5 (tt (o_fc true) 5 s_fc) (te (o_fc true) 5 s_fc)
  /\ treach honest (o_fc false) 5 (tt (o_fc false) 5 s_fc) (te (o_fc false) 5 s_fc) /\ In (Mine (BRet 0 (BcForce true) 0)) (te (o_fc false) 5 s_fc) /\ In (Said (FdReady true)) (te (o_fc false) 5 s_fc).
Proof.
  split; [vm_compute; reflexivity|]. split; [apply (tplay_ok (o_fc true) 5 s_fc); vm_compute; reflexivity|].
  split; [apply (tplay_ok (o_fc false) 5 s_fc); vm_compute; reflexivity|]. split; vm_compute; tauto.
Qed.
(** with -w and a signal, with no wake-up: bw_wait_ul returns -3 *)
Definition s_sig := [KOpen 50; KCtl; KSignal; KWait true; KLast; KExit].
Example C94_signal_case : treach honest (o_fc false) 5 (tt (o_fc false) 5 s_sig) (te (o_fc false) 5 s_sig)
  /\ te (o_fc false) 5 s_sig = [Mine (BOpened 0 true true); Mine (BRet 0 (BcCtl SIGFD) 0)] ++ Signal :: [Mine (BRet 0 (BcOther SIGFD) (-3));
     Mine (BRet 0 (BcForce true) 0); Said (FdReady true); Said GotSignal; Exit (-1); Mine (BDied 5 None)].
Proof. split; [apply (tplay_ok (o_fc false) 5 s_sig); vm_compute; reflexivity|]. vm_compute. reflexivity. Qed.
