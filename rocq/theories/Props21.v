(** * Properties proved about the model: lib/bw.h as a library of its own
    (C74-C78).  Statements only; every proof is [exact] of a lemma. *)
From Verif Require Import BwPlay.

(** ** C74: bw_wake wakes every waiter *)

(** Once bw_wake has returned 0, every handle that is open for waiting is
    readable, in whatever order handles were opened and closed and processes
    killed.  Missing: the case in which the kernel gives a new waiter's socket
    the name of one that is closed ([honest] excludes it). *)
Theorem C74_wake_partial : forall y evs c y' c', breach honest y evs -> bstep honest y (BRet c BcWake 0) y' -> waiting y c' -> readable y' c'.
Proof. exact wake_all. Qed.
Print Assumptions C74_wake_partial.
(** It stays readable until its owner takes the wake-up, closes it or ends. *)
Theorem C74_kept : forall y evs v y' c, breach honest y evs -> bstep honest y v y' -> readable y c -> ~ takes y c v -> readable y' c.
Proof. exact kept. Qed.
Print Assumptions C74_kept.
(** When no system call fails, bw_wake returns 0. *)
Theorem C74_wake_returns : forall y evs c h e, breach honest y evs -> opened_as y c h -> ~ waiting y c -> working y e ->
  exists s o, exec_all (call_p e h BcWake) (y_s y) = Ok (s, (o, 0)) /\ bstep honest y (BRet c BcWake 0) (mkbsys s (set_nat (y_cl y) c (bcli y c <| bc_h := o |>))).
Proof. exact wake_returns. Qed.
Print Assumptions C74_wake_returns.

(** A waiter (process 1), a waker, two more waiters and a waker; the first is
    killed, the last in bw_wake, having woken one waiter, and a process in
    bw_open, having taken the slot of the first. *)
Definition d74 := [Op true 1 50; Op false 2 60; Op true 3 51; Op true 4 52; Op false 6 61; Di 1; Ki 4 BcWake 5; KiO true 5 53 67].
Definition y74 := Eval vm_compute in yb false d74.
Definition v74 := Eval vm_compute in vb false d74.
Definition y74' := Eval vm_compute in yb false (d74 ++ [Cl 1 BcWake]).
Example C74_case : breach honest y74 v74 /\ bstep honest y74 (BRet 1 BcWake 0) y74' /\ waiters y74 = [2; 3]%nat /\ readable y74' 2 /\ readable y74' 3
  /\ ws_pid (nth 0 (h_wr (b_h (y_s y74))) ws_free) = 5 /\ nth_error v74 6 = Some (BDied 6 (Some (4%nat, BcWake))) /\ nth_error v74 7 = Some (BDied 5 None) /\ queued y74 2 = Some 1 /\ queued y74 3 = Some 0.
Proof.
  assert (R : breach honest y74 v74) by (apply (bplay_honest d74); vm_compute; reflexivity).
  assert (S : bstep honest y74 (BRet 1 BcWake 0) y74') by (apply (bplay1_step false y74 (Cl 1 BcWake)); vm_compute; reflexivity).
  split; [exact R|]. split; [exact S|]. split; [vm_compute; reflexivity|].
  split; [apply (C74_wake_partial _ _ _ _ _ R S); vm_compute; discriminate|]. split; [apply (C74_wake_partial _ _ _ _ _ R S); vm_compute; discriminate|].
  repeat split; vm_compute; reflexivity.
Qed.

(** With names given again it fails: process 1 waits and ends, process 3 gets
    the slot and by chance the same name.  The waker (process 2) has a
    connection of that name in that slot, to the socket of process 1, and
    bw_sync keeps it.  Sending fails, the slot is cleared, and bw_wake returns
    0: process 3 is not woken, then or by any later bw_wake. *)
Definition d74r := [Op true 1 50; Op false 2 60; Di 1; Op true 3 50].
Definition y74r := Eval vm_compute in yb true d74r.
Definition v74r := Eval vm_compute in vb true d74r.
Definition y74r' := Eval vm_compute in yb true (d74r ++ [Cl 1 BcWake]).
Definition y74r'' := Eval vm_compute in yb true (d74r ++ [Cl 1 BcWake; Cl 1 BcWake]).
Theorem C74_reuse_refuted : exists y evs c y' c' y'', breach recycling y evs /\ bstep recycling y (BRet c BcWake 0) y' /\ waiting y c'
  /\ queued y' c' = Some 0 /\ bstep recycling y' (BRet c BcWake 0) y'' /\ queued y'' c' = Some 0.
Proof.
  exists y74r, v74r, 1%nat, y74r', 2%nat, y74r''.
  split; [apply (bplay_recycling d74r); vm_compute; reflexivity|].
  split; [apply (bplay1_step true y74r (Cl 1 BcWake)); vm_compute; reflexivity|].
  split; [vm_compute; discriminate|]. split; [vm_compute; reflexivity|].
  split; [apply (bplay1_step true y74r' (Cl 1 BcWake)); vm_compute; reflexivity|]. vm_compute. reflexivity.
Qed.
Print Assumptions C74_reuse_refuted.

(** ** C75: bw_force, bw_ready_ul and bw_wait_ul *)

(** What they return, and how many wake-ups are queued afterwards ([after]:
    bw_force(1) at least one, bw_force(0) none, both only if 0 is returned;
    bw_ready_ul and bw_wait_ul one less).  bw_wait_ul returns 0 only if there was
    one, and -3 for another descriptor. *)
Theorem C75_own : forall y evs c x v y' n, breach honest y evs -> bstep honest y (BRet c x v) y' -> queued y c = Some n -> x <> BcClose ->
  queued y' c = Some (match x with
                      | BcForce want => if v =? 0 then if want then Z.max n 1 else 0 else n
                      | BcReady | BcWait => Z.max 0 (n - 1)
                      | _ => n
                      end)
  /\ match x with BcReady => v = 0 | BcWait => v = 0 /\ 0 < n | BcOther _ => v = -3 | BcWake => False | _ => v = 0 \/ v = -1 end.
Proof. exact own. Qed.
Print Assumptions C75_own.
(** A new waiter has none. *)
Theorem C75_new : forall y evs c y', breach honest y evs -> bstep honest y (BOpened c true true) y' -> queued y' c = Some 0.
Proof. exact new_quiet. Qed.
Print Assumptions C75_new.

(** ** C76: there are no more wake-ups than were sent *)

(** [credit]: bw_wake adds at most one (none if it fails), bw_force(1) one if
    there is none, whatever else the processes do. *)
Theorem C76_no_more : forall y evs c n, breach honest y evs -> queued y c = Some n -> 0 <= n <= credit c evs.
Proof. exact no_more. Qed.
Print Assumptions C76_no_more.

(** Three wake-ups, one of them by a waker that was killed; one taken.  The
    second waiter is drained. *)
Definition d76 := d74 ++ [Cl 1 BcWake; Cl 3 BcWait; Cl 1 BcWake; Cl 2 (BcForce false); Cl 2 (BcForce true); Cl 2 (BcForce true)].
Definition y76 := Eval vm_compute in yb false d76.
Definition v76 := Eval vm_compute in vb false d76.
Example C76_case : breach honest y76 v76 /\ queued y76 2 = Some 1 /\ credit 2 v76 = 1 /\ queued y76 3 = Some 1 /\ credit 3 v76 = 2.
Proof. split; [apply (bplay_honest d76); vm_compute; reflexivity|]. repeat split; vm_compute; reflexivity. Qed.
Definition y76a := Eval vm_compute in yb false (d74 ++ [Cl 1 BcWake]).
Definition v76a := Eval vm_compute in vb false (d74 ++ [Cl 1 BcWake]).
Definition y76b := Eval vm_compute in yb false (d74 ++ [Cl 1 BcWake; Cl 3 BcWait]).
Definition y76c := Eval vm_compute in yb false (d74 ++ [Op true 7 54]).
Example C75_case : breach honest y76a v76a /\ bstep honest y76a (BRet 3 BcWait 0) y76b /\ queued y76a 3 = Some 1 /\ queued y76b 3 = Some 0
  /\ bstep honest y74 (BOpened 5 true true) y76c /\ queued y76c 5 = Some 0.
Proof.
  split; [apply (bplay_honest (d74 ++ [Cl 1 BcWake])); vm_compute; reflexivity|].
  split; [apply (bplay1_step false y76a (Cl 3 BcWait)); vm_compute; reflexivity|]. split; [vm_compute; reflexivity|]. split; [vm_compute; reflexivity|].
  split; [apply (bplay1_step false y74 (Op true 7 54)); vm_compute; reflexivity|]. vm_compute. reflexivity.
Qed.

(** ** C77: there is room for 64 waiters *)
Theorem C77_max : forall y evs, breach honest y evs -> (length (waiters y) <= 64)%nat.
Proof. exact max_64. Qed.
Print Assumptions C77_max.
(** And bw_open for waiting succeeds exactly if there are fewer: slots of
    processes that ended, at whatever statement, are reclaimed. *)
Theorem C77_open : forall y evs e pid, breach honest y evs -> working y e -> 0 < pid ->
  exists s o, exec_all (open_p e true pid) (y_s y) = Ok (s, o) /\ (o <> None <-> (length (waiters y) < 64)%nat)
    /\ bstep honest y (BOpened (length (y_cl y)) true (if o then true else false)) (mkbsys s (y_cl y ++ [mkbcl pid o])).
Proof. exact opens. Qed.
Print Assumptions C77_open.
(** 64 waiters; the 65th fails.  One is killed in bw_close, before its slot is
    cleared: then it succeeds. *)
Definition d77 := map (fun i => Op true (Z.of_nat i + 100) (Z.of_nat i + 1000)) (seq 0 64).
Definition y77 := Eval vm_compute in yb false d77.
Definition v77 := Eval vm_compute in vb false d77.
Definition y77k := Eval vm_compute in yb false (d77 ++ [Ki 17 BcClose 1]).
Definition v77k := Eval vm_compute in vb false (d77 ++ [Ki 17 BcClose 1]).
Lemma work_ok y nm : name_ok false (b_ks (y_s y)) nm = true -> working y (benv (b_ks (y_s y)) nm).
Proof. intros H. split; [apply benv_good|]. split; [apply (proj2 (name_rule false y nm H))|]. auto. Qed.
Example C77_case : breach honest y77 v77 /\ length (waiters y77) = 64%nat /\ working y77 (benv (b_ks (y_s y77)) 50)
  /\ breach honest y77k v77k /\ length (waiters y77k) = 63%nat /\ working y77k (benv (b_ks (y_s y77k)) 50)
  /\ ws_pid (nth 17 (h_wr (b_h (y_s y77k))) ws_free) = 117.
Proof.
  split; [apply (bplay_honest d77); vm_compute; reflexivity|]. split; [vm_compute; reflexivity|]. split; [apply work_ok; vm_compute; reflexivity|].
  split; [apply (bplay_honest (d77 ++ [Ki 17 BcClose 1])); vm_compute; reflexivity|]. split; [vm_compute; reflexivity|]. split; [apply work_ok; vm_compute; reflexivity|]. vm_compute. reflexivity.
Qed.

(** ** C78: calls in the mode of the handle return; others are stopped *)

(** bw_wait_ul returns if the handle is readable, and blocks otherwise.  A call
    that is not for the handle's mode ends in an assertion. *)
Theorem C78_modes : forall y evs c h e x, breach honest y evs -> opened_as y c h -> (forall fd, x <> BcOther fd) ->
  (allowed y c x -> (x = BcWait -> readable y c) -> exists s o v, exec_all (call_p e h x) (y_s y) = Ok (s, (o, v)) /\ (v = 0 \/ v = -1))
  /\ (waiting y c -> ~ readable y c -> exec_all (call_p e h BcWait) (y_s y) = Stuck)
  /\ (~ allowed y c x -> exec_all (call_p e h x) (y_s y) = Abort).
Proof. exact modes. Qed.
Print Assumptions C78_modes.
Example C78_case : breach honest y74 v74 /\ (exists h, opened_as y74 1 h) /\ allowed y74 1 BcWake /\ ~ allowed y74 1 BcReady /\ allowed y74 2 BcWait /\ ~ allowed y74 2 BcWake.
Proof.
  split; [apply (bplay_honest d74); vm_compute; reflexivity|]. split; [eexists; vm_compute; reflexivity|].
  split; [vm_compute; auto|]. split; [vm_compute; auto|]. split; [vm_compute; discriminate|]. vm_compute. intros H. apply H. discriminate.
Qed.
