(** * FairSpec: executions that go on forever (specification of C58, C59) *)
From Verif Require Export Spec.

(** the events before the [i]th step *)
Fixpoint upto (V : nat -> list event) (i : nat) : list event :=
  match i with O => [] | S i => upto V i ++ V i end.

(** An execution without end, all of whose actions satisfy [P]: the states [W],
    the actions [A], the events [V].  (An action that is not possible in the
    current state changes nothing, so an execution that ends is one that goes on
    with such actions.)  As in [reach], fewer than 2^64 messages are written if
    the ring is a FARM ring. *)
Record forever (P : world -> action -> Prop) (r : ring) (W : nat -> world) (A : nat -> action) (V : nat -> list event) : Prop := mkfv {
  fv_start : exists fsz, fresh r fsz /\ W O = world0 r fsz;
  fv_act : forall i, P (W i) (A i);
  fv_step : forall i, step (W i) (A i) = Ok (W (S i), V i);
  fv_bound : forall i, seq_bound r (upto V i) }.

(** The scheduler and the kernel are (weakly) fair to client [c]: it does not
    happen that forever [c] could take the lock and does not, or that forever a
    wake-up is queued on the socket it sleeps on and it is not woken. *)
Definition fair (W : nat -> world) (A : nat -> action) (V : nat -> list event) (c : nat) : Prop :=
  (forall i, exists j, (i <= j)%nat
     /\ (pending c (upto V j) = None \/ asleep (W j) c = true \/ exists e, A j = ARun c e /\ e_lock e = true))
  /\ (forall i, exists j, (i <= j)%nat
     /\ (asleep (W j) c = false \/ (forall s p, wait_sid (cli (W j) c) = Some (s, p) -> ~ readable (W j) s) \/ A j = AWake c)).

(** the call [c] is in ends *)
Definition ends (c : nat) (ev : list event) : Prop := (exists x, In (ERet c x) ev) \/ In (ECrash c) ev.

(** some client other than [c] gets messages; writes some *)
Definition taken_by_other (c : nat) (ev : list event) : Prop :=
  exists c' v b io, c' <> c /\ In (ERet c' (RetRead v b io)) ev /\ 0 < v.
Definition written_by_other (c : nat) (ev : list event) : Prop :=
  exists c' ms, c' <> c /\ In (ECommit c' ms) ev.

(** the messages that client [c], inside a call, is trying to add to the ring *)
Definition adding (w : world) (c : nat) : list bytes :=
  match c_pc (cli w c) with RunW _ iov _ _ | WaitW _ iov _ _ => iov | _ => [] end.

(** client [d] calls shr_read in the step [a], with a buffer for all that the ring may hold *)
Definition reads_now (r : ring) (d : nat) (a : action) : Prop :=
  exists buf niov, a = ACall d (CRead buf niov) /\ r_n r <= usable buf /\ 0 < niov.
(** the selectable descriptor of the non-blocking reader [d] is not readable *)
Definition not_ready (w : world) (d : nat) : Prop :=
  nonblocking w d = true /\ forall s, data_sock w d = Some s -> ~ readable w s.

(** From the [i]th step on client [d] does nothing but read, again and again,
    with buffers for all that the ring may hold; it always obtains the lock.
    If it is a non-blocking reader it may wait with its next read while its
    descriptor is not readable. *)
Record keeps_reading (r : ring) (W : nat -> world) (A : nat -> action) (V : nat -> list event) (d i : nat) : Prop := mkkr {
  kr_fair : fair W A V d;
  kr_live : forall j, (i <= j)%nat -> c_live (cli (W j) d) = true /\ has (c_flags (cli (W j) d)) SHR_RDONLY = true;
  kr_calls : forall j x, (i <= j)%nat -> pending d (upto V j) = Some x -> exists buf niov, x = CRead buf niov /\ r_n r <= usable buf /\ 0 < niov;
  kr_again : forall j, exists k, (j <= k)%nat /\ (pending d (upto V k) <> None \/ reads_now r d (A k) \/ not_ready (W k) d);
  kr_lock : forall j e, (i <= j)%nat -> A j = ARun d e -> e_lock e = true }.

(** A program with an event loop: [d] was opened with O_NONBLOCK; from the [i]th
    step on it calls shr_read, and does so only in states in which its
    descriptor is readable; and it does not happen that from some step on the
    descriptor is readable for ever and [d] never again calls shr_read. *)
Record event_loop (r : ring) (W : nat -> world) (A : nat -> action) (V : nat -> list event) (d i : nat) : Prop := mkel {
  el_fair : fair W A V d;
  el_live : forall j, (i <= j)%nat -> c_live (cli (W j) d) = true /\ has (c_flags (cli (W j) d)) SHR_RDONLY = true /\ nonblocking (W j) d = true;
  el_rest : pending d (upto V i) = None;
  el_calls : forall j x, (i <= j)%nat -> A j = ACall d x -> reads_now r d (A j) /\ exists s, data_sock (W j) d = Some s /\ readable (W j) s;
  el_again : forall j, exists k, (j <= k)%nat /\ (reads_now r d (A k) \/ not_ready (W k) d);
  el_lock : forall j e, (i <= j)%nat -> A j = ARun d e -> e_lock e = true }.
