(** * KillFairSpec: executions that go on forever and in which processes are
    killed (specification of C79).  Definitions only. *)
From Verif Require Export FairSpec KillSpec.

(** What may happen at one point: an action is taken, or a client (one about to
    open the ring) is killed before the statement on [line] of what it executes
    in environment [e], leaving the shared memory [m]. *)
Inductive deed :=
| Acts (a : action)
| Killed (c : nat) (e : env) (line : Z) (m : shm)
| KilledOpening (e : env) (flags pid line : Z) (m : shm).
Definition does (P : world -> action -> Prop) (w : world) (d : deed) (w' : world) (ev : list event) : Prop :=
  match d with
  | Acts a => P w a /\ step w a = Ok (w', ev)
  | Killed c e line m => P w (ARun c e) /\ c_live (cli w c) = true /\ dies_at (section e (cli w c)) (shared w) line m
      /\ untorn w c m line = true /\ w' = killed w c m /\ ev = kill_events w c line
  | KilledOpening e flags pid line m => P w (AOpen e flags pid) /\ dies_at (open_section e w flags pid) (shared w) line m
      /\ w' = killed_opening w m /\ ev = []
  end.
(** An execution without end, as [forever] in FairSpec.v, but with kills. *)
Record kforever (P : world -> action -> Prop) (r : ring) (W : nat -> world) (D : nat -> deed) (V : nat -> list event) : Prop := mkkf {
  kf_start : exists fsz, fresh r fsz /\ W O = world0 r fsz;
  kf_does : forall i, does P (W i) (D i) (W (S i)) (V i);
  kf_bound : forall i, seq_bound r (upto V i) }.
(** [fair] of FairSpec.v *)
Definition kfair (W : nat -> world) (D : nat -> deed) (V : nat -> list event) (c : nat) : Prop :=
  (forall i, exists j, (i <= j)%nat
     /\ (pending c (upto V j) = None \/ asleep (W j) c = true \/ exists e, D j = Acts (ARun c e) /\ e_lock e = true))
  /\ (forall i, exists j, (i <= j)%nat
     /\ (asleep (W j) c = false \/ (forall s p, wait_sid (cli (W j) c) = Some (s, p) -> ~ readable (W j) s) \/ D j = Acts (AWake c))).
(** Messages may be lost to a client [c]: another is killed in shr_read, or, in a
    ring with DROP, in shr_write, shr_flush or shr_close. *)
Definition lost_to_kill (r : ring) (V : nat -> list event) (c j : nat) : Prop :=
  exists c', c' <> c /\ In (ECrash c') (V j)
  /\ match pending c' (upto V j) with
     | Some (CRead _ _) => r_farm r = false
     | Some (CWrite _) | Some (CFlush _) | Some CClose => r_drop r = true
     | _ => False
     end.

(** ** starting afresh (C92) *)
(** From the [i]th step on no process is killed in the middle of a call. *)
Definition no_kills (D : nat -> deed) (i : nat) : Prop := forall j, (i <= j)%nat -> exists a, D j = Acts a.
(** As [keeps_reading] of FairSpec.v, of a reader that is not inside a call at
    the [i]th step.  It may wait with its next read while there is nothing for
    it to read. *)
Record reads_on (r : ring) (W : nat -> world) (D : nat -> deed) (V : nat -> list event) (d i : nat) : Prop := mkro {
  ro_fair : kfair W D V d;
  ro_live : forall j, (i <= j)%nat -> c_live (cli (W j) d) = true /\ has (c_flags (cli (W j) d)) SHR_RDONLY = true;
  ro_rest : pending d (upto V i) = None;
  ro_calls : forall j x, (i <= j)%nat -> pending d (upto V j) = Some x -> exists buf niov, x = CRead buf niov /\ r_n r <= usable buf /\ 0 < niov;
  ro_again : forall j, exists k, (j <= k)%nat /\ (pending d (upto V k) <> None \/ (exists a, D k = Acts a /\ reads_now r d a)
    \/ available (w_ring (W k)) (c_q (cli (W k) d)) = []);
  ro_lock : forall j e, (i <= j)%nat -> D j = Acts (ARun d e) -> e_lock e = true }.

(** ** a program with an event loop (C96) *)
(** As [event_loop] of FairSpec.v, with kills: [d] was opened with O_NONBLOCK and
    is in no call at the [i]th step, when its descriptor is readable if there is
    something for it to read; from then on it calls shr_read, and does so only in
    states in which its descriptor is readable. *)
Record kevent_loop (r : ring) (W : nat -> world) (D : nat -> deed) (V : nat -> list event) (d i : nat) : Prop := mkkl {
  kl_fair : kfair W D V d;
  kl_live : forall j, (i <= j)%nat -> c_live (cli (W j) d) = true /\ has (c_flags (cli (W j) d)) SHR_RDONLY = true /\ nonblocking (W j) d = true;
  kl_rest : pending d (upto V i) = None;
  kl_first : available (w_ring (W i)) (c_q (cli (W i) d)) = [] \/ exists s, data_sock (W i) d = Some s /\ readable (W i) s;
  kl_calls : forall j x, (i <= j)%nat -> D j = Acts (ACall d x) -> reads_now r d (ACall d x) /\ exists s, data_sock (W j) d = Some s /\ readable (W j) s;
  kl_again : forall j, exists k, (j <= k)%nat /\ ((exists a, D k = Acts a /\ reads_now r d a) \/ not_ready (W k) d);
  kl_lock : forall j e, (i <= j)%nat -> D j = Acts (ARun d e) -> e_lock e = true }.
