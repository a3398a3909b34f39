(** * TraceSpec: what a user may see, in terms of an atomic queue (C52)

    [atomic a0 evs a p]: the calls and returns [evs] can be explained by an
    atomic queue (CrashSpec.v) that starts as [a0]: every write takes effect at
    one instant during the call (the event ECommit), every read at the instant
    it returns, and everything the callers were told is what the queue answers
    at that instant.  [a] is the queue afterwards; [p] gives each reader's
    position and count of missed messages (which matter with SHR_FARM).

    [K] says what may happen to the queue when a process dies: nothing in the
    executions of Sys.v, where processes die outside critical sections
    ([unharmed]); in those of Kill.v, where they die anywhere, [maimed] (C53). *)
From Verif Require Export CrashSpec.

Definition put (p : nat -> Z * Z) (c : nat) (x : Z * Z) : nat -> Z * Z := fun c' => if is c c' then x else p c'.
(** the flags client [c] was opened with *)
Definition flags_of (c : nat) (evs : list event) : Z :=
  fold_left (fun acc e => match e with EOpen f (Some c') => if is c c' then f else acc | _ => acc end) evs 0.
(** the messages client [c] put in the ring during the call it is in *)
Definition done (c : nat) (evs : list event) : list bytes :=
  fold_left (fun acc e => match e with
    | ECall c' _ => if is c c' then [] else acc
    | ECommit c' ms => if is c c' then acc ++ ms else acc
    | _ => acc end) evs [].

(** calls that may put messages in the ring *)
Definition writing (o : option call) : Prop :=
  match o with Some (CWrite _) | Some (CFlush _) | Some CClose => True | _ => False end.

(** Returns at which the queue does not change; [o] is the call, [fl] the
    flags of the caller, [dn] what it put in the ring during the call. *)
Definition fair_ret (a : aq) (fl : Z) (o : option call) (dn : list bytes) (x : ret) : Prop :=
  match o, x with
  | Some (CRead buf _), RetRead v out iov => (v = -1 \/ v = -3) /\ out = buf /\ iov = []
  | Some (CWrite iov), RetWrite iov' v => iov' = iov
      /\ (v = nbytes iov \/ v = 0 \/ v = -1 \/ v = -3)
      (* 0: the queue is full *)
      /\ (v = 0 -> has fl SHR_NONBLOCK = true /\ exists ms, aq_step a (QWrite ms) = Some (a, WFull)
                   /\ (has fl SHR_BUFFERED = false -> ms = iov))
      (* all of it, or nothing (-1 may be either, see C35) *)
      /\ (has fl SHR_BUFFERED = false ->
            (v = nbytes iov /\ dn = iov) \/ (v <> nbytes iov /\ dn = []) \/ (v = -1 /\ dn = iov))
  | Some (CStat _), RetStat _ v None => v = -1
  | Some (CStat _), RetStat _ _ (Some so) =>
      so_bn so = q_n a /\ so_mm so = q_mm a /\ so_bu so = nbytes (q_unread a) /\ so_mu so = zlen (q_unread a)
  | Some (CFlush _), RetFlush _ | Some CClose, RetClosed | Some (CApp _ _ _), RetApp _ _ _
  | Some (CCtl _), RetInt _ | Some CSelFd, RetSel _ => True
  | _, _ => False
  end.

(** what the death of a process may do to the queue: [fl] its flags, [o] the
    call it is in, [dn] what it put in the ring during that call *)
Definition harm := Z -> option call -> list bytes -> aq -> aq -> Prop.
Definition unharmed : harm := fun _ _ _ a a' => a' = a.

Inductive atomic (K : harm) (a0 : aq) : list event -> aq -> (nat -> Z * Z) -> Prop :=
| at_nil : atomic K a0 [] a0 (fun _ => (0, 0))
(** a reader of a FARM ring starts at the eldest message *)
| at_open evs a p flags c : atomic K a0 evs a p ->
    atomic K a0 (evs ++ [EOpen flags (Some c)]) a (put p c (q_seq a, 0))
| at_open_fail evs a p flags : atomic K a0 evs a p -> atomic K a0 (evs ++ [EOpen flags None]) a p
| at_crash evs a p c a' : atomic K a0 evs a p -> K (flags_of c evs) (pending c evs) (done c evs) a a' ->
    atomic K a0 (evs ++ [ECrash c]) a' p
(** one call at a time per handle *)
| at_call evs a p c x : atomic K a0 evs a p -> pending c evs = None -> atomic K a0 (evs ++ [ECall c x]) a p
(** the instant of a write *)
| at_write evs a p c ms a' : atomic K a0 evs a p -> writing (pending c evs) ->
    aq_step a (QWrite ms) = Some (a', WOk) -> atomic K a0 (evs ++ [ECommit c ms]) a' p
(** the instant of a read *)
| at_read evs a p c buf niov taken q md a' : atomic K a0 evs a p -> pending c evs = Some (CRead buf niov) ->
    aq_step a (QRead (fst (p c)) (snd (p c)) buf niov) = Some (a', RGot taken q md) ->
    atomic K a0 (evs ++ [ERet c (RetRead (match taken with [] => -2 | _ => nbytes taken end)
                                 (concat taken ++ skipn (length (concat taken)) buf) (tile 0 taken))]) a' (put p c (q, md))
| at_empty evs a p c buf niov q md : atomic K a0 evs a p -> pending c evs = Some (CRead buf niov) ->
    has (flags_of c evs) SHR_NONBLOCK = true ->
    aq_step a (QRead (fst (p c)) (snd (p c)) buf niov) = Some (a, RNone q md) ->
    atomic K a0 (evs ++ [ERet c (RetRead 0 buf [])]) a (put p c (q, md))
(** a blocking reader found nothing and goes to sleep *)
| at_sleep evs a p c buf niov q md : atomic K a0 evs a p -> pending c evs = Some (CRead buf niov) ->
    has (flags_of c evs) SHR_NONBLOCK = false ->
    aq_step a (QRead (fst (p c)) (snd (p c)) buf niov) = Some (a, RNone q md) ->
    atomic K a0 evs a (put p c (q, md))
(** shr_farm_stat: the messages missed so far *)
| at_farm evs a p c reset : atomic K a0 evs a p -> pending c evs = Some (CFarmStat reset) ->
    atomic K a0 (evs ++ [ERet c (RetFarm reset (snd (p c)))]) a (if reset then put p c (fst (p c), 0) else p)
| at_ret evs a p c x : atomic K a0 evs a p ->
    fair_ret a (flags_of c evs) (pending c evs) (done c evs) x -> atomic K a0 (evs ++ [ERet c x]) a p.

(** ** Processes killed inside critical sections (C53) *)

(** A writer of [ms], killed before its messages are in the ring, may have
    discarded the unread messages that would not fit (SHR_DROP), and then the
    old ones. *)
Definition discarded (a : aq) (ms : list bytes) : aq :=
  mkaq (q_n a) (q_mm a) (q_drop a) (q_farm a) (q_seq a) (q_kept a) (fit_suffix (q_n a) (q_mm a) ms (q_unread a)).
Definition evicted (a : aq) (ms : list bytes) : aq :=
  let kept := fit_suffix (q_n a) (q_mm a) ms (q_kept a) in
  mkaq (q_n a) (q_mm a) (q_drop a) (q_farm a) (u64 (q_seq a + (zlen (q_kept a) - zlen kept))) kept
       (fit_suffix (q_n a) (q_mm a) ms (q_unread a)).
(** A reader may have taken the first [j] of the messages it was to get. *)
Definition taken_by (a : aq) (j : nat) : aq :=
  mkaq (q_n a) (q_mm a) (q_drop a) (q_farm a) (q_seq a) (q_kept a) (skipn j (q_unread a)).
Definition maimed : harm := fun fl o dn a a' =>
  a' = a \/
  match o with
  | Some (CRead buf niov) => q_farm a = false
      /\ exists j, (j <= length (take_fit (Z.to_nat niov) (usable buf) (q_unread a)))%nat /\ a' = taken_by a j
  | Some (CWrite _) | Some (CFlush _) | Some CClose =>
      exists ms, okb (q_n a) (q_mm a) ms = true
      /\ (has fl SHR_BUFFERED = false -> o = Some (CWrite ms) /\ dn = [])
      /\ room (q_n a) (q_mm a) ms (q_unread a) || q_drop a = true
      /\ (a' = discarded a ms \/ a' = evicted a ms)
  | _ => False
  end.

(** [l] is [m] with some elements left out *)
Inductive subseq {A} : list A -> list A -> Prop :=
| ss_nil : subseq [] []
| ss_keep x l m : subseq l m -> subseq (x :: l) (x :: m)
| ss_skip x l m : subseq l m -> subseq l (x :: m).
(** no process was killed during a call of shr_read *)
Definition no_reader_killed (evs : list event) : Prop :=
  forall e1 c e2 buf niov, evs = e1 ++ ECrash c :: e2 -> pending c e1 <> Some (CRead buf niov).
