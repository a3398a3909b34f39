(** * Spec: the vocabulary in which the properties are stated.

    Small on purpose, and independent of the code model except for the names
    of the ring fields and events it looks at. *)
From Verif Require Export Sys.

(** ** what is in the ring *)

(** [len] bytes from position [pos] of the circular buffer [d] *)
Definition circ (d : bytes) (pos len : Z) : bytes := sub pos len (d ++ d).

(** the messages in [cnt] consecutive slots, the first one being [s] *)
Fixpoint walk (r : ring) (s : Z) (cnt : nat) : list bytes :=
  match cnt with
  | O => []
  | S c => let sl := znth (mkslot 0 0) (r_mv r) s in
           circ (r_d r) (sl_pos sl) (sl_len sl) :: walk r ((s + 1) mod r_mm r) c
  end.
(** unread messages, in the order they will be read *)
Definition ring_unread (r : ring) : list bytes := walk r (r_r r) (Z.to_nat (r_m r)).
(** all messages still present, read or not, eldest first *)
Definition ring_retained (r : ring) : list bytes := walk r (r_e r) (Z.to_nat (r_mp r)).

(** ** the abstract queue *)
Definition nbytes (ms : list bytes) : Z := zlen (concat ms).

(** [iov] can be added to [ms] in a ring of [n] bytes and [mm] slots *)
Definition room (n mm : Z) (iov ms : list bytes) : bool :=
  (nbytes ms + nbytes iov <=? n) && (zlen ms + zlen iov <=? mm).

(** the longest suffix of [ms] that leaves room for [iov] *)
Fixpoint fit_suffix (n mm : Z) (iov ms : list bytes) : list bytes :=
  if room n mm iov ms then ms else
  match ms with
  | [] => []
  | _ :: t => fit_suffix n mm iov t
  end.

(** the messages a read of at most [niov] messages into [len] bytes takes
    from the front of [ms] *)
Fixpoint take_fit (niov : nat) (len : Z) (ms : list bytes) : list bytes :=
  match niov, ms with
  | S niov', m :: t => if zlen m <=? len then m :: take_fit niov' (len - zlen m) t else []
  | _, _ => []
  end.

(** consecutive (offset, length) pairs tiling a buffer *)
Fixpoint tile (off : Z) (ms : list bytes) : list (Z * Z) :=
  match ms with
  | [] => []
  | m :: t => (off, zlen m) :: tile (off + zlen m) t
  end.

(** order-preserving merge: [c] is [a] and [b] interleaved *)
Inductive merge {A} : list A -> list A -> list A -> Prop :=
| merge_nil : merge [] [] []
| merge_l x a b c : merge a b c -> merge (x :: a) b (x :: c)
| merge_r x a b c : merge a b c -> merge a (x :: b) (x :: c).

(** ** reading an execution *)

(** the messages a read handed to its caller: the buffer cut up by the iovecs *)
Definition read_msgs (x : ret) : list bytes :=
  match x with
  | RetRead _ buf iov => map (fun p => sub (fst p) (snd p) buf) iov
  | _ => []
  end.

Definition is (c c' : nat) : bool := Nat.eqb c c'.
(** messages that entered the ring, in order *)
Definition committed (evs : list event) : list bytes :=
  flat_map (fun e => match e with ECommit _ ms => ms | _ => [] end) evs.
Definition committed_by (c : nat) (evs : list event) : list bytes :=
  flat_map (fun e => match e with ECommit c' ms => if is c c' then ms else [] | _ => [] end) evs.
(** messages handed to readers, in order *)
Definition delivered (evs : list event) : list bytes :=
  flat_map (fun e => match e with ERet _ x => read_msgs x | _ => [] end) evs.
Definition delivered_to (c : nat) (evs : list event) : list bytes :=
  flat_map (fun e => match e with ERet c' x => if is c c' then read_msgs x else [] | _ => [] end) evs.
(** messages whose shr_writev returned a positive count to client [c] *)
Definition accepted_by (c : nat) (evs : list event) : list bytes :=
  flat_map (fun e => match e with
    | ERet c' (RetWrite iov r) => if is c c' && (r >? 0) then iov else []
    | _ => [] end) evs.

(** ** executions *)

(** Arguments for which shr_appdata stays within the buffers (src/shr.c
    l.1017-1040): buffers are *sz long and, for a get into a caller buffer,
    *sz does not exceed the appdata length (C31 is about what happens if it
    does). *)
Definition app_args_ok (r : ring) (get : getarg) (set : option bytes) (sz : Z) : Prop :=
  0 <= sz /\
  match get, set with
  | GBuf b, None => zlen b = sz /\ sz <= r_app_len r
  | GBuf b, Some s => zlen b = sz /\ zlen s = sz
  | GNull, Some s => zlen s = sz
  | _, _ => True
  end.

(** What the API asks of a caller holding a handle opened with [flags]: read
    with a reader's handle, write with a writer's, iovec elements of memory
    that can exist, and no empty element after the first (C34 is about what
    happens otherwise). *)
Definition call_ok (r : ring) (flags : Z) (x : call) : Prop :=
  match x with
  | CRead _ niov => has flags SHR_RDONLY = true /\ 0 <= niov
  | CWrite iov => has flags SHR_WRONLY = true
      /\ Forall (fun b => zlen b <= SSIZE_MAX) iov /\ Forall (fun b => 0 < zlen b) (tl iov)
  | CFlush _ => has flags SHR_WRONLY = true
  | CFarmStat _ => has flags SHR_RDONLY = true
  | CApp get set sz => app_args_ok r get set sz
  | CClose | CStat _ | CCtl _ | CSelFd => True
  end.

(** Callers obey the API, and open as a reader or as a writer (C29 is about
    what happens if both are asked for).  Nothing is assumed of the
    environment. *)
Definition contract (w : world) (a : action) : Prop :=
  match a with
  | AOpen _ flags pid => 0 <= flags /\ 0 < pid
      /\ has flags SHR_RDONLY && has flags SHR_WRONLY = false
  | ACall c x => c_live (cli w c) = true -> c_pc (cli w c) = Idle ->
      call_ok (w_ring w) (c_flags (cli w c)) x
  | _ => True
  end.

(** The executions from [w0] in which every action satisfies [P]: any number
    of processes, any interleaving. *)
Inductive exec (P : world -> action -> Prop) (w0 : world) : world -> list event -> Prop :=
| exec_nil : exec P w0 w0 []
| exec_step w evs a w' ev : exec P w0 w evs -> P w a -> step w a = Ok (w', ev) ->
    exec P w0 w' (evs ++ ev).

(** A ring just made by a successful shr_init whose sizes are representable:
    the file size fits off_t, the slot table fits size_t. *)
Record fresh (r : ring) (fsz : Z) : Prop := mkfresh {
  fr_init : exists data_sz flags appsize maxarg l app,
    init_layout data_sz flags appsize maxarg = Ok (Some l)
    /\ r = ring_of_layout l flags app
    /\ 0 <= data_sz /\ 0 <= flags /\ 0 <= appsize /\ 0 <= maxarg
    /\ zlen app = appsize
    /\ SIZEOF_CTRL + data_sz + SIZEOF_PTR + SIZEOF_MSG * r_mm r + appsize <= SSIZE_MAX
    /\ l_sz l <= fsz }.

(** On a FARM ring sequence numbers are 64 bits wide; we consider executions
    that carry fewer than 2^64 messages. *)
Definition seq_bound (r : ring) (evs : list event) : Prop :=
  r_farm r = true -> zlen (committed evs) < W64.

(** a successful or attempted reset of the counters by shr_stat *)
Definition is_reset (e : event) : bool :=
  match e with ERet _ (RetStat true _ _) => true | _ => false end.
(** the events since the last reset *)
Definition since_reset (evs : list event) : list event :=
  fold_left (fun acc e => if is_reset e then [] else acc ++ [e]) evs [].
(** messages unread when the counters were last reset, as that call reported *)
Definition unread_at_reset (evs : list event) : Z :=
  fold_left (fun acc e => match e with
    | ERet _ (RetStat true _ (Some so)) => so_mu so | _ => acc end) evs 0.
Definition bytes_at_reset (evs : list event) : Z :=
  fold_left (fun acc e => match e with
    | ERet _ (RetStat true _ (Some so)) => so_bu so | _ => acc end) evs 0.

(** ** calls in progress *)

(** the call client [c] is inside, after the events [evs] *)
Definition pending (c : nat) (evs : list event) : option call :=
  fold_left (fun acc e => match e with
    | ECall c' x => if is c c' then Some x else acc
    | ERet c' _ => if is c c' then None else acc
    | ECrash c' => if is c c' then None else acc
    | _ => acc end) evs None.

(** the messages a reader at position [q] of the write history (which only
    matters on a FARM ring) can still get *)
Definition available (r : ring) (q : Z) : list bytes :=
  if r_farm r then skipn (Z.to_nat (q - r_q r)) (ring_retained r) else ring_unread r.

(** ** a well-behaved environment *)

(** Socket calls do not fail, and has_pid_socket tells exactly whether the
    process has an open socket of that name.  (Taking the lock, allocation,
    autobind, msync and epoll set-up may still fail.) *)
Record good_sockets (ks : socks) (e : env) : Prop := mkgs {
  gs_socket : forall n, e_socket e n = true;
  gs_connect : forall n, e_connect e n = true;
  gs_send : forall n, e_send e n = true;
  gs_force : e_force e = true;
  gs_probe : forall pid name, e_probe e pid name = 0 <->
      ~ (exists k, In k ks /\ k_open k = true /\ k_pid k = pid /\ k_name k = name) }.
Definition good_env (w : world) (a : action) : Prop :=
  match a with
  | AOpen e _ _ | ARun _ e => good_sockets (w_ks w) e
  | _ => True
  end.
(** callers obey the API and socket calls do not fail *)
Definition reliable (w : world) (a : action) : Prop := contract w a /\ good_env w a.

(** the client is blocked in a call, waiting for a wake-up *)
Definition asleep (w : world) (c : nat) : bool :=
  match c_pc (cli w c) with WaitW _ _ _ _ | WaitR _ _ => true | _ => false end.
(** the messages in a writer's cache *)
Definition cache_msgs (ca : cache) : list bytes :=
  map (fun p => sub (fst p) (snd p) (ca_buf ca)) (firstn (Z.to_nat (ca_vm ca)) (ca_iov ca)).
(** the part of a caller's buffer shr_readv is willing to fill *)
Definition usable (buf : bytes) : Z := Z.min (zlen buf) SSIZE_MAX.

(** in addition, msync does not fail *)
Definition faultless (w : world) (a : action) : Prop :=
  reliable w a /\ match a with AOpen e _ _ | ARun _ e => e_msync e = true | _ => True end.
(** in addition, the lock is always obtained and no blocking call is
    interrupted by a signal or a descriptor registered by shr_ctl *)
Definition undisturbed (w : world) (a : action) : Prop :=
  faultless w a /\ match a with
    | AOpen e _ _ | ARun _ e => e_lock e = true /\ e_alloc e = true /\ e_bind e = true /\ e_self e = true
    | AEintr _ | APoll _ _ => False
    | _ => True end.

(** ** following the write history (FARM) *)

(** A reader that started at index [q0] of the history [h], got the messages
    [got] in order, skipped [k] messages, all of index below [old], and is now
    at index [q]. *)
Inductive follow (h : list bytes) (old q0 : Z) : list bytes -> Z -> Z -> Prop :=
| fo_start : follow h old q0 [] 0 q0
| fo_take got k q : follow h old q0 got k q -> 0 <= q < zlen h -> follow h old q0 (got ++ [znth [] h q]) k (q + 1)
| fo_skip got k q j : follow h old q0 got k q -> 0 <= j -> q + j <= old -> follow h old q0 got (k + j) (q + j).
(** index in the write history of the oldest message still in the ring *)
Definition eldest (evs : list event) (r : ring) : Z := zlen (committed evs) - zlen (ring_retained r).
(** losses client [c] was told of by shr_farm_stat calls that reset the count *)
Definition lost_reported (c : nat) (evs : list event) : Z :=
  fold_left (fun acc e => match e with
    | ERet c' (RetFarm true d) => if is c c' then acc + d else acc | _ => acc end) evs 0.

(** ** application data *)

(** what the application data should be after [evs], if it was [app0]: the
    bytes of the last shr_appdata call with a set argument that returned 0.
    (With get pointing to a NULL pointer and set given, shr_appdata returns 0
    and sets nothing; such calls do not count.) *)
Definition app_now (app0 : bytes) (evs : list event) : bytes :=
  snd (fold_left (fun st e => match e with
    | ECall c x => (fun c' => if is c' c then Some x else fst st c', snd st)
    | ERet c x => (fun c' => if is c' c then None else fst st c',
        match x, fst st c with
        | RetApp 0 _ _, Some (CApp GNull (Some s) _) | RetApp 0 _ _, Some (CApp (GBuf _) (Some s) _) => s
        | _, _ => snd st end)
    | ECrash c => (fun c' => if is c' c then None else fst st c', snd st)
    | _ => st end) evs (fun _ => None, app0)).

(** ** writers *)

(** What became of the messages client [c] had accepted: in the ring, in this
    order, or else (the rest, in this order) still in its cache; when the
    client is gone, the rest is lost. *)
Definition account (w : world) (evs : list event) (c : nat) : Prop :=
  if c_live (cli w c)
  then accepted_by c evs = committed_by c evs ++ cache_msgs (c_cache (cli w c))
  else exists lost, accepted_by c evs = committed_by c evs ++ lost.

(** a blocking writer, or any writer of a DROP ring *)
Definition must_flush (w : world) (c : nat) : Prop :=
  has (c_flags (cli w c)) SHR_NONBLOCK = false \/ r_drop (w_ring w) = true.

(** an iovec shr_writev refuses to write in a ring of [n] bytes, [mm] slots *)
Definition refused (n mm : Z) (iov : list bytes) : Prop :=
  iov = [] \/ hd [] iov = [] \/ nbytes iov > n \/ zlen iov > mm.

(** ** shorthands of the theorem statements *)

(** Starting from a fresh ring [r], some execution all of whose actions
    satisfy [P] shows the events [evs] and ends in [w]. *)
Definition reach (P : world -> action -> Prop) (r : ring) (w : world) (evs : list event) : Prop :=
  exists fsz, fresh r fsz /\ exec P (world0 r fsz) w evs /\ seq_bound r evs.

(** [after] is [before] without its oldest messages, as few as possible, plus
    [iov], in a ring of [n] bytes and [mm] slots *)
Definition least_drop (n mm : Z) (iov before after : list bytes) : Prop :=
  exists dropped kept, before = dropped ++ kept /\ after = kept ++ iov
    /\ nbytes kept + nbytes iov <= n /\ zlen kept + zlen iov <= mm
    /\ forall p s, before = p ++ s -> nbytes s + nbytes iov <= n -> zlen s + zlen iov <= mm -> zlen s <= zlen kept.

(** [taken] is as much of the front of [av] as fits [len] bytes and [niov]
    iovecs; [rest] is what is left *)
Definition longest_fit (niov len : Z) (av taken rest : list bytes) : Prop :=
  av = taken ++ rest /\ nbytes taken <= len /\ zlen taken <= niov
  /\ match rest with [] => True | m :: _ => zlen taken = niov \/ len < nbytes taken + zlen m end.

(** a writer without a cache *)
Definition unbuffered (w : world) (c : nat) : Prop := has (c_flags (cli w c)) SHR_BUFFERED = false.
Definition nonblocking (w : world) (c : nat) : bool := has (c_flags (cli w c)) SHR_NONBLOCK.
(** the client is live and not inside a call *)
Definition idle (w : world) (evs : list event) (c : nat) : Prop := c_live (cli w c) = true /\ pending c evs = None.

(** What the cache of a buffered writer holds: a tenth of the ring but at
    most 2^30 bytes (all of a ring of less than 10240 bytes), 10000 messages. *)
Definition cap_bytes (n : Z) : Z := if n <? 10240 then n else Z.min (n / 10) (2 ^ 30).
Definition cap_msgs (mm : Z) : Z := Z.min 10000 mm.
Definition in_cache (n mm : Z) (iov ms : list bytes) : Prop :=
  nbytes ms + nbytes iov <= cap_bytes n /\ zlen ms + zlen iov <= cap_msgs mm.
Definition buffering (w : world) (c : nat) : bool := has (c_flags (cli w c)) SHR_BUFFERED.

(** ** descriptors registered with shr_ctl *)

(** an shr_ctl(SHR_POLLFD, fd) of client [c] returned 0 *)
Definition registered (c : nat) (fd : Z) (evs : list event) : Prop :=
  exists pre post, evs = pre ++ ERet c (RetInt 0) :: post /\ pending c pre = Some (CCtl fd).
(** the value a call returned *)
Definition ret_code (x : ret) : option Z :=
  match x with
  | RetRead v _ _ | RetWrite _ v | RetFlush v | RetStat _ v _ | RetApp v _ _ | RetInt v => Some v
  | RetClosed | RetFarm _ _ | RetSel _ => None
  end.
(** a reader, or a writer that waits for space in its writes *)
Definition waits (w : world) (c : nat) : Prop :=
  has (c_flags (cli w c)) SHR_RDONLY = true
  \/ (has (c_flags (cli w c)) SHR_NONBLOCK = false /\ r_drop (w_ring w) = false).

(** ** wake-ups *)

(** The kernel gives new sockets names that no socket had before. *)
Definition new_names (w : world) (a : action) : Prop :=
  match a with
  | AOpen e _ _ | ARun _ e => forall k, In k (w_ks w) -> k_name k <> e_name e
  | _ => True
  end.
(** callers obey the API, socket calls do not fail, socket names are unique *)
Definition steady (w : world) (a : action) : Prop := reliable w a /\ new_names w a.

(** the socket on which a live client is told of new messages (a reader), or
    of freed space (a writer) *)
Definition wsock (h : option bwt) : option nat := match h with Some (Wait _ s _) => Some s | _ => None end.
Definition data_sock (w : world) (c : nat) : option nat := if c_live (cli w c) then wsock (c_w2r (cli w c)) else None.
Definition space_sock (w : world) (c : nat) : option nat := if c_live (cli w c) then wsock (c_r2w (cli w c)) else None.
(** a wake-up is queued on socket [s]: epoll and poll report it readable *)
Definition readable (w : world) (s : nat) : Prop := 0 < k_pend (sk (w_ks w) s).
(** the messages a sleeping writer is trying to add to the ring *)
Definition blocked_msgs (w : world) (c : nat) : list bytes :=
  match c_pc (cli w c) with WaitW _ iov _ _ => iov | _ => [] end.

(** in addition to [steady]: locks are obtained, memory is allocated and msync
    succeeds, so that no call of shr_open or shr_close gives up half-way *)
Definition orderly (w : world) (a : action) : Prop :=
  steady w a /\ match a with
    | AOpen e _ _ | ARun _ e => e_lock e = true /\ e_alloc e = true /\ e_msync e = true
    | _ => True end.
(** the live clients registered for wake-ups about messages, about space *)
Definition some_b {A} (o : option A) : bool := match o with Some _ => true | None => false end.
Definition readers (w : world) : list nat := filter (fun c => some_b (data_sock w c)) (seq 0 (length (w_cl w))).
Definition waiting_writers (w : world) : list nat := filter (fun c => some_b (space_sock w c)) (seq 0 (length (w_cl w))).

(** slot [n] of a handle, and whether the process it names has that socket *)
Definition slot_of (h : bwh) (n : nat) : wslot := nth n (h_wr h) ws_free.
Definition alive (ks : socks) (s : wslot) : Prop := exists k, In k ks /\ k_open k = true /\ k_pid k = ws_pid s /\ k_name k = ws_name s.
