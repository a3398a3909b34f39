(** * Sys: handles, API calls and the world of processes sharing one ring.
    Model only, no proofs.

    Granularity: code that runs between lock() and unlock() is one step (that
    this is faithful under the file lock is the subject of Lock.v; a process
    dying inside it is the subject of Crash.v).  Code outside the lock touches
    only the handle and is merged with the start of the call.  Blocking in
    bw_wait_ul is a state in which other processes' steps interleave. *)
From Verif Require Export Init Bw.

(** src/shr.c l.57-64: struct cache.  [ca_iov] entries are (offset in buf,
    length); the array has vt entries of which vm are in use. *)
Record cache := mkca { ca_buf : bytes; ca_sz : Z; ca_n : Z;
                       ca_iov : list (Z * Z); ca_vt : Z; ca_vm : Z }.
#[export] Instance eta_ca : Settable _ := settable! mkca <ca_buf; ca_sz; ca_n; ca_iov; ca_vt; ca_vm>.
Definition cache0 : cache := mkca [] 0 0 [] 0 0.

(** Who is waiting for the result of the unbuffered write in progress. *)
Inductive wkont :=
| KDirect                                 (* the caller's own shr_writev *)
| KThen (iov : list bytes) (len : Z)      (* shr_writev flushing the cache first, l.918 *)
| KFlush                                  (* shr_flush, l.1131 *)
| KClose.                                 (* the flush in shr_close, l.1159 *)

(** Arguments of shr_appdata: get is NULL / points to NULL / points to a
    buffer; set is NULL or a buffer; *sz. *)
Inductive getarg := GNull | GAlloc | GBuf (b : bytes).

(** Where a process is.  [nb] is the SHR_NONBLOCK bit in force (shr_flush
    clears it temporarily, l.1118). *)
Inductive pc :=
| Idle
| RunW (k : wkont) (iov : list bytes) (len : Z) (nb : bool)
| WaitW (k : wkont) (iov : list bytes) (len : Z) (nb : bool)
| RunR (buf : bytes) (niov : Z)
| WaitR (buf : bytes) (niov : Z)
| RunOpenR2W                              (* l.1122-1127 *)
| RunClose                                (* l.1163 *)
| RunStat (reset : option (Z * Z))
| RunApp (get : getarg) (set : option bytes) (sz : Z).

(** src/shr.c l.68-84: struct shr *)
Record client := mkcl {
  c_live : bool; c_pid : Z; c_flags : Z; c_q : Z; c_md : Z;
  c_w2r : option bwt; c_r2w : option bwt; c_cache : cache;
  c_n : Z; c_mm : Z; c_pc : pc }.
#[export] Instance eta_cl : Settable _ :=
  settable! mkcl <c_live; c_pid; c_flags; c_q; c_md; c_w2r; c_r2w; c_cache; c_n; c_mm; c_pc>.
Definition client0 : client := mkcl false 0 0 0 0 None None cache0 0 0 Idle.

Record world := mkw {
  w_ring : ring; w_fsz : Z; w_w2r : bwh; w_r2w : bwh; w_ks : socks; w_cl : list client }.
#[export] Instance eta_w : Settable _ := settable! mkw <w_ring; w_fsz; w_w2r; w_r2w; w_ks; w_cl>.

(** struct shr_stat as returned by shr_stat *)
Record statout := mkso { so_stat : rstat; so_bn : Z; so_bu : Z; so_mu : Z; so_mm : Z;
                         so_cn : Z; so_cm : Z; so_cb : Z; so_flags : Z }.

Inductive call :=
| CRead (buf : bytes) (niov : Z)          (* shr_readv; shr_read is niov = 1 *)
| CWrite (iov : list bytes)               (* shr_writev; shr_write is one element *)
| CFlush (wait : bool)
| CClose
| CStat (reset : option (Z * Z))
| CFarmStat (reset : bool)
| CApp (get : getarg) (set : option bytes) (sz : Z)
| CCtl (fd : Z)                           (* shr_ctl SHR_POLLFD *)
| CSelFd.                                 (* shr_get_selectable_fd *)

(** Returns carry what the caller sees.  For a read: the value, the buffer and
    the iovecs filled in, as (offset, length).  For a write the arguments are
    repeated for reference; for a stat, whether the counters were reset (for
    shr_farm_stat, whether that was asked for). *)
Inductive ret :=
| RetRead (r : Z) (buf : bytes) (iov : list (Z * Z))
| RetWrite (iov : list bytes) (r : Z)
| RetFlush (r : Z)
| RetClosed
| RetStat (reset : bool) (r : Z) (s : option statout)
| RetFarm (reset : bool) (d : Z)
| RetApp (r : Z) (out : option bytes) (sz : Z)
| RetInt (r : Z)
| RetSel (sid : option nat).

(** What an execution shows: calls, returns, opens and their success, deaths,
    and the instant at which messages enter the ring. *)
Inductive event :=
| EOpen (flags : Z) (c : option nat)
| ECall (c : nat) (x : call)
| ERet (c : nat) (x : ret)
| ECommit (c : nat) (ms : list bytes)
| ECrash (c : nat).

Definition cli (w : world) (c : nat) : client := nth c (w_cl w) client0.
Definition setc (w : world) (c : nat) (x : client) : world :=
  w <| w_cl := set_nat (w_cl w) c x |>.

(** ** writing *)

(** the messages in the cache, read back from its buffer (src/shr.c l.918) *)
Fixpoint cached_from (buf : bytes) (iov : list (Z * Z)) : outcome (list bytes) :=
  match iov with
  | [] => Ok []
  | (o, l) :: t => do b <- rd_mem o l buf; do r <- cached_from buf t; Ok (b :: r)
  end.
Definition cached (ca : cache) : outcome (list bytes) :=
  cached_from (ca_buf ca) (firstn (Z.to_nat (ca_vm ca)) (ca_iov ca)).

(** src/shr.c l.904-910: sink an iovec into the cache *)
Fixpoint sink (iov : list bytes) (ca : cache) : outcome cache :=
  match iov with
  | [] => Ok ca
  | b :: t =>
      do buf <- wr_mem (ca_n ca) b (ca_buf ca);
      do iv <- zset (ca_iov ca) (ca_vm ca) (ca_n ca, zlen b);
      sink t (ca <| ca_buf := buf |> <| ca_iov := iv |>
                 <| ca_n := u64 (ca_n ca + zlen b) |> <| ca_vm := u64 (ca_vm ca + 1) |>)
  end.
(** l.921-922, l.1135-1136 *)
Definition clear_cache (ca : cache) : cache := ca <| ca_n := 0 |> <| ca_vm := 0 |>.

(** src/shr.c l.885-923: shr_writev up to the point where it takes the lock
    (or returns), once the length check has passed *)
Definition go_write (cl : client) (iov : list bytes) (len : Z) : outcome (client * list ret) :=
  let nb := has (c_flags cl) SHR_NONBLOCK in
  let ca := c_cache cl in
  if has (c_flags cl) SHR_BUFFERED then
    if (len <=? u64 (ca_sz ca - ca_n ca)) && (zlen iov <=? u64 (ca_vt ca - ca_vm ca)) then
      do ca' <- sink iov ca;
      Ok (cl <| c_cache := ca' |> <| c_pc := Idle |>, [RetWrite iov len])
    else if ca_n ca =? 0 then Ok (cl <| c_pc := RunW KDirect iov len nb |>, [])
    else
      do ms <- cached ca;
      match wr_check (map zlen ms) (c_n cl) (c_mm cl) with
      | None => Ok (cl <| c_pc := Idle |>, [RetWrite iov (-1)])
      | Some clen => Ok (cl <| c_pc := RunW (KThen iov len) ms clen nb |>, [])
      end
  else Ok (cl <| c_pc := RunW KDirect iov len nb |>, []).

(** src/shr.c l.877-923: start of shr_writev *)
Definition start_write (cl : client) (iov : list bytes) : outcome (client * list ret) :=
  assert! has (c_flags cl) SHR_WRONLY;
  match wr_check (map zlen iov) (c_n cl) (c_mm cl) with
  | None => Ok (cl, [RetWrite iov (-1)])
  | Some len => go_write cl iov len
  end.

(** src/shr.c l.1130-1131: the inner shr_writev of shr_flush *)
Definition flush_write (cl : client) (k : wkont) (nb : bool) : outcome (client * list ret) :=
  do ms <- cached (c_cache cl);
  match wr_check (map zlen ms) (c_n cl) (c_mm cl) with
  | None => match k with
            | KClose => Ok (cl <| c_pc := RunClose |>, [])
            | _ => Ok (cl <| c_pc := Idle |>, [RetFlush (-1)])
            end
  | Some len => Ok (cl <| c_pc := RunW k ms len nb |>, [])
  end.

(** src/shr.c l.1104-1142: start of shr_flush *)
Definition start_flush (cl : client) (wait : bool) : outcome (client * list ret) :=
  assert! has (c_flags cl) SHR_WRONLY;
  if ca_n (c_cache cl) =? 0 then Ok (cl, [RetFlush 0]) else
  if has (c_flags cl) SHR_NONBLOCK && wait then
    match c_r2w cl with
    | None => Ok (cl <| c_pc := RunOpenR2W |>, [])
    | Some _ => flush_write cl KFlush false
    end
  else flush_write cl KFlush (has (c_flags cl) SHR_NONBLOCK).

(** src/shr.c l.1156-1163: start of shr_close *)
Definition start_close (cl : client) : outcome (client * list ret) :=
  if ca_n (c_cache cl) =? 0 then Ok (cl <| c_pc := RunClose |>, [])
  else assert! has (c_flags cl) SHR_WRONLY;
       flush_write cl KClose (has (c_flags cl) SHR_NONBLOCK).

(** what happens after the unbuffered shr_writev returned [r] to its caller:
    l.919-922, l.1132-1141, l.1159-1163 *)
Definition end_write (cl : client) (k : wkont) (iov : list bytes) (r : Z) : outcome (client * list ret) :=
  match k with
  | KDirect => Ok (cl <| c_pc := Idle |>, [RetWrite iov r])
  | KThen iov' len' =>
      if r <=? 0 then Ok (cl <| c_pc := Idle |>, [RetWrite iov' r])
      else go_write (cl <| c_cache := clear_cache (c_cache cl) |>) iov' len'
  | KFlush =>
      let ca := if r >? 0 then clear_cache (c_cache cl) else c_cache cl in
      Ok (cl <| c_cache := ca |> <| c_pc := Idle |>, [RetFlush r])
  | KClose =>
      let ca := if r >? 0 then clear_cache (c_cache cl) else c_cache cl in
      Ok (cl <| c_cache := ca |> <| c_pc := RunClose |>, [])
  end.

(** src/shr.c l.174-185: shr_sync; true is success *)
Definition shr_sync (e : env) (r : ring) : bool := negb (has (r_gflags r) SHR_SYNC) || e_msync e.

Definition rets (c : nat) (l : list ret) : list event := map (ERet c) l.

(** outcome of the critical section of the write loop *)
Inductive wres :=
| WBlock                                  (* released the lock and blocks, l.943-944 *)
| WDone (w : world) (cl : client) (r : Z) (committed : bool).

(** src/shr.c l.925-1013: one pass under the lock *)
Definition crit_write (e : env) (w : world) (cl : client) (iov : list bytes) (len : Z) (nb : bool)
  : outcome wres :=
  if negb (e_lock e) then Ok (WDone w cl (-1) false) else
  let r := w_ring w in
  do go <- ring_write r (c_mm cl) iov len;
  match go with
  | None =>
      if nb then Ok (WDone w cl 0 false) else
      match c_r2w cl with
      | Some (Wait _ _ _) => Ok WBlock
      | _ => Abort                        (* bw.c l.560-562 *)
      end
  | Some r =>
      match c_w2r cl with
      | None => UB
      | Some h =>
          do (ks, bh, h, ok) <- bw_wake e (w_ks w) (w_w2r w) h;
          let w := w <| w_ks := ks |> <| w_w2r := bh |> in
          let cl := cl <| c_w2r := Some h |> in
          if ok then
            let r := stat_wrote r len (zlen iov) in
            Ok (WDone (w <| w_ring := r |>) cl (if shr_sync e r then len else -1) true)
          else Ok (WDone (w <| w_ring := r |>) cl (-1) true)
      end
  end.

(** ** reading *)

Inductive rres :=
| RBlock (w : world) (cl : client)
| RDone (w : world) (cl : client) (r : Z) (buf : bytes) (iov : list (Z * Z)).

(** src/shr.c l.797-857: one pass under the lock *)
Definition crit_read (e : env) (w : world) (cl : client) (buf : bytes) (niov : Z) : outcome rres :=
  if negb (e_lock e) then Ok (RDone w cl (-1) buf []) else
  do (q, md, res) <- ring_read (w_ring w) (c_q cl) (c_md cl) buf niov;
  let cl := cl <| c_q := q |> <| c_md := md |> in
  match res with
  | None =>
      match c_w2r cl with
      | None => UB
      | Some h =>
        if has (c_flags cl) SHR_NONBLOCK then
          do (ks, _) <- bw_force e (w_ks w) h false;
          Ok (RDone (w <| w_ks := ks |>) cl 0 buf [])
        else match h with Wait _ _ _ => Ok (RBlock w cl) | Wake _ _ => Abort end
      end
  | Some (x, cur') =>
      let mc := zlen (rd_iov x) in
      let w := w <| w_ring := rd_ring x |> in
      do (w, cl) <-
        (if rd_nr x >? 0 then
           match c_r2w cl with
           | None => UB
           | Some h =>
               do (ks, bh, h, _) <- bw_wake e (w_ks w) (w_r2w w) h;
               Ok (w <| w_ks := ks |> <| w_r2w := bh |>, cl <| c_r2w := Some h |>)
           end
         else Ok (w, cl));
      let rc := if mc >? 0 then 0 else -2 in
      match c_w2r cl with
      | None => UB
      | Some h =>
          do (ks, _) <- bw_force e (w_ks w) h (match cur' with Some _ => true | None => false end);
          Ok (RDone (w <| w_ks := ks |>) cl (if rc =? 0 then rd_nr x else rc)
                (rd_buf x) (rev (rd_iov x)))
      end
  end.

(** ** other calls *)

(** src/shr.c l.315-349: shr_stat *)
Definition stat_of (r : ring) (cl : client) : statout :=
  mkso (r_stat r) (r_n r) (r_u r) (r_m r) (r_mm r)
       (ca_sz (c_cache cl)) (ca_vm (c_cache cl)) (ca_n (c_cache cl)) (r_gflags r).
Definition do_stat (e : env) (r : ring) (cl : client) (reset : option (Z * Z)) : ring * ret :=
  if negb (e_lock e) then (r, RetStat false (-1) None) else
  let so := stat_of r cl in
  let r := match reset with
           | None => r
           | Some t => r <| r_stat := stat0 <| st_start := t |> |>
           end in
  (r, RetStat (match reset with Some _ => true | None => false end)
              (if shr_sync e r then 0 else -1) (Some so)).

(** src/shr.c l.1041-1084: shr_appdata.  Copies past the end of the appdata
    region are [UB]. *)
Definition do_app (e : env) (r : ring) (get : getarg) (set : option bytes) (sz : Z)
  : outcome (ring * ret) :=
  let fail g sz := Ok (r, RetApp (-1) g sz) in
  let gout := match get with GBuf b => Some b | _ => None end in
  if negb (e_lock e) then fail gout sz else
  if r_app_len r =? 0 then fail gout sz else
  match get, set with
  | GNull, None => Ok (r, RetApp (if shr_sync e r then 0 else -1) None sz)
  | GAlloc, None =>
      if negb (e_alloc e) then fail None (r_app_len r) else
      do a <- rd_mem 0 (r_app_len r) (r_app r);
      Ok (r, RetApp (if shr_sync e r then 0 else -1) (Some a) (r_app_len r))
  | GBuf b, None =>
      if sz <? r_app_len r then fail gout sz else
      do a <- rd_mem 0 sz (r_app r);
      do b <- wr_mem 0 a b;
      Ok (r, RetApp (if shr_sync e r then 0 else -1) (Some b) (r_app_len r))
  | GNull, Some s =>
      if negb (sz =? r_app_len r) then fail gout sz else
      do a <- rd_mem 0 sz s;
      do app <- wr_mem 0 a (r_app r);
      Ok (r <| r_app := app |>, RetApp (if shr_sync e r then 0 else -1) None sz)
  | GAlloc, Some _ => Ok (r, RetApp (if shr_sync e r then 0 else -1) None sz)
  | GBuf b, Some s =>
      if negb (sz =? r_app_len r) then fail gout sz else
      do a <- rd_mem 0 sz (r_app r);
      do b <- wr_mem 0 a b;
      do a <- rd_mem 0 sz s;
      do app <- wr_mem 0 a (r_app r);
      Ok (r <| r_app := app |>, RetApp (if shr_sync e r then 0 else -1) (Some b) sz)
  end.

(** src/shr.c l.1200-1213: shr_ctl SHR_POLLFD *)
Definition do_ctl (cl : client) (fd : Z) : outcome (client * Z) :=
  do (cl, sc) <-
    (if has (c_flags cl) SHR_WRONLY then
       match c_r2w cl with
       | Some h => do (h, ok) <- bw_ctl h fd; Ok (cl <| c_r2w := Some h |>, ok)
       | None => Ok (cl, true)
       end
     else Ok (cl, true));
  do (cl, sc) <-
    (if has (c_flags cl) SHR_RDONLY then
       match c_w2r cl with
       | Some h => do (h, ok) <- bw_ctl h fd; Ok (cl <| c_w2r := Some h |>, ok)
       | None => UB
       end
     else Ok (cl, sc));
  Ok (cl, if sc : bool then 0 else -1).

(** src/shr.c l.420-424: shr_get_selectable_fd *)
Definition sel_fd (cl : client) : option nat :=
  if has (c_flags cl) SHR_RDONLY && has (c_flags cl) SHR_NONBLOCK then
    match c_w2r cl with Some (Wait _ sid _) => Some sid | _ => None end
  else None.

(** src/shr.c l.362-371: shr_farm_stat *)
Definition do_farm_stat (cl : client) (reset : bool) : outcome (client * Z) :=
  assert! has (c_flags cl) SHR_RDONLY;
  Ok (if reset then cl <| c_md := 0 |> else cl, c_md cl).

(** start of any call by an idle client *)
Definition start_call (cl : client) (x : call) : outcome (client * list ret) :=
  match x with
  | CRead buf niov =>
      assert! has (c_flags cl) SHR_RDONLY;
      if (zlen buf =? 0) || (niov =? 0) then Ok (cl, [RetRead (-1) buf []])
      else Ok (cl <| c_pc := RunR buf niov |>, [])
  | CWrite iov => start_write cl iov
  | CFlush wait => start_flush cl wait
  | CClose => start_close cl
  | CStat reset => Ok (cl <| c_pc := RunStat reset |>, [])
  | CFarmStat reset => do (cl, d) <- do_farm_stat cl reset; Ok (cl, [RetFarm reset d])
  | CApp get set sz => Ok (cl <| c_pc := RunApp get set sz |>, [])
  | CCtl fd => do (cl, r) <- do_ctl cl fd; Ok (cl, [RetInt r])
  | CSelFd => Ok (cl, [RetSel (sel_fd cl)])
  end.

(** src/shr.c l.1163-1166: release of the handles in shr_close *)
Definition close_handles (w : world) (cl : client) : world :=
  let '(ks, h) := match c_w2r cl with
                  | Some b => bw_close (w_ks w) (w_w2r w) b
                  | None => (w_ks w, w_w2r w) end in
  let w := w <| w_ks := ks |> <| w_w2r := h |> in
  let '(ks, h) := match c_r2w cl with
                  | Some b => bw_close (w_ks w) (w_r2w w) b
                  | None => (w_ks w, w_r2w w) end in
  w <| w_ks := ks |> <| w_r2w := h |>.

(** one pass through a critical section by client [c] *)
Definition run_client (e : env) (w : world) (c : nat) : outcome (world * list event) :=
  let cl := cli w c in
  match c_pc cl with
  | RunW k iov len nb =>
      do res <- crit_write e w cl iov len nb;
      match res with
      | WBlock => Ok (setc w c (cl <| c_pc := WaitW k iov len nb |>), [])
      | WDone w cl r committed =>
          do (cl, rs) <- end_write cl k iov r;
          Ok (setc w c cl, (if committed then [ECommit c iov] else []) ++ rets c rs)
      end
  | RunR buf niov =>
      do res <- crit_read e w cl buf niov;
      match res with
      | RBlock w cl => Ok (setc w c (cl <| c_pc := WaitR buf niov |>), [])
      | RDone w cl r buf iov =>
          Ok (setc w c (cl <| c_pc := Idle |>), [ERet c (RetRead r buf iov)])
      end
  | RunOpenR2W =>
      if negb (e_lock e) then Ok (setc w c (cl <| c_pc := Idle |>), [ERet c (RetFlush (-1))]) else
      let '(ks, h, o) := bw_open_wait e (w_ks w) (w_r2w w) (c_pid cl) (e_name e) in
      let w := w <| w_ks := ks |> <| w_r2w := h |> in
      match o with
      | None => Ok (setc w c (cl <| c_pc := Idle |>), [ERet c (RetFlush (-1))])
      | Some b =>
          do (cl, rs) <- flush_write (cl <| c_r2w := Some b |>) KFlush false;
          Ok (setc w c cl, rets c rs)
      end
  | RunClose =>
      let w := if e_lock e then close_handles w cl else w in
      Ok (setc w c (cl <| c_live := false |> <| c_w2r := None |> <| c_r2w := None |>
                       <| c_cache := cache0 |> <| c_pc := Idle |>), [ERet c RetClosed])
  | RunStat reset =>
      let '(r, x) := do_stat e (w_ring w) cl reset in
      Ok (setc (w <| w_ring := r |>) c (cl <| c_pc := Idle |>), [ERet c x])
  | RunApp get set sz =>
      do (r, x) <- do_app e (w_ring w) get set sz;
      Ok (setc (w <| w_ring := r |>) c (cl <| c_pc := Idle |>), [ERet c x])
  | Idle | WaitW _ _ _ _ | WaitR _ _ => Ok (w, [])
  end.

(** the socket a waiting client sleeps on *)
Definition wait_sid (cl : client) : option (nat * list Z) :=
  match c_pc cl with
  | WaitW _ _ _ _ => match c_r2w cl with Some (Wait _ s p) => Some (s, p) | _ => None end
  | WaitR _ _ => match c_w2r cl with Some (Wait _ s p) => Some (s, p) | _ => None end
  | _ => None
  end.

(** lib/bw.c l.571-590 then back to the top of the caller's loop: the client
    was woken by a datagram *)
Definition resume (cl : client) : client :=
  match c_pc cl with
  | WaitW k iov len nb => cl <| c_pc := RunW k iov len nb |>
  | WaitR buf niov => cl <| c_pc := RunR buf niov |>
  | _ => cl
  end.

(** bw_wait_ul returned non-zero: src/shr.c l.815-818 and l.945 *)
Definition wait_failed (w : world) (c : nat) (sc : Z) : outcome (world * list event) :=
  let cl := cli w c in
  match c_pc cl with
  | WaitW k iov len nb =>
      do (cl, rs) <- end_write cl k iov sc;
      Ok (setc w c cl, rets c rs)
  | WaitR buf niov => Ok (setc w c (cl <| c_pc := Idle |>), [ERet c (RetRead sc buf [])])
  | _ => Ok (w, [])
  end.

(** ** opening *)

(** src/shr.c l.444-474: open_blockwake.  None: failure, with both handles
    released. *)
Definition open_blockwake (e : env) (w : world) (flags pid : Z)
  : outcome (world * option (option bwt * option bwt)) :=
  let fail w (a b : option bwt) :=
    let w := match b with
             | Some h => let '(ks, bh) := bw_close (w_ks w) (w_r2w w) h in
                         w <| w_ks := ks |> <| w_r2w := bh |>
             | None => w end in
    let w := match a with
             | Some h => let '(ks, bh) := bw_close (w_ks w) (w_w2r w) h in
                         w <| w_ks := ks |> <| w_w2r := bh |>
             | None => w end in
    Ok (w, None) in
  do (w, st) <-
    (if has flags SHR_RDONLY then
       let '(ks, h1, a) := bw_open_wait e (w_ks w) (w_w2r w) pid (e_name e) in
       let w := w <| w_ks := ks |> <| w_w2r := h1 |> in
       let '(h2, b) := bw_open_wake e (w_ks w) (w_r2w w) in
       let w := w <| w_r2w := h2 |> in
       match a, b with
       | Some x, Some y =>
           do (ks, ok) <- bw_force e (w_ks w) x (negb (r_u (w_ring w) =? 0));
           let w := w <| w_ks := ks |> in
           if ok then Ok (w, Some (a, b)) else fail w a b
       | _, _ => fail w a b
       end
     else Ok (w, Some (None, None)));
  match st with
  | None => Ok (w, None)
  | Some (a, b) =>
      if has flags SHR_WRONLY then
        let '(h1, a) := bw_open_wake e (w_ks w) (w_w2r w) in
        let w := w <| w_w2r := h1 |> in
        match a with
        | None => fail w a b
        | Some _ =>
            if negb (has flags SHR_NONBLOCK) && negb (r_drop (w_ring w)) then
              let '(ks, h2, b') := bw_open_wait e (w_ks w) (w_r2w w) pid
                    (if has flags SHR_RDONLY then e_name2 e else e_name e) in
              let w := w <| w_ks := ks |> <| w_r2w := h2 |> in
              match b' with
              | None => fail w a None
              | Some _ => Ok (w, Some (a, b'))
              end
            else Ok (w, Some (a, b))
        end
      else Ok (w, Some (a, b))
  end.

(** src/shr.c l.495-529: init_cache *)
Definition init_cache (e : env) (r : ring) (flags : Z) : option cache :=
  if negb (has flags SHR_WRONLY) || negb (has flags SHR_BUFFERED) then Some cache0 else
  if negb (e_alloc e) then None else
  Some (mkca (repeat 0 (Z.to_nat (cache_sz (r_n r)))) (cache_sz (r_n r)) 0
             (repeat (0,0) (Z.to_nat (cache_vt (r_mm r)))) (cache_vt (r_mm r)) 0).

(** src/shr.c l.549-624: shr_open.  open/fstat/mmap failures have no effect
    and are covered by the lock failing.  If init_cache or shr_sync fails
    after open_blockwake succeeded, its handles are leaked: the sockets stay
    open and the slots taken (l.616-621). *)
Definition do_open (e : env) (w : world) (flags pid : Z) : outcome (world * option client) :=
  if negb (validate_flags flags) then Ok (w, None) else
  if negb (e_lock e) then Ok (w, None) else
  let r := w_ring w in
  if validate_ring (w_fsz w) true r <? 0 then Ok (w, None) else
  if has (r_gflags r) SHR_MLOCK && negb (e_alloc e) then Ok (w, None) else
  do (w, hs) <- open_blockwake e w flags pid;
  match hs with
  | None => Ok (w, None)
  | Some (a, b) =>
      match init_cache e r flags with
      | None => Ok (w, None)
      | Some ca =>
          if shr_sync e r
          then Ok (w, Some (mkcl true pid flags (r_q r) 0 a b ca (r_n r) (r_mm r) Idle))
          else Ok (w, None)
      end
  end.

(** ** the world *)
Inductive action :=
| AOpen (e : env) (flags pid : Z)         (* a process calls shr_open *)
| ACall (c : nat) (x : call)              (* an idle client starts a call *)
| ARun (c : nat) (e : env)                (* a client obtains the lock and runs *)
| AWake (c : nat)                         (* a sleeping client receives a wakeup *)
| AEintr (c : nat)                        (* epoll_wait/recvmsg fails *)
| APoll (c : nat) (fd : Z)                (* a registered descriptor is ready *)
| ACrash (c : nat).                       (* the process dies outside the lock *)

(** the kernel closes a dead process's sockets *)
Definition drop_sock (ks : socks) (h : option bwt) : socks :=
  match h with
  | Some (Wait _ sid _) => sk_upd ks sid (fun x => x <| k_open := false |>)
  | _ => ks
  end.

(** An action that is not possible in the current state changes nothing. *)
Definition step (w : world) (a : action) : outcome (world * list event) :=
  match a with
  | AOpen e flags pid =>
      do (w, o) <- do_open e w flags pid;
      match o with
      | None => Ok (w, [EOpen flags None])
      | Some cl => Ok (w <| w_cl := w_cl w ++ [cl] |>, [EOpen flags (Some (length (w_cl w)))])
      end
  | ACall c x =>
      let cl := cli w c in
      if negb (c_live cl) then Ok (w, []) else
      match c_pc cl with
      | Idle => do (cl, rs) <- start_call cl x; Ok (setc w c cl, ECall c x :: rets c rs)
      | _ => Ok (w, [])
      end
  | ARun c e => if c_live (cli w c) then run_client e w c else Ok (w, [])
  | AWake c =>
      let cl := cli w c in
      match wait_sid cl with
      | Some (sid, _) =>
          if k_pend (sk (w_ks w) sid) >? 0
          then Ok (setc (w <| w_ks := bw_recv (w_ks w) sid |>) c (resume cl), [])
          else Ok (w, [])
      | None => Ok (w, [])
      end
  | AEintr c => wait_failed w c (-1)
  | APoll c fd =>
      match wait_sid (cli w c) with
      | Some (_, polls) => if existsb (Z.eqb fd) polls then wait_failed w c (-3) else Ok (w, [])
      | None => Ok (w, [])
      end
  | ACrash c =>
      let cl := cli w c in
      if negb (c_live cl) then Ok (w, []) else
      let ks := drop_sock (drop_sock (w_ks w) (c_w2r cl)) (c_r2w cl) in
      Ok (setc (w <| w_ks := ks |>) c (cl <| c_live := false |> <| c_pc := Idle |>), [ECrash c])
  end.

Fixpoint run (w : world) (acts : list action) : outcome (world * list event) :=
  match acts with
  | [] => Ok (w, [])
  | a :: t => do (w, ev) <- step w a; do (w, ev') <- run w t; Ok (w, ev ++ ev')
  end.

(** A freshly initialised ring nobody has opened. *)
Definition world0 (r : ring) (fsz : Z) : world := mkw r fsz bwh0 bwh0 [] [].
