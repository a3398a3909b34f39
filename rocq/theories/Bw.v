(** * Bw: the block/wake library (lib/bw.c) over a model of the kernel's
    datagram sockets.  Model only, no proofs.

    Kernel model.  A bound AF_UNIX datagram socket is an entry of a table; a
    socket id is an index in it and is never reused.  [k_pend] counts queued
    datagrams (every wakeup is one 1-byte datagram, bw.c l.377, l.727), and
    [k_cap] >= 1 is the queue limit beyond which a send fails with EAGAIN.
    Closing the socket or the death of its owner clears [k_open]; sending on a
    connection to a closed socket fails with ECONNREFUSED; connecting to a
    name no open socket is bound to fails.  Socket names, 8 bytes "@xxxxx" in
    the C code, are integers here (the text form is in Ux.v, C39).  Tracing
    (BW_TRACE) is not modelled: it only logs. *)
From Verif Require Export Ring.

Record sock := mksock { k_name : Z; k_pid : Z; k_open : bool; k_pend : Z; k_cap : Z }.
#[export] Instance eta_sock : Settable _ := settable! mksock <k_name; k_pid; k_open; k_pend; k_cap>.
Definition sock_dead : sock := mksock 0 0 false 0 1.
Definition socks := list sock.

Definition sk (ks : socks) (s : nat) : sock := nth s ks sock_dead.
Definition sk_upd (ks : socks) (s : nat) (f : sock -> sock) : socks := set_nat ks s (f (sk ks s)).

(** the open socket bound to a name, if any *)
Fixpoint sk_find (ks : socks) (i : nat) (name : Z) : option nat :=
  match ks with
  | [] => None
  | k :: t => if k_open k && (k_name k =? name) then Some i else sk_find t (S i) name
  end.
Definition sk_lookup (ks : socks) (name : Z) : option nat := sk_find ks O name.

(** Everything the environment decides during one critical section: whether
    the lock, msync and allocations succeed, whether socket operations of the
    given slot succeed, the verdict of has_pid_socket (lib/ux.c), the name
    autobind picks and the queue limit of the socket it makes. *)
Record env := mkenv {
  e_lock : bool;
  e_msync : bool;
  e_alloc : bool;              (* malloc/calloc/mlock *)
  e_socket : Z -> bool;        (* socket() in open_socket for slot n *)
  e_connect : Z -> bool;       (* connect() to slot n, if the name is bound *)
  e_send : Z -> bool;          (* sendmsg to slot n, if its owner is alive *)
  e_probe : Z -> Z -> Z;       (* has_pid_socket(pid, name) *)
  e_bind : bool;               (* make_socket's system calls *)
  e_self : bool;               (* connect_self / epoll set up *)
  e_force : bool;              (* ioctl/recvmmsg/send of bw_force *)
  e_name : Z; e_name2 : Z;     (* autobind choices *)
  e_cap : Z }.

(** lib/bw.h l.25-31: struct bw_handle.  seqno is an unbounded integer here (a
    C int: 2^31 slot changes would overflow it). *)
Record wslot := mkws { ws_pid : Z; ws_name : Z }.
Record bwh := mkbwh { h_seq : Z; h_wr : list wslot }.
#[export] Instance eta_ws : Settable _ := settable! mkws <ws_pid; ws_name>.
#[export] Instance eta_bwh : Settable _ := settable! mkbwh <h_seq; h_wr>.
Definition BW_WAITMAX : nat := 64.
Definition ws_free : wslot := mkws 0 0.
Definition bwh0 : bwh := mkbwh 0 (repeat ws_free BW_WAITMAX).

(** lib/bw.c l.26-29: one entry of fd[] / name[] of a wake-mode bw_t *)
Record conn := mkconn { cn_fd : option nat; cn_name : Z }.
#[export] Instance eta_conn : Settable _ := settable! mkconn <cn_fd; cn_name>.
Definition conn0 : conn := mkconn None 0.

(** lib/bw.c l.22-47: struct bw_t.  In wait mode: the slot, the listening
    socket (and the self connection to it) and the descriptors added to the
    epoll set with BW_POLLFD. *)
Inductive bwt :=
| Wake (seq : Z) (cs : list conn)
| Wait (slotno : nat) (sid : nat) (polls : list Z).

(** lib/bw.c l.97-111: prune_handle.  Returns the slots and how often seqno
    was incremented. *)
Fixpoint prune_slots (e : env) (wr : list wslot) : list wslot * Z :=
  match wr with
  | [] => ([], 0)
  | s :: t =>
      let '(t', c) := prune_slots e t in
      if ws_pid s =? 0 then (s :: t', c)
      else if e_probe e (ws_pid s) (ws_name s) =? 0
           then ((s <| ws_pid := 0 |>) :: t', c + 1)
           else (s :: t', c)
  end.
Definition prune_handle (e : env) (h : bwh) : bwh :=
  let '(wr, c) := prune_slots e (h_wr h) in mkbwh (h_seq h + c) wr.

(** lib/bw.c l.185-197 with open_socket l.128-167 inlined: the body of
    bw_sync's loop for slot [n].  Result: slot, connection, success, seqno
    increments. *)
Definition sync_slot (e : env) (ks : socks) (n : Z) (s : wslot) (c : conn)
  : wslot * conn * bool * Z :=
  let c := match cn_fd c with
           | Some _ => if (ws_pid s =? 0) || negb (ws_name s =? cn_name c)
                       then c <| cn_fd := None |> else c
           | None => c end in
  match cn_fd c with
  | Some _ => (s, c, true, 0)
  | None =>
      if ws_pid s =? 0 then (s, c, true, 0) else
      let c := mkconn None (ws_name s) in
      if negb (e_socket e n) then (s, c, false, 0) else
      match (if e_connect e n then sk_lookup ks (ws_name s) else None) with
      | Some k => (s, mkconn (Some k) (ws_name s), true, 0)
      | None =>
          if e_probe e (ws_pid s) (ws_name s) =? 0
          then (s <| ws_pid := 0 |>, c, true, 1)
          else (s, c, false, 0)
      end
  end.

(** lib/bw.c l.183-198: the loop; stops at the first failing slot *)
Fixpoint sync_slots (e : env) (ks : socks) (n : Z) (wr : list wslot) (cs : list conn)
  : list wslot * list conn * bool * Z :=
  match wr, cs with
  | s :: wr', c :: cs' =>
      let '(s, c, ok, inc) := sync_slot e ks n s c in
      if ok then
        let '(wr', cs', ok', inc') := sync_slots e ks (n + 1) wr' cs' in
        (s :: wr', c :: cs', ok', inc + inc')
      else (s :: wr', c :: cs', false, inc)
  | _, _ => (wr, cs, true, 0)
  end.

(** lib/bw.c l.173-205: bw_sync on the wake-mode handle (seq, cs) *)
Definition bw_sync (e : env) (ks : socks) (h : bwh) (seq : Z) (cs : list conn)
  : bwh * Z * list conn * bool :=
  if seq =? h_seq h then (h, seq, cs, true) else
  let '(wr, cs, ok, inc) := sync_slots e ks 0 (h_wr h) cs in
  let h := mkbwh (h_seq h + inc) wr in
  (h, if ok then h_seq h else seq, cs, ok).

(** lib/bw.c l.601-619: wake_one for slot [n]; and the loop l.638-641.
    Returns slots, connections, sockets and seqno increments. *)
Definition wake_slot (e : env) (n : Z) (ks : socks) (s : wslot) (c : conn)
  : wslot * conn * socks * Z :=
  match cn_fd c with
  | None => (s, c, ks, 0)
  | Some k =>
      if k_open (sk ks k) && e_send e n then
        if k_pend (sk ks k) <? k_cap (sk ks k)
        then (s, c, sk_upd ks k (fun x => x <| k_pend := k_pend x + 1 |>), 0)
        else (s, c, ks, 0)                                  (* EAGAIN *)
      else (s <| ws_pid := 0 |>, c <| cn_fd := None |>, ks, 1)  (* purge *)
  end.
Fixpoint wake_slots (e : env) (n : Z) (ks : socks) (wr : list wslot) (cs : list conn)
  : list wslot * list conn * socks * Z :=
  match wr, cs with
  | s :: wr', c :: cs' =>
      let '(s, c, ks, inc) := wake_slot e n ks s c in
      let '(wr', cs', ks, inc') := wake_slots e (n + 1) ks wr' cs' in
      (s :: wr', c :: cs', ks, inc + inc')
  | _, _ => (wr, cs, ks, 0)
  end.

(** lib/bw.c l.632-647: bw_wake; the boolean is "returned 0" *)
Definition bw_wake (e : env) (ks : socks) (h : bwh) (w : bwt)
  : outcome (socks * bwh * bwt * bool) :=
  match w with
  | Wait _ _ _ => Abort                       (* assert BW_WAKE *)
  | Wake seq cs =>
      let '(h, seq, cs, ok) := bw_sync e ks h seq cs in
      if ok then
        let '(wr, cs, ks, inc) := wake_slots e 0 ks (h_wr h) cs in
        Ok (ks, mkbwh (h_seq h + inc) wr, Wake seq cs, true)
      else Ok (ks, h, Wake seq cs, false)
  end.

(** lib/bw.c l.258-260: first free slot *)
Fixpoint find_free (wr : list wslot) (i : nat) : option nat :=
  match wr with
  | [] => None
  | s :: t => if ws_pid s =? 0 then Some i else find_free t (S i)
  end.

(** lib/bw.c l.340-433: bw_open in wait mode; bw_reserve l.252-281 and
    make_socket l.207-249 inlined.  [name] is autobind's choice: the kernel
    never picks the name of an open socket, so a clash is a bind failure.
    None is a NULL return.  On the late failure the slot is released without
    a seqno increment (l.423-424). *)
Definition bw_open_wait (e : env) (ks : socks) (h : bwh) (pid name : Z)
  : socks * bwh * option bwt :=
  if negb (e_alloc e) then (ks, h, None) else
  let h := prune_handle e h in
  match find_free (h_wr h) O with
  | None => (ks, h, None)
  | Some n =>
      match (if e_bind e then sk_lookup ks name else Some O) with
      | Some _ => (ks, h, None)
      | None =>
          let sid := length ks in
          let h := mkbwh (h_seq h + 1) (set_nat (h_wr h) n (mkws pid name)) in
          if e_self e
          then (ks ++ [mksock name pid true 0 (Z.max 1 (e_cap e))], h, Some (Wait n sid []))
          else (ks ++ [mksock name pid false 0 (Z.max 1 (e_cap e))],
                h <| h_wr := set_nat (h_wr h) n (mkws 0 name) |>, None)
      end
  end.

(** lib/bw.c l.340-433: bw_open in wake mode *)
Definition bw_open_wake (e : env) (ks : socks) (h : bwh) : bwh * option bwt :=
  if negb (e_alloc e) then (h, None) else
  let h := prune_handle e h in
  let '(h, seq, cs, ok) := bw_sync e ks h (-1) (repeat conn0 BW_WAITMAX) in
  (h, if ok then Some (Wake seq cs) else None).

(** lib/bw.c l.444-473: bw_close *)
Definition bw_close (ks : socks) (h : bwh) (w : bwt) : socks * bwh :=
  match w with
  | Wake _ _ => (ks, h)
  | Wait n sid _ =>
      (sk_upd ks sid (fun x => x <| k_open := false |>),
       mkbwh (h_seq h + 1) (set_nat (h_wr h) n (nth n (h_wr h) ws_free <| ws_pid := 0 |>)))
  end.

(** lib/bw.c l.708-738: bw_force, with drain_msgs l.653-687 *)
Definition bw_force (e : env) (ks : socks) (w : bwt) (want : bool) : outcome (socks * bool) :=
  match w with
  | Wake _ _ => Abort                         (* assert BW_WAIT *)
  | Wait _ sid _ =>
      if negb (e_force e) then Ok (ks, false) else
      let have := k_pend (sk ks sid) >? 0 in
      if negb want && have then Ok (sk_upd ks sid (fun x => x <| k_pend := 0 |>), true)
      else if want && negb have
           then Ok (sk_upd ks sid (fun x => x <| k_pend := k_pend x + 1 |>), true)
           else Ok (ks, true)
  end.

(** lib/bw.c l.571-590 and bw_ready_ul l.520: epoll_wait reported the
    listening descriptor, and one datagram is received *)
Definition bw_recv (ks : socks) (sid : nat) : socks :=
  sk_upd ks sid (fun x => x <| k_pend := Z.max 0 (k_pend x - 1) |>).

(** lib/bw.c l.757-791: bw_ctl BW_POLLFD.  EPOLL_CTL_ADD fails with EEXIST
    for a descriptor already in the set. *)
Definition bw_ctl (w : bwt) (fd : Z) : outcome (bwt * bool) :=
  match w with
  | Wake _ _ => Abort
  | Wait n sid polls =>
      if existsb (Z.eqb fd) polls then Ok (w, false)
      else Ok (Wait n sid (fd :: polls), true)
  end.
