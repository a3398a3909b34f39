(** * CrashSpec: vocabulary for C32, C33, C46 *)
From Verif Require Export Micro Spec.

(** ** The ring as an abstract queue

    A queue of [q_n] bytes and [q_mm] messages; [q_kept] are the messages
    present, eldest first, the eldest having sequence number [q_seq];
    [q_unread] those of them not read yet (a ring with SHR_FARM: each reader
    has its own position instead). *)
Record aq := mkaq { q_n : Z; q_mm : Z; q_drop : bool; q_farm : bool; q_seq : Z; q_kept : list bytes; q_unread : list bytes }.

Definition abs (r : ring) : aq := mkaq (r_n r) (r_mm r) (r_drop r) (r_farm r) (r_q r) (ring_retained r) (ring_unread r).

(** a write of [iov]; a read of at most [niov] messages into [buf], by a
    reader whose position is [q] and whose count of missed messages is [md]
    (both matter only with SHR_FARM) *)
Inductive qop := QWrite (iov : list bytes) | QRead (q md : Z) (buf : bytes) (niov : Z).
(** full; written; nothing to read; read [ms] (none if the first does not fit
    in the buffer).  Reads also give the reader's new position and count. *)
Inductive qres := WFull | WOk | RNone (q md : Z) | RGot (ms : list bytes) (q md : Z).

Definition okb (n mm : Z) (iov : list bytes) : bool :=
  (0 <? zlen iov) && forallb (fun b => 0 <? zlen b) iov && (nbytes iov <=? n) && (zlen iov <=? mm).

(** What the queue does; None if the arguments are ones the API refuses
    earlier, or the reader's position is not one a reader can have, or 2^64
    messages have been written. *)
Definition aq_step (a : aq) (op : qop) : option (aq * qres) :=
  match op with
  | QWrite iov =>
      if okb (q_n a) (q_mm a) iov && (negb (q_farm a) || (q_seq a + zlen (q_kept a) + zlen iov <? W64)) then
        if room (q_n a) (q_mm a) iov (q_unread a) || q_drop a then
          let kept := fit_suffix (q_n a) (q_mm a) iov (q_kept a) in
          Some (mkaq (q_n a) (q_mm a) (q_drop a) (q_farm a) (u64 (q_seq a + (zlen (q_kept a) - zlen kept)))
                     (kept ++ iov) (fit_suffix (q_n a) (q_mm a) iov (q_unread a) ++ iov), WOk)
        else Some (a, WFull)
      else None
  | QRead q md buf niov =>
      if (0 <? zlen buf) && (0 <? niov) then
        let len := usable buf in
        if q_farm a then
          if (0 <=? q) && (q <=? q_seq a + zlen (q_kept a)) then
            let q1 := Z.max q (q_seq a) in
            let md1 := if q <? q_seq a then u64 (md + (q1 - q)) else md in
            let avail := skipn (Z.to_nat (q1 - q_seq a)) (q_kept a) in
            let taken := take_fit (Z.to_nat niov) len avail in
            Some (a, match avail with [] => RNone q1 md1 | _ => RGot taken (q1 + zlen taken) md1 end)
          else None
        else
          let taken := take_fit (Z.to_nat niov) len (q_unread a) in
          Some (mkaq (q_n a) (q_mm a) (q_drop a) (q_farm a) (q_seq a) (q_kept a) (skipn (length taken) (q_unread a)),
                match q_unread a with [] => RNone q md | _ => RGot taken q md end)
      else None
  end.
Fixpoint aq_run (a : aq) (ops : list qop) : option (aq * list qres) :=
  match ops with
  | [] => Some (a, [])
  | op :: t => match aq_step a op with
               | None => None
               | Some (a', x) => match aq_run a' t with None => None | Some (a'', xs) => Some (a'', x :: xs) end
               end
  end.

(** what the code does to a ring, a whole critical section at a time *)
Definition r_step (r : ring) (op : qop) : outcome (ring * qres) :=
  match op with
  | QWrite iov =>
      do o <- ring_write r (r_mm r) iov (nbytes iov);
      Ok (match o with None => (r, WFull) | Some r' => (stat_wrote r' (nbytes iov) (zlen iov), WOk) end)
  | QRead q md buf niov =>
      do (q', md', o) <- ring_read r q md buf niov;
      Ok (match o with
          | None => (r, RNone q' md')
          | Some (x, _) => (rd_ring x, RGot (map (fun p => sub (fst p) (snd p) (rd_buf x)) (rev (rd_iov x))) q' md')
          end)
  end.
Fixpoint r_run (r : ring) (ops : list qop) : outcome (ring * list qres) :=
  match ops with
  | [] => Ok (r, [])
  | op :: t => do (r', x) <- r_step r op; do (r'', xs) <- r_run r' t; Ok (r'', x :: xs)
  end.

(** [r] works as a queue holding what is in it: whatever is written and read
    from here on, the code does what the queue does *)
Definition works_as_queue (r : ring) : Prop := forall ops a xs, aq_run (abs r) ops = Some (a, xs) ->
  exists r', r_run r ops = Ok (r', xs) /\ abs r' = a.

(** ** Reading only *)
Definition is_read (op : qop) : bool := match op with QRead _ _ buf niov => (0 <? zlen buf) && (0 <? niov) | _ => false end.
(** what consecutive reads get out of a list of unread messages *)
Fixpoint drain (ms : list bytes) (ops : list qop) : list (list bytes) :=
  match ops with
  | QRead _ _ buf niov :: t =>
      let taken := take_fit (Z.to_nat niov) (usable buf) ms in
      taken :: drain (skipn (length taken) ms) t
  | _ => []
  end.
Definition got (x : qres) : list bytes := match x with RGot ms _ _ => ms | _ => [] end.

(** ** Where a killed process does damage

    [r] is the ring when it took the lock, [s] when it was killed, at [line].
    The first two: in drop_unread, after r->r and before r->m is stored.
    Then: after r->e and before r->mp is stored, if messages were evicted;
    after r->i is stored for the first message and before r->m is.  Last, a
    ring with SHR_FARM between drop_unread and the eviction. *)
Definition torn_commit (r s : ring) (line : Z) : bool :=
  ((1000 <=? line) && (line <=? 1002))
  || (((line =? 975) || (line =? 976)) && negb ((r_e s =? r_e r) && (r_q s =? r_q r)))
  || ((986 <=? line) && (line <=? 995) && negb (r_i s =? r_i r)).
Definition torn (r s : ring) (line : Z) : bool :=
  (line =? 663) || (line =? 664) || torn_commit r s line
  || (r_farm r && (line <? 979) && negb (r_m s =? r_mp s)).
(** after r->r and before r->m is stored *)
Definition torn_read (line : Z) : bool := (line =? 840) || (line =? 841).
