(** * Ring: the shared control region and the code that runs on it under the
    file lock (src/shr.c).  Model only, no proofs. *)
From Verif Require Export Base.
From RecordUpdate Require Export RecordUpdate.

(** src/shr.h l.73-88: flag bits *)
Definition SHR_KEEPEXIST  : Z := 1.      (* 1U << 0 *)
Definition SHR_DROP       : Z := 2.      (* 1U << 1 *)
Definition SHR_APPDATA_1  : Z := 4.      (* 1U << 2 *)
Definition SHR_FARM       : Z := 8.      (* 1U << 3 *)
Definition SHR_MAXMSGS_2  : Z := 16.     (* 1U << 4 *)
Definition SHR_SYNC       : Z := 32.     (* 1U << 5 *)
Definition SHR_MLOCK      : Z := 64.     (* 1U << 6 *)
Definition SHR_OPEN_FENCE : Z := 4096.   (* 1U << 12 *)
Definition SHR_RDONLY     : Z := 8192.   (* 1U << 13 *)
Definition SHR_WRONLY     : Z := 16384.  (* 1U << 14 *)
Definition SHR_NONBLOCK   : Z := 32768.  (* 1U << 15 *)
Definition SHR_BUFFERED   : Z := 65536.  (* 1U << 16 *)
Definition SHR_POLLFD     : Z := 131072. (* 1U << 17 *)

(** src/shr.c l.25-28: struct msg *)
Record slot := mkslot { sl_pos : Z; sl_len : Z }.

(** src/shr.h l.26-36: the counters of struct shr_stat kept in the ring.
    The bn/bu/mu/mm/cn/cm/cb/flags fields of the in-ring copy are never
    written (they stay 0) and are overwritten on the way out by shr_stat, so
    they are not modelled here. *)
Record rstat := mkstat {
  st_start : Z * Z;
  st_bw : Z; st_br : Z; st_mw : Z; st_mr : Z; st_md : Z; st_bd : Z }.
Definition stat0 : rstat := mkstat (0,0) 0 0 0 0 0 0.

(** src/shr.c l.36-55: shr_ctrl, followed in the file by data, padding, slot
    table and appdata (src/internals.txt l.3-5).  Simplifications: the magic is
    handled in Init.v; the two bw_handle members live in the world of
    System.v; the three regions after the struct are three separate lists, and
    an access that leaves its own region is [UB] even if it would stay inside
    the file. *)
Record ring := mkring {
  r_gflags : Z;
  r_n : Z;           (* allocd size *)
  r_i : Z;           (* offset for next write *)
  r_u : Z;           (* unread bytes *)
  r_m : Z;           (* unread messages *)
  r_mp : Z;          (* messages present, unread + read *)
  r_r : Z;           (* slot number for next read *)
  r_e : Z;           (* slot number of eldest message *)
  r_q : Z;           (* sequence number of eldest message *)
  r_stat : rstat;
  r_mm : Z;          (* max messages = number of slots *)
  r_mv_len : Z;
  r_pad_len : Z;
  r_app_len : Z;
  r_d : bytes;       (* data region *)
  r_mv : list slot;  (* slot table *)
  r_app : bytes }.   (* appdata region *)

#[export] Instance eta_stat : Settable _ :=
  settable! mkstat <st_start; st_bw; st_br; st_mw; st_mr; st_md; st_bd>.
#[export] Instance eta_ring : Settable _ :=
  settable! mkring <r_gflags; r_n; r_i; r_u; r_m; r_mp; r_r; r_e; r_q; r_stat;
    r_mm; r_mv_len; r_pad_len; r_app_len; r_d; r_mv; r_app>.

Definition r_drop (r : ring) : bool := has (r_gflags r) SHR_DROP.
Definition r_farm (r : ring) : bool := has (r_gflags r) SHR_FARM.

(** src/shr.c l.654-660: the loop of drop_unread.  [fuel] bounds the number of
    iterations granted to it. *)
Fixpoint drop_loop (fuel : nat) (mv : list slot) (smm niov need am ab : Z)
    (i z p : Z) : outcome (Z * Z * Z) :=
  if (niov >? u64 (am + i)) || (need >? u64 (ab + z)) then
    match fuel with
    | O => Stuck
    | S fuel' =>
        do sl <- zget mv p;
        let z := u64 (z + sl_len sl) in
        let i := u64 (i + 1) in
        let p := u64 (p + 1) in
        let p := if p =? smm then 0 else p in
        drop_loop fuel' mv smm niov need am ab i z p
    end
  else Ok (i, z, p).

(** src/shr.c l.634-670: drop_unread; [smm] is s->mm. *)
Definition drop_unread (r : ring) (smm need niov : Z) : outcome ring :=
  let ab := u64 (r_n r - r_u r) in
  let am := u64 (r_mm r - r_m r) in
  assert! r_drop r;
  assert! (r_mm r >=? niov);
  assert! (r_m r <=? r_mp r);
  assert! (r_m r <=? r_mm r);
  assert! negb (r_mp r =? 0);
  do (i, z, p) <- drop_loop (S (Z.to_nat (r_mm r))) (r_mv r) smm niov need am ab 0 0 (r_r r);
  let r := r <| r_r := p |>
             <| r_u := u64 (r_u r - z) |>
             <| r_m := u64 (r_m r - i) |>
             <| r_stat := r_stat r <| st_bd := u64 (st_bd (r_stat r) + z) |>
                                   <| st_md := u64 (st_md (r_stat r) + i) |> |> in
  assert! (u64 (r_n r - r_u r) >=? need);
  assert! (u64 (r_mm r - r_m r) >=? niov);
  Ok r.

(** The two segments next_msg_info returns: *m1 = &r->d[seg_pos], length
    seg_l1, and *m2 = r->d, length seg_l2. *)
Record seg := mkseg { seg_pos : Z; seg_l1 : Z; seg_l2 : Z }.

(** src/shr.c l.725-762: next_msg_info.  [q] and [md] are s->q and s->md. *)
Definition next_msg_info (r : ring) (q md : Z) : outcome (Z * Z * option seg) :=
  let '(q, md) :=
    if r_farm r && (q <? r_q r) then (r_q r, u64 (md + u64 (r_q r - q)))
    else (q, md) in
  let ready := if r_farm r then q <? u64 (r_q r + r_mp r)
               else negb (r_m r =? 0) in
  if negb ready then Ok (q, md, None) else
  do slot <- (if r_farm r then umod q (r_mm r) else Ok (r_r r));
  do sl <- zget (r_mv r) slot;
  let pos := sl_pos sl in
  let len := sl_len sl in
  let wraps := u64 (pos + len) >? r_n r in
  let l1 := if wraps then u64 (r_n r - pos) else len in
  let l2 := if wraps then u64 (len - l1) else 0 in
  Ok (q, md, Some (mkseg pos l1 l2)).

(** State of the copy loop of shr_readv: ring, s->q, s->md, the caller buffer
    (whole), offset of [buf] in it, remaining [len], bytes read [nr], and the
    iovecs filled so far, as (offset, length), latest first. *)
Record rdst := mkrd {
  rd_ring : ring; rd_q : Z; rd_md : Z;
  rd_buf : bytes; rd_off : Z; rd_len : Z; rd_nr : Z;
  rd_iov : list (Z * Z) }.

(** src/shr.c l.822-845: the copy loop of shr_readv; [niov] is *niov.
    Returns the final state and the last msg_ready/segment pair. *)
Fixpoint rd_loop (niov : nat) (cur : option seg) (x : rdst)
  : outcome (rdst * option seg) :=
  match cur with
  | None => Ok (x, None)
  | Some s =>
    match niov with
    | O => Ok (x, cur)
    | S niov' =>
      let l1 := seg_l1 s in
      let l2 := seg_l2 s in
      let l := u64 (l1 + l2) in
      if l >? rd_len x then Ok (x, cur) else
      let r := rd_ring x in
      do a <- rd_mem (seg_pos s) l1 (r_d r);
      do buf <- wr_mem (rd_off x) a (rd_buf x);
      do buf <- (if l2 =? 0 then Ok buf else
                 do b <- rd_mem 0 l2 (r_d r);
                 wr_mem (rd_off x + l1) b buf);
      do (r', q) <-
        (if r_farm r then Ok (r, u64 (rd_q x + 1)) else
         do rr <- umod (u64 (r_r r + 1)) (r_mm r);
         Ok (r <| r_r := rr |>
               <| r_u := u64 (r_u r - l) |>
               <| r_m := u64 (r_m r - 1) |>, rd_q x));
      do (q, md, cur') <- next_msg_info r' q (rd_md x);
      rd_loop niov' cur'
        (mkrd r' q md buf (rd_off x + l) (u64 (rd_len x - l)) (rd_nr x + l)
              ((rd_off x, l) :: rd_iov x))
    end
  end.

(** src/shr.c l.888-895: the length check of shr_writev.  [lens] are the
    iov_len fields, [sn] = s->n, [smm] = s->mm.  None is [goto done] with
    rc = -1. *)
Fixpoint len_loop (lens : list Z) (niov sn smm len : Z) : option Z :=
  match lens with
  | [] => Some len
  | l :: t =>
      let len := u64 (len + l) in
      if len =? 0 then None
      else if len >? SSIZE_MAX then None
      else if len >? sn then None
      else if niov >? smm then None
      else len_loop t niov sn smm len
  end.
Definition wr_check (lens : list Z) (sn smm : Z) : option Z :=
  match len_loop lens (zlen lens) sn smm 0 with
  | Some len => if len =? 0 then None else Some len
  | None => None
  end.

(** src/shr.c l.929-930: is there room? *)
Definition wr_space (r : ring) (len niov : Z) : bool :=
  (u64 (r_n r - r_u r) >=? len) && (u64 (r_mm r - r_m r) >=? niov).

(** src/shr.c l.960-973: advance the eldest position.  The loop counts the
    local copy [mp] of r->mp down to 0, hence the recursion on it. *)
Fixpoint evict_loop (mp : nat) (mv : list slot) (n smm len niov i : Z)
    (e a : Z) : outcome (Z * Z * Z) :=
  match mp with
  | O => Ok (e, a, 0)
  | S mp' =>
      do sl <- zget mv e;
      let l := if i >? sl_pos sl then u64 (u64 (n - i) + sl_pos sl)
               else u64 (sl_pos sl - i) in
      if (len <=? l) && (u64 (smm - Z.of_nat mp) >=? niov)
      then Ok (e, a, Z.of_nat mp)
      else
        let e := u64 (e + 1) in
        let e := if e =? smm then 0 else e in
        evict_loop mp' mv n smm len niov i e (u64 (a + 1))
  end.

(** src/shr.c l.981-998: the copy loop of shr_writev; [p] is the slot. *)
Fixpoint copy_loop (iov : list bytes) (r : ring) (p : Z) : outcome ring :=
  match iov with
  | [] => Ok r
  | b :: t =>
      let bsz := zlen b in
      assert! (bsz >? 0);
      do mv <- zset (r_mv r) p (mkslot (r_i r) bsz);
      let r := r <| r_mv := mv |> in
      let wraps := u64 (r_i r + bsz) >? r_n r in
      let l1 := if wraps then u64 (r_n r - r_i r) else bsz in
      let l2 := if wraps then u64 (bsz - l1) else 0 in
      do s1 <- rd_mem 0 l1 b;
      do d <- wr_mem (r_i r) s1 (r_d r);
      do d <- (if l2 =? 0 then Ok d else
               do s2 <- rd_mem l1 l2 b; wr_mem 0 s2 d);
      let r := r <| r_d := d |> in
      do i' <- umod (u64 (r_i r + bsz)) (r_n r);
      let r := r <| r_i := i' |> in
      let p := u64 (p + 1) in
      let p := if p =? r_mm r then 0 else p in
      copy_loop t r p
  end.

(** src/shr.c l.948-1002: from "sufficient free space has been made available"
    to the update of u, mp, m.  [smm] is s->mm, [len] the total length. *)
Definition wr_commit (r : ring) (smm : Z) (iov : list bytes) (len : Z) : outcome ring :=
  let niov := zlen iov in
  assert! (u64 (r_n r - r_u r) >=? len);
  assert! (u64 (r_m r + niov) <=? r_mm r);
  assert! (r_mp r <=? r_mm r);
  do (e, a, mp) <- evict_loop (Z.to_nat (r_mp r)) (r_mv r) (r_n r) smm len niov (r_i r) (r_e r) 0;
  let r := r <| r_e := e |> <| r_q := u64 (r_q r + a) |> <| r_mp := mp |> in
  do p <- umod (u64 (r_e r + r_mp r)) (r_mm r);
  do r <- copy_loop iov r p;
  Ok (r <| r_u := u64 (r_u r + len) |>
        <| r_mp := u64 (r_mp r + niov) |>
        <| r_m := u64 (r_m r + niov) |>).

(** src/shr.c l.1006-1007: counters after a write; l.847-848 after a read. *)
Definition stat_wrote (r : ring) (len niov : Z) : ring :=
  r <| r_stat := r_stat r <| st_bw := u64 (st_bw (r_stat r) + len) |>
                          <| st_mw := u64 (st_mw (r_stat r) + niov) |> |>.
Definition stat_read (r : ring) (nr mc : Z) : ring :=
  r <| r_stat := r_stat r <| st_br := u64 (st_br (r_stat r) + nr) |>
                          <| st_mr := u64 (st_mr (r_stat r) + mc) |> |>.

(** src/shr.c l.928-1002: the write critical section as far as it concerns the
    ring: None means there was no room and the ring is not in DROP mode. *)
Definition ring_write (r : ring) (smm : Z) (iov : list bytes) (len : Z) : outcome (option ring) :=
  do go <- (if wr_space r len (zlen iov) then Ok (Some r)
            else if r_drop r then do r' <- drop_unread r smm len (zlen iov); Ok (Some r')
            else Ok None);
  match go with
  | None => Ok None
  | Some r => do r <- wr_commit r smm iov len; Ok (Some r)
  end.

(** src/shr.c l.803-848: the read critical section as far as it concerns the
    ring and s->q, s->md: None means there was no message. *)
Definition ring_read (r : ring) (q md : Z) (buf : bytes) (niov : Z)
  : outcome (Z * Z * option (rdst * option seg)) :=
  let len := if zlen buf >? SSIZE_MAX then SSIZE_MAX else zlen buf in
  do (q, md, cur) <- next_msg_info r q md;
  match cur with
  | None => Ok (q, md, None)
  | Some _ =>
      do (x, cur') <- rd_loop (Z.to_nat niov) cur (mkrd r q md buf 0 len 0 []);
      let x := mkrd (stat_read (rd_ring x) (rd_nr x) (zlen (rd_iov x))) (rd_q x) (rd_md x)
                    (rd_buf x) (rd_off x) (rd_len x) (rd_nr x) (rd_iov x) in
      Ok (rd_q x, rd_md x, Some (x, cur'))
  end.
