(** * Micro: the critical sections of shr_writev and shr_readv statement by
    statement (src/shr.c).  Model only, no proofs.

    Ring.v gives the same code as functions from ring to ring.  Here each store
    to the shared ring is a step of its own, labelled with the line it is on,
    so that one can say what a process leaves behind if it is killed between
    two of them, and interleave processes at this granularity.  memcpy into the
    ring stores byte by byte.  (The C compiler may reorder the stores to mv[]
    and d[], which are not volatile, among themselves and around the volatile
    ones; the model has them in program order.) *)
From Verif Require Export Sys.

(** A program over shared state [S] with result [R]: finished, or about to
    execute the statement at [line], which may read and change the state, and
    then continue. *)
Inductive prog (S R : Type) :=
| Ret (x : R)
| At (line : Z) (f : S -> outcome (S * prog S R)).
Arguments Ret {S R} x.
Arguments At {S R} line f.

(** running a program to its end *)
Fixpoint exec_all {S R} (p : prog S R) (s : S) : outcome (S * R) :=
  match p with
  | Ret x => Ok (s, x)
  | At _ f =>
      match f s with
      | Ok sp => let '(s', p') := sp in exec_all p' s'
      | Abort => Abort | UB => UB | Stuck => Stuck
      end
  end.

(** A process running [p] from [s] is killed just before the statement at
    [line] and leaves [s']. *)
Inductive dies_at {S R} : prog S R -> S -> Z -> S -> Prop :=
| da_here line f s : dies_at (At line f) s line s
| da_next line f s s' p' l s'' : f s = Ok (s', p') -> dies_at p' s' l s'' -> dies_at (At line f) s l s''.

(** ** shr_writev *)
Section Write.
Variables (smm : Z) (iov : list bytes) (len : Z) (woken : bool).

(** l.655-660 *)
Fixpoint drop_loop_p {R} (fuel : nat) (niov need am ab i z p : Z) (k : Z -> Z -> Z -> prog ring R) : prog ring R :=
  if (niov >? u64 (am + i)) || (need >? u64 (ab + z)) then
    match fuel with
    | O => At 655 (fun _ => Stuck)
    | S fuel' =>
        At 656 (fun r =>
          do sl <- zget (r_mv r) p;
          let p' := u64 (p + 1) in
          Ok (r, drop_loop_p fuel' niov need am ab (u64 (i + 1)) (u64 (z + sl_len sl)) (if p' =? smm then 0 else p') k))
    end
  else k i z p.

(** l.634-670 *)
Definition drop_p {R} (need niov : Z) (k : prog ring R) : prog ring R :=
  At 639 (fun r =>
    assert! r_drop r;
    assert! (r_mm r >=? niov);
    assert! (r_m r <=? r_mp r);
    assert! (r_m r <=? r_mm r);
    assert! negb (r_mp r =? 0);
    Ok (r, drop_loop_p (S (Z.to_nat (r_mm r))) niov need (u64 (r_mm r - r_m r)) (u64 (r_n r - r_u r)) 0 0 (r_r r)
      (fun i z p =>
    At 662 (fun r => Ok (r <| r_r := p |>,
    At 663 (fun r => Ok (r <| r_u := u64 (r_u r - z) |>,
    At 664 (fun r => Ok (r <| r_m := u64 (r_m r - i) |>,
    At 665 (fun r => Ok (r <| r_stat := r_stat r <| st_bd := u64 (st_bd (r_stat r) + z) |> |>,
    At 666 (fun r => Ok (r <| r_stat := r_stat r <| st_md := u64 (st_md (r_stat r) + i) |> |>,
    At 668 (fun r =>
      assert! (u64 (r_n r - r_u r) >=? need);
      assert! (u64 (r_mm r - r_m r) >=? niov);
      Ok (r, k))))))))))))))).

(** l.960-973 *)
Fixpoint evict_p {R} (mp : nat) (n niov i e a : Z) (k : Z -> Z -> Z -> prog ring R) : prog ring R :=
  match mp with
  | O => k e a 0
  | S mp' =>
      At 961 (fun r =>
        do sl <- zget (r_mv r) e;
        let l := if i >? sl_pos sl then u64 (u64 (n - i) + sl_pos sl) else u64 (sl_pos sl - i) in
        if (len <=? l) && (u64 (smm - Z.of_nat mp) >=? niov) then Ok (r, k e a (Z.of_nat mp))
        else let e' := u64 (e + 1) in
             Ok (r, evict_p mp' n niov i (if e' =? smm then 0 else e') (u64 (a + 1)) k))
  end.

(** memcpy of [bs] to offset [pos] of the data region *)
Fixpoint bytes_p {R} (line pos : Z) (bs : bytes) (k : prog ring R) : prog ring R :=
  match bs with
  | [] => k
  | x :: t => At line (fun r => do d <- zset (r_d r) pos x; Ok (r <| r_d := d |>, bytes_p line (pos + 1) t k))
  end.

(** l.981-998 *)
Fixpoint copy_p {R} (iov : list bytes) (p : Z) (k : prog ring R) : prog ring R :=
  match iov with
  | [] => k
  | b :: t =>
      let bsz := zlen b in
      At 986 (fun r =>
        assert! (bsz >? 0);
        do old <- zget (r_mv r) p;
        do mv <- zset (r_mv r) p (mkslot (r_i r) (sl_len old));
        Ok (r <| r_mv := mv |>,
      At 987 (fun r =>
        do old <- zget (r_mv r) p;
        do mv <- zset (r_mv r) p (mkslot (sl_pos old) bsz);
        Ok (r <| r_mv := mv |>,
      At 989 (fun r =>
        let wraps := u64 (r_i r + bsz) >? r_n r in
        let l1 := if wraps then u64 (r_n r - r_i r) else bsz in
        let l2 := if wraps then u64 (bsz - l1) else 0 in
        do s1 <- rd_mem 0 l1 b;
        do s2 <- (if l2 =? 0 then Ok [] else rd_mem l1 l2 b);
        Ok (r,
      bytes_p 993 (r_i r) s1 (bytes_p 994 0 s2 (
      At 995 (fun r =>
        do i' <- umod (u64 (r_i r + bsz)) (r_n r);
        let p' := u64 (p + 1) in
        Ok (r <| r_i := i' |>, copy_p t (if p' =? r_mm r then 0 else p') k))))))))))
  end.

(** l.948-1007.  [woken]: bw_wake (l.1004) succeeds; it does not touch the
    ring. *)
Definition commit_p : prog ring bool :=
  let niov := zlen iov in
  At 949 (fun r =>
    assert! (u64 (r_n r - r_u r) >=? len);
    assert! (u64 (r_m r + niov) <=? r_mm r);
    assert! (r_mp r <=? r_mm r);
    Ok (r, evict_p (Z.to_nat (r_mp r)) (r_n r) niov (r_i r) (r_e r) 0 (fun e a mp =>
  At 974 (fun r => Ok (r <| r_e := e |>,
  At 975 (fun r => Ok (r <| r_q := u64 (r_q r + a) |>,
  At 976 (fun r => Ok (r <| r_mp := mp |>,
  At 979 (fun r => do p <- umod (u64 (r_e r + r_mp r)) (r_mm r);
    Ok (r, copy_p iov p (
  At 1000 (fun r => Ok (r <| r_u := u64 (r_u r + len) |>,
  At 1001 (fun r => Ok (r <| r_mp := u64 (r_mp r + niov) |>,
  At 1002 (fun r => Ok (r <| r_m := u64 (r_m r + niov) |>,
  At 1004 (fun r => Ok (r, if woken then
  At 1006 (fun r => Ok (r <| r_stat := r_stat r <| st_bw := u64 (st_bw (r_stat r) + len) |> |>,
  At 1007 (fun r => Ok (r <| r_stat := r_stat r <| st_mw := u64 (st_mw (r_stat r) + niov) |> |>, Ret true))))
    else Ret true)))))))))))))))))))).

(** l.928-1007; the result is false if there was no room *)
Definition write_p : prog ring bool :=
  At 929 (fun r =>
    if wr_space r len (zlen iov) then Ok (r, commit_p)
    else if r_drop r then Ok (r, drop_p len (zlen iov) commit_p)
    else Ok (r, Ret false)).
End Write.

(** ** shr_readv *)

(** what the reader has in its own memory during the copy loop (cf. [rdst]) *)
Record rloc := mkrl { rl_q : Z; rl_md : Z; rl_buf : bytes; rl_off : Z; rl_len : Z; rl_nr : Z; rl_iov : list (Z * Z) }.

(** l.822-845 *)
Fixpoint read_loop_p {R} (niov : nat) (cur : option seg) (x : rloc) (k : rloc -> option seg -> prog ring R) : prog ring R :=
  match cur with
  | None => k x None
  | Some s =>
    match niov with
    | O => k x cur
    | S niov' =>
      let l1 := seg_l1 s in
      let l2 := seg_l2 s in
      let l := u64 (l1 + l2) in
      if l >? rl_len x then k x cur else
      At 827 (fun r =>
        do a <- rd_mem (seg_pos s) l1 (r_d r);
        do buf <- wr_mem (rl_off x) a (rl_buf x);
        do buf <- (if l2 =? 0 then Ok buf else
                   do b <- rd_mem 0 l2 (r_d r);
                   wr_mem (rl_off x + l1) b buf);
        let next q :=
          At 844 (fun r =>
            do (q, md, cur') <- next_msg_info r q (rl_md x);
            Ok (r, read_loop_p niov' cur'
                 (mkrl q md buf (rl_off x + l) (u64 (rl_len x - l)) (rl_nr x + l) ((rl_off x, l) :: rl_iov x)) k)) in
        Ok (r, if r_farm r then next (u64 (rl_q x + 1)) else
          At 839 (fun r => do rr <- umod (u64 (r_r r + 1)) (r_mm r);
                           Ok (r <| r_r := rr |>,
          At 840 (fun r => Ok (r <| r_u := u64 (r_u r - l) |>,
          At 841 (fun r => Ok (r <| r_m := u64 (r_m r - 1) |>, next (rl_q x)))))))))
    end
  end.

(** l.803-848 *)
Definition read_p (q md : Z) (buf : bytes) (niov : Z) : prog ring (Z * Z * option (rloc * option seg)) :=
  let len := if zlen buf >? SSIZE_MAX then SSIZE_MAX else zlen buf in
  At 803 (fun r =>
    do (q, md, cur) <- next_msg_info r q md;
    Ok (r, match cur with
           | None => Ret (q, md, None)
           | Some _ =>
               read_loop_p (Z.to_nat niov) cur (mkrl q md buf 0 len 0 []) (fun x cur' =>
               At 847 (fun r => Ok (r <| r_stat := r_stat r <| st_br := u64 (st_br (r_stat r) + rl_nr x) |> |>,
               At 848 (fun r => Ok (r <| r_stat := r_stat r <| st_mr := u64 (st_mr (r_stat r) + zlen (rl_iov x)) |> |>,
               Ret (rl_q x, rl_md x, Some (x, cur'))))))) 
           end)).
