(** * BwMicro: lib/bw.c statement by statement.  Model only, no proofs.

    Bw.v gives these functions as functions on the handle and the sockets.
    Here each store to the shared handle and each system call that changes the
    sockets is a step of its own, as in Micro.v, labelled with 10000 + its line
    in lib/bw.c.  What a process has in its own memory (its connections, its
    copy of seqno) is a variable of the program.

    Simplified: the 8 bytes of a socket name are stored in a slot at once (the
    slot is free at that moment, and the name of a free slot is never read). *)
From Verif Require Export Micro.

(** sequencing *)
Fixpoint bindp {S A B} (p : prog S A) (k : A -> prog S B) : prog S B :=
  match p with
  | Ret x => k x
  | At l f => At l (fun s =>
      match f s with
      | Ok sp => let '(s', p') := sp in Ok (s', bindp p' k)
      | Abort => Abort | UB => UB | Stuck => Stuck
      end)
  end.
(** a program on a part of the state *)
Fixpoint liftp {S T A} (get : T -> S) (put : T -> S -> T) (p : prog S A) : prog T A :=
  match p with
  | Ret x => Ret x
  | At l f => At l (fun t =>
      match f (get t) with
      | Ok sp => let '(s', p') := sp in Ok (put t s', liftp get put p')
      | Abort => Abort | UB => UB | Stuck => Stuck
      end)
  end.
Notation "'run!' x <- p ; q" := (bindp p (fun x => q)) (at level 200, x binder, right associativity).

(** one handle and the kernel's sockets *)
Record bks := mkbk { b_h : bwh; b_ks : socks }.
#[export] Instance eta_bks : Settable _ := settable! mkbk <b_h; b_ks>.
Definition slot (s : bks) (n : nat) : wslot := nth n (h_wr (b_h s)) ws_free.
(** wr[n].pid = pid; wr[n].name = name; seqno++ *)
Definition set_pid (s : bks) (n : nat) (pid : Z) : bks :=
  s <| b_h := (b_h s) <| h_wr := set_nat (h_wr (b_h s)) n (slot s n <| ws_pid := pid |>) |> |>.
Definition set_name (s : bks) (n : nat) (name : Z) : bks :=
  s <| b_h := (b_h s) <| h_wr := set_nat (h_wr (b_h s)) n (slot s n <| ws_name := name |>) |> |>.
Definition inc_seq (s : bks) : bks := s <| b_h := (b_h s) <| h_seq := h_seq (b_h s) + 1 |> |>.

Section Env.
Variable e : env.

(** l.97-111: prune_handle; [m] slots are left, from [n] on *)
Fixpoint prune_p (m n : nat) : prog bks unit :=
  match m with
  | O => Ret tt
  | S m' => At 10101 (fun s =>
      if (ws_pid (slot s n) =? 0) || negb (e_probe e (ws_pid (slot s n)) (ws_name (slot s n)) =? 0)
      then Ok (s, prune_p m' (S n))
      else Ok (s,
        At 10106 (fun s => Ok (set_pid s n 0,
        At 10107 (fun s => Ok (inc_seq s, prune_p m' (S n)))))))
  end.

(** l.183-198 with open_socket l.128-167: the loop of bw_sync.  [cs] are the
    caller's connections; the result, those afterwards and success *)
Fixpoint sync_p (m n : nat) (cs : list conn) : prog bks (list conn * bool) :=
  match m with
  | O => Ret (cs, true)
  | S m' => At 10187 (fun s =>
      let sl := slot s n in
      let c := nth n cs conn0 in
      let c := match cn_fd c with
               | Some _ => if (ws_pid sl =? 0) || negb (ws_name sl =? cn_name c) then c <| cn_fd := None |> else c
               | None => c end in
      match cn_fd c with
      | Some _ => Ok (s, sync_p m' (S n) (set_nat cs n c))
      | None =>
          if ws_pid sl =? 0 then Ok (s, sync_p m' (S n) (set_nat cs n c)) else
          let c := mkconn None (ws_name sl) in
          if negb (e_socket e (Z.of_nat n)) then Ok (s, Ret (set_nat cs n c, false)) else
          match (if e_connect e (Z.of_nat n) then sk_lookup (b_ks s) (ws_name sl) else None) with
          | Some k => Ok (s, sync_p m' (S n) (set_nat cs n (mkconn (Some k) (ws_name sl))))
          | None =>
              if e_probe e (ws_pid sl) (ws_name sl) =? 0
              then Ok (s,
                At 10159 (fun s => Ok (set_pid s n 0,
                At 10160 (fun s => Ok (inc_seq s, sync_p m' (S n) (set_nat cs n c))))))
              else Ok (s, Ret (set_nat cs n c, false))
          end
      end)
  end.
(** l.173-205: bw_sync *)
Definition bw_sync_p (seq : Z) (cs : list conn) : prog bks (Z * list conn * bool) :=
  At 10178 (fun s =>
    if seq =? h_seq (b_h s) then Ok (s, Ret (seq, cs, true)) else
    Ok (s, run! x <- sync_p BW_WAITMAX 0 cs;
           if snd x then At 10200 (fun s => Ok (s, Ret (h_seq (b_h s), fst x, true)))
           else Ret (seq, fst x, false))).

(** l.638-641 with wake_one l.601-619 *)
Fixpoint wake_p (m n : nat) (cs : list conn) : prog bks (list conn) :=
  match m with
  | O => Ret cs
  | S m' => At 10608 (fun s =>
      match cn_fd (nth n cs conn0) with
      | None => Ok (s, wake_p m' (S n) cs)
      | Some k =>
          if k_open (sk (b_ks s) k) && e_send e (Z.of_nat n) then
            Ok (if k_pend (sk (b_ks s) k) <? k_cap (sk (b_ks s) k)
                then s <| b_ks := sk_upd (b_ks s) k (fun x => x <| k_pend := k_pend x + 1 |>) |> else s,
                wake_p m' (S n) cs)
          else
            let cs := set_nat cs n (nth n cs conn0 <| cn_fd := None |>) in
            Ok (s,
              At 10617 (fun s => Ok (inc_seq s,
              At 10618 (fun s => Ok (set_pid s n 0, wake_p m' (S n) cs)))))
      end)
  end.
(** l.632-647: bw_wake; the boolean is "returned 0" *)
Definition bw_wake_p (w : bwt) : prog bks (bwt * bool) :=
  match w with
  | Wait _ _ _ => At 10635 (fun _ => Abort)
  | Wake seq cs =>
      run! x <- bw_sync_p seq cs;
      let '(seq, cs, ok) := x in
      if ok : bool then run! cs <- wake_p BW_WAITMAX 0 cs; Ret (Wake seq cs, true)
      else Ret (Wake seq cs, false)
  end.

(** l.340-433 with bw_reserve l.252-281 and make_socket l.207-249: bw_open in
    wait mode *)
Definition bw_open_wait_p (pid name : Z) : prog bks (option bwt) :=
  if negb (e_alloc e) then Ret None else
  run! _ <- prune_p BW_WAITMAX 0;
  At 10259 (fun s =>
    match find_free (h_wr (b_h s)) O with
    | None => Ok (s, Ret None)
    | Some n =>
        match (if e_bind e then sk_lookup (b_ks s) name else Some O) with
        | Some _ => Ok (s, Ret None)
        | None =>
            let sid := length (b_ks s) in
            Ok (s <| b_ks := b_ks s ++ [mksock name pid true 0 (Z.max 1 (e_cap e))] |>,
              At 10242 (fun s => Ok (set_name s n name,
              At 10269 (fun s => Ok (set_pid s n pid,
              At 10270 (fun s => Ok (inc_seq s,
              if e_self e then Ret (Some (Wait n sid []))
              else At 10424 (fun s => Ok (set_pid s n 0,
                   At 10425 (fun s => Ok (s <| b_ks := sk_upd (b_ks s) sid (fun x => x <| k_open := false |>) |>,
                   Ret None)))))))))))
        end
    end).
(** l.340-433: bw_open in wake mode *)
Definition bw_open_wake_p : prog bks (option bwt) :=
  if negb (e_alloc e) then Ret None else
  run! _ <- prune_p BW_WAITMAX 0;
  run! x <- bw_sync_p (-1) (repeat conn0 BW_WAITMAX);
  let '(seq, cs, ok) := x in
  Ret (if ok : bool then Some (Wake seq cs) else None).

(** l.708-738: bw_force.  Only the caller's own socket is touched. *)
Definition bw_force_p (w : bwt) (want : bool) : prog bks bool :=
  match w with
  | Wake _ _ => At 10713 (fun _ => Abort)
  | Wait _ sid _ =>
      if negb (e_force e) then Ret false else
      At 10715 (fun s =>
        let have := k_pend (sk (b_ks s) sid) >? 0 in
        Ok (if negb want && have then s <| b_ks := sk_upd (b_ks s) sid (fun x => x <| k_pend := 0 |>) |>
            else if want && negb have then s <| b_ks := sk_upd (b_ks s) sid (fun x => x <| k_pend := k_pend x + 1 |>) |>
            else s, Ret true))
  end.
End Env.

(** l.444-473: bw_close *)
Definition bw_close_p (w : bwt) : prog bks unit :=
  match w with
  | Wake _ _ => Ret tt
  | Wait n sid _ =>
      At 10457 (fun s => Ok (s <| b_ks := sk_upd (b_ks s) sid (fun x => x <| k_open := false |>) |>,
      At 10466 (fun s => Ok (set_pid s n 0,
      At 10467 (fun s => Ok (inc_seq s, Ret tt))))))
  end.
