(** * Tool: util/shr-tool.c.  Model only.

    Modelled: unhex (l.191-216), decode_frames and do_subscriber (l.448-532),
    handle_io (l.655-768) in the modes read (raw), pub and tee, the -s option
    (l.979-991), the loop of the write command (l.1161-1172).  The library calls
    they make are events with results given from outside; what those do is the
    subject of the other files. *)
From Verif Require Export Ux.

Definition BUFLEN := 1000000.    (** l.36 *)
Definition NUMIOV := 1048576.    (** l.37 *)
Definition MAX_FRAME := 1048576. (** l.42 *)

(** ** Frames.  The length prefix is a uint32_t in host order, little endian
    on the machines the program runs on; both ends copy it with memcpy or
    write. *)
Definition le32 (n : Z) : bytes := [n mod 256; n / 256 mod 256; n / 65536 mod 256; n / 16777216 mod 256].
Definition un32 (b : bytes) : Z :=
  match b with [a; b; c; d] => a + 256 * b + 65536 * c + 16777216 * d | _ => 0 end.

(** *** handle_io, pub mode, l.704-740: publishing one message, the [nr] bytes
    shr_read put in the buffer.  [acc]: what each write() returns at most; a
    negative one is an error.  The result: what goes down the connection, and
    whether the client is still connected. *)
Fixpoint pub_body (body : bytes) (acc : list Z) : outcome (bytes * bool) :=
  match acc with
  | [] => Stuck
  | k :: acc =>
      if k <? 0 then Ok ([], false)            (* l.732-736: close_client, break *)
      else
        let nr := Z.min k (zlen body) in
        let sent := firstn (Z.to_nat nr) body in
        let rest := skipn (Z.to_nat nr) body in
        if zlen rest >? 0 then do (out, up) <- pub_body rest acc; Ok (sent ++ out, up)
        else Ok (sent, true)
  end.
Definition pub_msg (prefix : bool) (msg : bytes) (acc : list Z) : outcome (bytes * bool) :=
  if zlen msg =? 0 then Ok ([], true)         (* l.706-709 *)
  else if prefix then
    match acc with
    | [] => Stuck
    | k :: acc =>
        if k <? 0 then Ok ([], false)
        else
          assert! (4 <=? k);                  (* l.724 *)
          do (out, up) <- pub_body msg acc;
          Ok (le32 (zlen msg) ++ out, up)
    end
  else pub_body msg acc.

(** *** decode_frames, l.459-475.  [buf]: the used part of cfg.buf; [c]: an
    offset.  None: "discarding overlong frame".  Otherwise the offset reached
    and the iovec. *)
Fixpoint frame_loop (fuel : nat) (buf : bytes) (c : Z) (iov : list (Z * Z)) : outcome (option (Z * list (Z * Z))) :=
  match fuel with
  | O => Stuck
  | S fuel =>
      let eob := zlen buf in
      if c + 4 >? eob then Ok (Some (c, iov)) else
      do b <- rd_mem c 4 buf;
      let blen := un32 b in
      if blen >? MAX_FRAME then Ok None else
      let body := c + 4 in
      if body + blen >? eob then Ok (Some (c, iov)) else
      if NUMIOV <=? zlen iov then UB else       (* cfg.sub_iov[ iov_used ] *)
      let iov := iov ++ [(body, blen)] in
      if zlen iov =? NUMIOV then Ok (Some (c, iov)) else
      frame_loop fuel buf (c + 4 + blen) iov
  end.
Inductive subres := SubErr | SubOk (written : option (list bytes)) (buf : bytes).
(** l.448-493.  [wrote iov]: shr_writev succeeds.  [written]: what was passed to
    shr_writev, if it was called. *)
Definition decode_frames (wrote : list bytes -> bool) (buf : bytes) : outcome subres :=
  do r <- frame_loop (S (length buf)) buf 0 [];
  match r with
  | None => Ok SubErr
  | Some (c, iov) =>
      match iov with
      | [] => Ok (SubOk None buf)
      | _ =>
          let ms := map (fun p => sub (fst p) (snd p) buf) iov in
          if wrote ms then Ok (SubOk (Some ms) (skipn (Z.to_nat c) buf)) else Ok SubErr
      end
  end.
(** l.501-532: one read() of [k] bytes (at most [avail], at least 1) out of what
    is still to come on the connection, and decoding.  None: end of stream or
    error, the tool exits. *)
Definition do_subscriber (wrote : list bytes -> bool) (buf stream : bytes) (k : Z) : outcome (option (option (list bytes) * bytes * bytes)) :=
  assert! (zlen buf <? BUFLEN);
  let avail := BUFLEN - zlen buf in
  let nr := Z.min (Z.min (Z.max 1 k) avail) (zlen stream) in
  if nr <=? 0 then Ok None else
  do r <- decode_frames wrote (buf ++ firstn (Z.to_nat nr) stream);
  match r with
  | SubErr => Ok None
  | SubOk w buf' => Ok (Some (w, buf', skipn (Z.to_nat nr) stream))
  end.
(** the event loop of the subscriber: what it passed to shr_writev, in order,
    call by call; what is left in the buffer; whether it is still running *)
Fixpoint subscribe (wrote : list bytes -> bool) (buf stream : bytes) (ks : list Z) : outcome (list (list bytes) * bytes * bool) :=
  match ks with
  | [] => Ok ([], buf, true)
  | k :: ks =>
      if zlen stream =? 0 then Ok ([], buf, true) else  (* nothing has arrived: epoll_wait *)
      do r <- do_subscriber wrote buf stream k;
      match r with
      | None => Ok ([], buf, false)
      | Some (w, buf', stream') =>
          do (ws, b, up) <- subscribe wrote buf' stream' ks;
          Ok (match w with Some ms => ms :: ws | None => ws end, b, up)
      end
  end.

(** ** handle_io, raw read mode, l.687-697: [nr] bytes of cfg.buf are to be
    written; each iteration starts again from cfg.buf.  [acc] as above; nw is
    unsigned, so that -1 is not seen as an error and makes nr grow.  The
    result: what was written to the output. *)
Fixpoint raw_out (buf : bytes) (nr : Z) (acc : list Z) : outcome bytes :=
  match acc with
  | [] => Stuck
  | k :: acc =>
      do want <- rd_mem 0 nr buf;              (* write() reads nr bytes at cfg.buf *)
      let nw := if k <? 0 then -1 else Z.min k nr in
      let sent := if k <? 0 then [] else firstn (Z.to_nat nw) want in
      let nr' := nr - nw in
      if nr' >? 0 then do out <- raw_out buf nr' acc; Ok (sent ++ out) else Ok sent
  end.

(** ** handle_io, tee mode, l.742-756: a state machine.  It makes a call, gets
    a result, makes the next call. *)
Inductive tcall := TRead | TWrite1 (m : bytes) | TWrite2 (m : bytes).
(** result of shr_read: the return value and, if positive, the bytes; of
    shr_write: the return value *)
Inductive tres := TGot (nr : Z) (m : bytes) | TPut (rc : Z).
Inductive tstate := TCall (c : tcall) | TExit.
Definition tee_next (c : tcall) (x : tres) : option tstate :=
  match c, x with
  | TRead, TGot nr m =>
      if nr <? 0 then Some TExit               (* l.663-666 *)
      else if nr =? 0 then Some (TCall TRead)   (* l.668-672, 744-747 *)
      else Some (TCall (TWrite1 m))
  | TWrite1 m, TPut rc => if rc <? 0 then Some TExit else Some (TCall (TWrite2 m))
  | TWrite2 m, TPut rc => if rc <? 0 then Some TExit else Some (TCall TRead)
  | _, _ => None
  end.
(** an execution: the calls made and their results *)
Inductive tee_run : list (tcall * tres) -> tstate -> Prop :=
| tr_start : tee_run [] (TCall TRead)
| tr_next t c x s : tee_run t (TCall c) -> tee_next c x = Some s -> tee_run (t ++ [(c, x)]) s.

(** ** unhex, l.191-216 *)
Definition hexval (c : Z) : option Z :=
  if (48 <=? c) && (c <=? 57) then Some (c - 48)
  else if (97 <=? c) && (c <=? 102) then Some (c - 87)
  else if (65 <=? c) && (c <=? 70) then Some (c - 55)
  else None.
Definition is_space (c : Z) : bool := (c =? 32) || ((9 <=? c) && (c <=? 13)).
Fixpoint skip_space (s : bytes) : bytes := match s with c :: t => if is_space c then skip_space t else s | [] => [] end.
(** sscanf(s, "%2x", &u): white space is skipped, then at most two characters
    are read: an optional sign, digits.  None: no conversion.  (The prefix 0x,
    which a width of two leaves without digits, is no conversion here; libraries
    differ.) *)
Definition scan2x (s : bytes) : option Z :=
  match skip_space s with
  | a :: t =>
      match hexval a with
      | Some x =>
          match t with
          | b :: _ => if (a =? 48) && ((b =? 120) || (b =? 88)) then None else
                      match hexval b with Some y => Some (16 * x + y) | None => Some x end
          | [] => Some x
          end
      | None =>
          if (a =? 43) || (a =? 45) then
            match t with
            | b :: _ => match hexval b with
                        | Some y => Some (if a =? 45 then (- y) mod 4294967296 else y)
                        | None => None
                        end
            | [] => None
            end
          else None
      end
  | [] => None
  end.
(** the string at offset [i] of an array: up to the next 0 *)
Definition cstr (h : bytes) (i : Z) : outcome bytes :=
  do n <- strlen (skipn (Z.to_nat i) h);
  Ok (sub i n h).
(** l.199-204; None: failure *)
Fixpoint unhex_loop (fuel : nat) (h : bytes) (i len : Z) : outcome (option bytes) :=
  match fuel with
  | O => Stuck
  | S fuel =>
      if i <? len then
        do s <- cstr h i;
        match scan2x s with
        | None => Ok None
        | Some u =>
            assert! (u <=? 255);
            do h <- zset h (i / 2) u;
            unhex_loop fuel h (i + 2) len
        end
      else Ok (Some h)
  end.
(** the array afterwards and the number of bytes, or None for -1 *)
Definition unhex (h : bytes) : outcome (option (bytes * Z)) :=
  do len <- strlen h;
  if len =? 0 then Ok None else
  if Z.odd len then Ok None else
  do r <- unhex_loop (S (length h)) h 0 len;
  Ok (match r with None => None | Some h' => Some (h', len / 2) end).

(** ** the -s option, l.979-991: sscanf(optarg, "%ld%c", &size, &unit).
    Modelled for arguments that begin with a digit; numbers beyond LONG_MAX
    saturate (strtol).  None: usage(), the tool exits. *)
Fixpoint scan_digits (s : bytes) (n : Z) : Z * bytes :=
  match s with
  | c :: t => if digit c then scan_digits t (n * 10 + (c - 48)) else (n, s)
  | [] => (n, [])
  end.
Definition mul1024 (x : Z) : Z := u64 (x * 1024).
Definition size_arg (s : bytes) : option Z :=
  match s with
  | c :: _ =>
      if digit c then
        let '(n, rest) := scan_digits s 0 in
        let size := Z.min n SSIZE_MAX in
        match rest with
        | [] => Some size
        | u :: _ =>
            if (u =? 116) || (u =? 84) then Some (mul1024 (mul1024 (mul1024 (mul1024 size))))
            else if (u =? 103) || (u =? 71) then Some (mul1024 (mul1024 (mul1024 size)))
            else if (u =? 109) || (u =? 77) then Some (mul1024 (mul1024 size))
            else if (u =? 107) || (u =? 75) then Some (mul1024 size)
            else None
        end
      else None
  | [] => None
  end.

(** ** the write command, l.1165-1172.  fgets reads at most 999 bytes, up to
    and including a newline; strlen stops at a 0.  [put]: shr_write accepts the
    message.  The result: the messages passed to shr_write, and whether all of
    stdin was processed. *)
Definition LINE := 1000.
Fixpoint fgets (room : nat) (s : bytes) : bytes * bytes :=
  match room, s with
  | S room, c :: t => if c =? 10 then ([c], t) else let '(l, r) := fgets room t in (c :: l, r)
  | _, _ => ([], s)
  end.
Definition chomp (l : bytes) : bytes :=
  match rev l with c :: t => if c =? 10 then rev t else l | [] => [] end.
Fixpoint upto0 (l : bytes) : bytes := match l with c :: t => if c =? 0 then [] else c :: upto0 t | [] => [] end.
Fixpoint write_lines (fuel : nat) (put : bytes -> bool) (s : bytes) : outcome (list bytes * bool) :=
  match fuel with
  | O => Stuck
  | S fuel =>
      if zlen s =? 0 then Ok ([], true) else
      let '(l, s') := fgets (Z.to_nat (LINE - 1)) s in
      let m := chomp (upto0 l) in
      if put m then do (ms, fin) <- write_lines fuel put s'; Ok (m :: ms, fin)
      else Ok ([m], false)
  end.
Definition cmd_write (put : bytes -> bool) (stdin : bytes) : outcome (list bytes * bool) :=
  write_lines (S (length stdin)) put stdin.
