(** * Tool2: more of util/shr-tool.c.  Model only.

    hexdump (l.169-188), parse_spec (l.263-308), the publisher's event loop
    (close_client, handle_client, accept_client, handle_signal, handle_io in pub
    mode; l.534-740, and l.1290-1300), the read command's loop (l.655-702), the
    options of create (l.966-1008, l.1078-1096), the attributes line of status
    (l.1117-1123).  Library and system calls are inputs. *)
From Verif Require Export Tool Init.

(** ** hexdump, l.169-188.  [buf]: the array; [len]: the argument.  "%08x" of
    (int)n prints the low 32 bits. *)
Definition hexdig (x : Z) : Z := if x <? 10 then 48 + x else 87 + x.
Definition hex8 (n : Z) : bytes := map (fun k => hexdig (n / 16 ^ k mod 16)) [7; 6; 5; 4; 3; 2; 1; 0].
Definition hex2 (c : Z) : bytes := [hexdig (c / 16); hexdig (c mod 16)].
Fixpoint for_each (f : Z -> outcome bytes) (l : list Z) : outcome bytes :=
  match l with [] => Ok [] | i :: t => do a <- f i; do b <- for_each f t; Ok (a ++ b) end.
Definition cols : list Z := [0; 1; 2; 3; 4; 5; 6; 7; 8; 9; 10; 11; 12; 13; 14; 15].
Definition dump_line (buf : bytes) (len n : Z) : outcome bytes :=
  do hx <- for_each (fun i =>                                (* l.174-178 *)
             if n + i <? len then do b <- rd_mem (n + i) 1 buf; Ok (flat_map hex2 b ++ [32])
             else Ok [32; 32; 32]) cols;
  do tx <- for_each (fun i =>                                (* l.179-183 *)
             do b <- (if n + i <? len then rd_mem (n + i) 1 buf else Ok [32]);
             Ok (map (fun c => if (c <? 32) || (c >? 126) then 46 else c) b)) cols;
  Ok (hex8 n ++ [32] ++ hx ++ tx ++ [10]).
Fixpoint dump_loop (fuel : nat) (buf : bytes) (len n : Z) : outcome bytes :=
  match fuel with
  | O => Stuck
  | S fuel =>
      if n <? len then
        do l <- dump_line buf len n; do t <- dump_loop fuel buf len (n + 16); Ok (l ++ t)
      else Ok []
  end.
Definition hexdump (buf : bytes) (len : Z) : outcome bytes := dump_loop (S (length buf)) buf len 0.

(** ** parse_spec, l.263-308.  atoi is (int)strtol(p, NULL, 10): white space, a
    sign, digits; beyond the range of long the result is the limit; the
    conversion to int keeps the low 32 bits.  [lookup]: gethostbyname.  The
    result: the address (None: INADDR_ANY) and the port. *)
Definition s32 (x : Z) : Z := let y := x mod 4294967296 in if y >=? 2147483648 then y - 4294967296 else y.
Definition atoi (s : bytes) : Z :=
  let s := skip_space s in
  match s with
  | c :: t =>
      if c =? 45 then s32 (Z.max (- fst (scan_digits t 0)) (- SSIZE_MAX - 1))
      else s32 (Z.min (fst (scan_digits (if c =? 43 then t else s) 0)) SSIZE_MAX)
  | [] => 0
  end.
Fixpoint split_colon (s : bytes) : option (bytes * bytes) :=
  match s with
  | c :: t => if c =? 58 then Some ([], t) else match split_colon t with Some (a, b) => Some (c :: a, b) | None => None end
  | [] => None
  end.
Definition parse_spec {addr : Type} (lookup : bytes -> option addr) (spec : bytes) : option (option addr * Z) :=
  let port p a := let port := atoi p in if (port <=? 0) || (port >? 65535) then None else Some (a, port) in
  match split_colon spec with
  | Some (h, p) => match lookup h with None => None | Some a => port p (Some a) end
  | None => port spec None
  end.

(** ** the publisher.  [p_fd]: the client served (cfg.pub_fd; connections are
    numbered in the order of accept); [p_mon]: whether the ring is polled;
    [p_conns]: connections accepted so far *)
Record pst := mkpst { p_fd : option nat; p_mon : bool; p_conns : nat }.
#[export] Instance eta_pst : Settable _ := settable! mkpst <p_fd; p_mon; p_conns>.
(** what epoll_wait reports, and the results of the calls made in response:
    accept(); recv(); shr_read (None: an error; empty: 0) and the write()s (as
    in [pub_body]); the signal, SIGALRM or another *)
Inductive pev :=
| PAccept (ok : bool)
| PClient (nr : Z)
| PRing (got : option bytes) (acc : list Z)
| PSignal (alarm : bool).
(** the descriptors that epoll watches *)
Definition polled (s : pst) (e : pev) : bool :=
  match e with
  | PAccept _ | PSignal _ => true
  | PClient _ => match p_fd s with Some _ => true | None => false end
  | PRing _ _ => p_mon s
  end.
(** l.534-547 (epoll_ctl does not fail) *)
Definition close_client (s : pst) : pst := s <| p_fd := None |> <| p_mon := false |>.
(** one round of the loop, l.1290-1300.  None: the tool exits.  Otherwise the
    new state and what was sent to the client. *)
Definition pub_step (prefix : bool) (s : pst) (e : pev) : outcome (option (pst * bytes)) :=
  match e with
  | PAccept ok =>                                          (* l.587-620 *)
      if negb ok then Ok None else
      let n := p_conns s in
      match p_fd s with
      | Some _ => Ok (Some (s <| p_conns := S n |>, []))     (* refused *)
      | None => Ok (Some (mkpst (Some n) true (S n), []))
      end
  | PClient nr =>                                          (* l.556-585 *)
      assert! (match p_fd s with Some _ => true | None => false end);
      if nr <? 0 then Ok None
      else if nr =? 0 then Ok (Some (close_client s, []))
      else Ok (Some (s, []))
  | PRing None _ => Ok None                                (* l.663-666 *)
  | PRing (Some m) acc =>                                  (* l.704-740 *)
      assert! (match p_fd s with Some _ => true | None => false end);
      do (out, up) <- pub_msg prefix m acc;
      Ok (Some (if up then s else close_client s, out))
  | PSignal alarm => if alarm then Ok (Some (s, [])) else Ok None   (* l.622-647 *)
  end.
(** executions: the events, each with the client served when it came and what
    was sent in response *)
Record pitem := mkpi { pi_ev : pev; pi_conn : option nat; pi_out : bytes }.
Inductive pub_run (prefix : bool) : list pitem -> pst -> Prop :=
| pr_start : pub_run prefix [] (mkpst None false 0)
| pr_next t s e s' out : pub_run prefix t s -> polled s e = true -> pub_step prefix s e = Ok (Some (s', out)) ->
    pub_run prefix (t ++ [mkpi e (p_fd s) out]) s'.

(** ** the read command, l.655-702: [rs] are the results of shr_read (as above),
    one per round; [max] is cfg.max_msgs (0: no limit).  The result: the
    messages printed, and whether the tool has exited. *)
Fixpoint read_cmd (block : bool) (max nread : Z) (rs : list (option bytes)) : list bytes * bool :=
  match rs with
  | [] => ([], false)
  | None :: _ => ([], true)
  | Some m :: rs =>
      if zlen m =? 0 then if block then read_cmd block max nread rs else ([], true)
      else
        let nread := nread + 1 in
        if (max >? 0) && (nread >=? max) then ([m], true)
        else let '(o, e) := read_cmd block max nread rs in (m :: o, e)
  end.

(** ** options of create *)
(** -m, l.992-1005.  None: usage() *)
Fixpoint mode_flags (c : bytes) (flags : Z) : option Z :=
  match c with
  | [] => Some flags
  | x :: t =>
      if x =? 100 then mode_flags t (Z.lor flags SHR_DROP)
      else if x =? 107 then mode_flags t (Z.lor flags SHR_KEEPEXIST)
      else if x =? 102 then mode_flags t (Z.lor flags SHR_FARM)
      else if x =? 115 then mode_flags t (Z.lor flags SHR_SYNC)
      else if x =? 108 then mode_flags t (Z.lor flags SHR_MLOCK)
      else None
  end.
(** the option loop, for the options create has; cfg.max_msgs is a size_t *)
Inductive copt := OptS (arg : bytes) | OptM (arg : bytes) | OptN (arg : bytes) | OptA (file : bytes).
Record ccfg := mkcc { cc_size : Z; cc_flags : Z; cc_max : Z; cc_file : option bytes }.
#[export] Instance eta_ccfg : Settable _ := settable! mkcc <cc_size; cc_flags; cc_max; cc_file>.
Fixpoint getopts (os : list copt) (c : ccfg) : option ccfg :=
  match os with
  | [] => Some c
  | OptS a :: os => match size_arg a with Some n => getopts os (c <| cc_size := n |>) | None => None end
  | OptM a :: os => match mode_flags a (cc_flags c) with Some f => getopts os (c <| cc_flags := f |>) | None => None end
  | OptN a :: os => getopts os (c <| cc_flags := Z.lor (cc_flags c) SHR_MAXMSGS_2 |> <| cc_max := u64 (atoi a) |>)
  | OptA f :: os => getopts os (c <| cc_file := Some f |>)
  end.
(** l.1078-1096: the arguments of shr_init (for each ring): size, flags, max_msgs
    and application data.  [content]: the file, as mapped by [map], l.404-440
    (None: it cannot be, or is empty).  None: no ring is made. *)
Definition create_args (content : bytes -> option bytes) (os : list copt) : option (Z * Z * Z * bytes) :=
  match getopts os (mkcc 0 0 0 None) with
  | None => None
  | Some c =>
      if cc_size c =? 0 then None else
      match cc_file c with
      | None => Some (cc_size c, cc_flags c, cc_max c, [])
      | Some f => match content f with
                  | None => None
                  | Some app => Some (cc_size c, Z.lor (cc_flags c) SHR_APPDATA_1, cc_max c, app)
                  end
      end
  end.

(** ** status, l.1117-1123: the words after " attributes " *)
Inductive attr := ANone | ADrop | AAppdata | AFarm | AMlock | ASync.
Definition attributes (flags : Z) : list attr :=
  (if flags =? 0 then [ANone] else []) ++ (if has flags SHR_DROP then [ADrop] else [])
  ++ (if has flags SHR_APPDATA_1 then [AAppdata] else []) ++ (if has flags SHR_FARM then [AFarm] else [])
  ++ (if has flags SHR_MLOCK then [AMlock] else []) ++ (if has flags SHR_SYNC then [ASync] else []).
