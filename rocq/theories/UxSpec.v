(** * UxSpec: vocabulary for C39-C41 *)
From Verif Require Export Ux.

(** unix(7): an abstract address is a zero byte and a name, which is not
    terminated; the length of the address tells where it ends *)
Definition abstract (n : bytes) : sockaddr := mksa (0 :: n ++ zero (SUN_PATH - 1 - zlen n)).

(** the first line of a text, without its newline *)
Fixpoint first_line (s : bytes) : bytes :=
  match s with [] => [] | c :: t => if c =? 10 then [] else c :: first_line t end.
(** the lines of a text (the last one need not end in a newline) *)
Fixpoint lines_aux (cur s : bytes) : list bytes :=
  match s with
  | [] => match cur with [] => [] | _ => [cur] end
  | c :: t => if c =? 10 then cur :: lines_aux [] t else lines_aux (cur ++ [c]) t
  end.
Definition lines (s : bytes) : list bytes := lines_aux [] s.
(** the words of a line: its longest pieces without a space *)
Fixpoint words_aux (cur s : bytes) : list bytes :=
  match s with
  | [] => match cur with [] => [] | _ => [cur] end
  | c :: t => if c =? 32 then match cur with [] => words_aux [] t | _ => cur :: words_aux [] t end
              else words_aux (cur ++ [c]) t
  end.
Definition words (s : bytes) : list bytes := words_aux [] s.

(** [w] is word number [col] (from 1) of [line] and starts at offset [p] *)
Definition column (col : Z) (line : bytes) (p : Z) (w : bytes) : Prop :=
  exists before after, line = before ++ w ++ after /\ zlen before = p
    /\ w <> [] /\ ~ In 32 w
    /\ (before = [] \/ exists x, before = x ++ [32]) /\ (after = [] \/ exists x, after = 32 :: x)
    /\ zlen (words before) = col - 1.

(** decimal numbers *)
Definition all_digits (s : bytes) : bool := forallb digit s.
Definition decimal (s : bytes) : Z := fold_left (fun n c => n * 10 + (c - 48)) s 0.

(** /proc/net/unix (proc(5)): a heading, then one row per socket, with the inode
    number in column 7 and, if the socket has a name, the name in column 8 *)
Definition row_inode (row : bytes) : option bytes := nth_error (words row) 6.
Definition row_name (row : bytes) : option bytes := nth_error (words row) 7.
Definition rows (table : bytes) : list bytes := tl (lines table).
Definition well_formed (row : bytes) : Prop := exists s, row_inode row = Some s /\ all_digits s = true /\ decimal s < W64.
(** the row tells of a socket with this inode number and this name *)
Definition tells (row : bytes) (inode : Z) (name : bytes) : Prop :=
  exists s, row_inode row = Some s /\ all_digits s = true /\ decimal s = inode /\ row_name row = Some name.

(** /proc/PID/fd: a descriptor that is a socket is a symlink to socket:[INODE] *)
Definition socket_link (digits : bytes) : bytes := SOCKET_PREFIX ++ digits ++ [93].
Definition is_socket (inode : Z) (e : bool * option bytes) : Prop :=
  exists ds, e = (true, Some (socket_link ds)) /\ all_digits ds = true /\ decimal ds = inode.
(** no other kind of link begins like that; [None]: the link cannot be read *)
Definition link_ok (e : bool * option bytes) : Prop :=
  match e with
  | (false, _) => True
  | (true, None) => True
  | (true, Some t) => firstn 8 t = SOCKET_PREFIX ->
      exists ds, t = socket_link ds /\ all_digits ds = true /\ decimal ds < W64 /\ zlen ds <= 20
  end.
Definition socket_count (dir : list (bool * option bytes)) : Z :=
  zlen (filter (fun e => match e with (true, Some t) => same_bytes (firstn 8 t) SOCKET_PREFIX | _ => false end) dir).

(** the descriptors of a process, as far as they can be listed *)
Definition fds (p : proc) : list (bool * option bytes) := match p with PDir dir => dir | _ => [] end.
(** the process has a socket of this name *)
Definition owns (p : proc) (table name : bytes) : Prop :=
  exists e row i, In e (fds p) /\ is_socket i e /\ In row (rows table) /\ tells row i name.

(** texts written as Coq strings *)
From Coq Require Import Strings.String Strings.Ascii.
Definition str (s : string) : bytes := map (fun a => Z.of_nat (nat_of_ascii a)) (list_ascii_of_string s).
