(** * Ux: lib/ux.c and the socket-name helpers of lib/bw.c.  Model only.

    Characters are bytes: 10 newline, 32 space, 48-57 digits, 64 '@', 93 ']'.
    Pointers into a buffer are offsets.  A char array is a list of its bytes; a
    string ends at its first 0. *)
From Verif Require Export Base.

(** strlen(3): the offset of the first 0; running off the array is UB *)
Fixpoint strlen (s : bytes) : outcome Z :=
  match s with
  | [] => UB
  | c :: t => if c =? 0 then Ok 0 else do n <- strlen t; Ok (n + 1)
  end.

(** ** lib/bw.c l.62-68, 80-87 *)
Definition BW_NAMELEN := 8.   (** lib/bw.h l.24 *)
Definition SUN_PATH := 108.   (** sizeof(sun_path) *)
Definition FAMILY := 2.       (** sizeof(sa_family_t) *)
Record sockaddr := mksa { sa_path : bytes }.  (** sun_family is AF_UNIX throughout *)
Definition zero (n : Z) : bytes := repeat 0 (Z.to_nat n).

(** asc2sock: the address and its length *)
Definition asc2sock (name : bytes) : outcome (sockaddr * Z) :=
  do a <- rd_mem 1 (BW_NAMELEN - 1) name;
  do path <- wr_mem 1 a (zero SUN_PATH);
  do n <- strlen (skipn 1 name);
  Ok (mksa path, FAMILY + 1 + n).
(** sock2asc; [len] is an int: a negative one makes memcpy's size huge, which
    the bounds check of [rd_mem] reports as UB *)
Definition sock2asc (addr : sockaddr) (addrlen : Z) : outcome bytes :=
  let len := addrlen - FAMILY - 1 in
  assert! (len + 2 <=? BW_NAMELEN);
  do name <- wr_mem 0 [64] (zero BW_NAMELEN);
  do a <- rd_mem 1 len (sa_path addr);
  do name <- wr_mem 1 a name;
  wr_mem (len + 1) [0] name.

(** ** slurp_special, l.131-186

    [content]: what the file contains; [reads]: the largest number of bytes each
    successive read() gives (at least one unless the file is at its end).  A
    failing read makes the function fail; not modelled.  The result is the
    buffer up to [br]. *)
Fixpoint slurp (content : bytes) (reads : list Z) (sz : Z) (buf : bytes) : outcome bytes :=
  match reads with
  | [] => Stuck
  | k :: reads' =>
      let l := sz - zlen buf in
      let nr := Z.min (Z.min (Z.max 1 k) l) (zlen content) in  (* read(fd, b, l) *)
      do a <- rd_mem 0 nr content;
      let buf' := buf ++ a in
      let content' := skipn (Z.to_nat nr) content in
      if l - nr =? 0 then slurp content' reads' (sz * 2) buf'   (* out of space *)
      else if nr =? 0 then Ok buf'                             (* eof *)
      else slurp content' reads' sz buf'
  end.
Definition slurp_special (content : bytes) (reads : list Z) : outcome bytes := slurp content reads 10000 [].

(** ** get_col, l.199-225

    [num] is an int in C; here it does not overflow (a line of 2^31 columns). *)
Fixpoint col_loop (col : Z) (buf : bytes) (b num start len : Z) : Z * Z * Z :=
  match buf with
  | [] => (num, start, len)
  | c :: t =>
      if (c =? 32) && (num =? col) then (num, start, len) else
      if c =? 10 then (num, start, len) else
      let len := if c =? 32 then 0 else len in
      let '(num, start) := if negb (c =? 32) && (len =? 0) then (num + 1, b) else (num, start) in
      let len := if negb (c =? 32) then len + 1 else len in
      col_loop col t (b + 1) num start len
  end.
(** offset and length of the column, or None for NULL *)
Definition get_col (col : Z) (buf : bytes) : option (Z * Z) :=
  let '(num, start, len) := col_loop col buf 0 0 0 0 in
  if negb (len =? 0) && (num =? col) then Some (start, len) else None.

(** ** has_socket_name, l.243-300 *)
Fixpoint skip_line (buf : bytes) : option bytes :=  (** while (b < buf+sz && *b != '\n') b++; line = b+1; None if beyond the end *)
  match buf with
  | [] => None
  | c :: t => if c =? 10 then Some t else skip_line t
  end.
Definition digit (c : Z) : bool := (48 <=? c) && (c <=? 57).
(** l.263-270 *)
Fixpoint number (s : bytes) (n : Z) : option Z :=
  match s with
  | [] => Some n
  | c :: t => if digit c then number t (u64 (n * 10 + (c - 48))) else None
  end.
Definition member (x : Z) (l : list Z) : bool := existsb (fun y => x =? y) l.
Fixpoint same_bytes (a b : bytes) : bool :=
  match a, b with
  | [], [] => true
  | x :: a, y :: b => (x =? y) && same_bytes a b
  | _, _ => false
  end.
(** l.257-293; [line]: the buffer from the current line on *)
Fixpoint name_loop (fuel : nat) (inodes : list Z) (name : bytes) (line : bytes) : outcome Z :=
  match fuel with
  | O => Stuck
  | S fuel =>
      if zlen line =? 0 then Ok 0 else   (* line < buf+sz *)
      match get_col 7 line with
      | None => Ok (-1)
      | Some (i, len) =>
          do s <- rd_mem i len line;
          match number s 0 with
          | None => Ok (-1)
          | Some inum =>
              match get_col 8 line with
              | None => Ok (-1)
              | Some (p, len) =>
                  do nm <- rd_mem p len line;
                  if (len =? zlen name) && same_bytes nm name && member inum inodes then Ok 1 else
                  match skip_line (skipn (Z.to_nat (p + len)) line) with
                  | None => Ok 0
                  | Some line' => name_loop fuel inodes name line'
                  end
              end
          end
      end
  end.
(** [table]: the content of /proc/net/unix; [name] without its final 0 *)
Definition has_socket_name (inodes : list Z) (table name : bytes) : outcome Z :=
  match skip_line table with
  | None => Ok 0
  | Some line => name_loop (S (length table)) inodes name line
  end.

(** ** get_socket_inodes, l.58-125

    The directory: for each entry whether it is a symlink, and what readlink
    gives (None: it fails).  opendir is assumed to succeed (or see [PNoDir]). *)
Definition TARGET := 100.
Definition SOCKET_PREFIX : bytes := [115;111;99;107;101;116;58;91].  (** "socket:[" *)
Fixpoint inode_loop (s : bytes) (i : Z) : option Z :=
  match s with
  | [] => Some i
  | c :: t => if c =? 93 then Some i else
              if digit c then inode_loop t (u64 (i * 10 + (c - 48))) else None
  end.
Fixpoint inodes_loop (dir : list (bool * option bytes)) (max : Z) (acc : list Z) : option (list Z) :=
  match dir with
  | [] => Some acc
  | (lnk, target) :: dir =>
      if negb lnk then inodes_loop dir max acc else
      match target with
      | None => None
      | Some t =>
          if TARGET <=? zlen t then inodes_loop dir max acc else  (* sc == sizeof(target): truncated *)
          if zlen t <? 8 then inodes_loop dir max acc else
          if negb (same_bytes (firstn 8 t) SOCKET_PREFIX) then inodes_loop dir max acc else
          match inode_loop (skipn 8 t) 0 with
          | None => None
          | Some i => if zlen acc =? max then None else inodes_loop dir max (acc ++ [i])
          end
      end
  end.

(** ** has_pid_socket, l.28-41 *)
Definition MAX_INODES := 1000.
Inductive proc := PGone | PNoDir | PDir (dir : list (bool * option bytes)).
Definition has_pid_socket (p : proc) (table : bytes) (name : bytes) : outcome Z :=
  match p with
  | PGone => Ok 0
  | PNoDir => Ok (-1)
  | PDir dir =>
      match inodes_loop dir MAX_INODES [] with
      | None => Ok (-1)
      | Some inodes => has_socket_name inodes table name
      end
  end.
