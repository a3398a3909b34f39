(** * The theorems, seventh part: names of sockets, and looking them up in /proc (C39-C41). *)
From Verif Require Import UxFacts.
From Coq Require Import Strings.String.
Local Open Scope Z_scope.
Local Open Scope list_scope.

(** ** C39 *)
(** A name of up to six bytes, none of them 0 (the kernel assigns five
    hexadecimal digits), goes into the table as an at sign and the name, in
    eight bytes padded with zeros, and comes back as the same address with the
    same length. *)
Theorem C39_round_trip : forall n, zlen n <= 6 -> ~ In 0 n ->
  exists stored, sock2asc (abstract n) (FAMILY + 1 + zlen n) = Ok stored
    /\ zlen stored = BW_NAMELEN /\ stored = 64 :: n ++ repeat 0 (Z.to_nat (7 - zlen n))
    /\ asc2sock stored = Ok (abstract n, FAMILY + 1 + zlen n).
Proof. exact u_round. Qed.
Print Assumptions C39_round_trip.
(** Different names are stored differently. *)
Theorem C39_injective : forall n n' s, zlen n <= 6 -> zlen n' <= 6 -> ~ In 0 n -> ~ In 0 n' ->
  sock2asc (abstract n) (FAMILY + 1 + zlen n) = Ok s -> sock2asc (abstract n') (FAMILY + 1 + zlen n') = Ok s -> n = n'.
Proof. exact u_inj. Qed.
Print Assumptions C39_injective.
(** A longer name is refused by an assertion and not cut off. *)
Theorem C39_long : forall n, 6 < zlen n -> sock2asc (abstract n) (FAMILY + 1 + zlen n) = Abort.
Proof. exact u_sock2asc_long. Qed.
Print Assumptions C39_long.
Example C39_case : let n := str "0a1f3" in
  zlen n <= 6 /\ ~ In 0 n /\ sock2asc (abstract n) (FAMILY + 1 + zlen n) = Ok (str "@0a1f3" ++ [0; 0])
  /\ asc2sock (str "@0a1f3" ++ [0; 0]) = Ok (abstract n, 8).
Proof.
  cbv zeta. split; [vm_compute; discriminate|]. split; [|split; vm_compute; reflexivity].
  intros H. vm_compute in H. repeat destruct H as [H|H]; try discriminate. exact H.
Qed.

(** ** C40 *)
(** For every text and every column number from 1: what is returned is the
    place and the length of that column of the first line, and "none" means
    that the line has fewer columns. *)
Theorem C40_column : forall col buf, 1 <= col ->
  match get_col col buf with
  | Some (p, n) => exists w, column col (first_line buf) p w /\ zlen w = n
  | None => zlen (words (first_line buf)) < col
  end.
Proof. exact u_get_col. Qed.
Print Assumptions C40_column.
(** The same the other way around: the word, if there is one, is found, and the
    bytes at the place returned are the word. *)
Theorem C40_word : forall col buf, 1 <= col ->
  match nth_error (words (first_line buf)) (Z.to_nat (col - 1)) with
  | Some w => exists p, get_col col buf = Some (p, zlen w) /\ rd_mem p (zlen w) buf = Ok w /\ column col (first_line buf) p w
  | None => get_col col buf = None
  end.
Proof. exact get_col_word. Qed.
Print Assumptions C40_word.
(** There are no columns zero and below. *)
Theorem C40_none : forall col buf, col <= 0 -> get_col col buf = None.
Proof. exact u_get_col_none. Qed.
Print Assumptions C40_none.
(** The text itself is what the file contains, however read() cuts it up. *)
Theorem C40_slurp : forall content reads, zlen content < zlen reads -> slurp_special content reads = Ok content.
Proof. exact u_slurp. Qed.
Print Assumptions C40_slurp.
Definition nl : bytes := [10].
Example C40_case : let s := str "  ab   cde f" ++ nl ++ str "gh i j k" in
  get_col 2 s = Some (7, 3) /\ words (first_line s) = [str "ab"; str "cde"; str "f"] /\ get_col 4 s = None /\ get_col 3 s = Some (11, 1).
Proof. vm_compute. repeat split. Qed.

(** ** C41 *)
(** If every socket in the table has a name and the descriptors of the process
    can be listed, the answer is right: 1 if the process has a socket of that
    name, and 0 otherwise. *)
Theorem C41_partial : forall dir table name, Forall link_ok dir -> ~ In (true, None) dir -> socket_count dir <= MAX_INODES ->
  Forall well_formed (rows table) -> Forall (fun row => row_name row <> None) (rows table) ->
  exists x, has_pid_socket (PDir dir) table name = Ok x /\ (x = 0 \/ x = 1)
    /\ (x = 1 <-> owns (PDir dir) table name).
Proof. exact u_pid. Qed.
Print Assumptions C41_partial.
(** In any case, 1 and 0 are right, and a process that is gone has no sockets;
    -1, "cannot tell", is returned only if the descriptors cannot be listed,
    are too many, or some socket in the table has no name. *)
Theorem C41_sound : forall p table name, Forall link_ok (fds p) -> Forall well_formed (rows table) ->
  exists x, has_pid_socket p table name = Ok x /\ (x = 0 \/ x = 1 \/ x = -1)
    /\ (x = 1 -> owns p table name)
    /\ (x = 0 -> p <> PNoDir /\ ~ owns p table name)
    /\ (x = -1 -> p = PNoDir \/ In (true, None) (fds p) \/ MAX_INODES < socket_count (fds p)
                  \/ exists row, In row (rows table) /\ row_name row = None)
    /\ (p = PGone -> x = 0).
Proof. exact u_pid_sound. Qed.
Print Assumptions C41_sound.
(** The table of a running system has sockets without names, and then the
    claim is false: the socket is there and -1 is returned. *)
Definition heading := str "Num       RefCount Protocol Flags    Type St Inode Path" ++ nl.
Definition unnamed_row := str "0000000000000000: 00000002 00000000 00000000 0002 01 20123" ++ nl.
Definition named_row := str "0000000000000000: 00000002 00000000 00000000 0002 01 20124 @0a1f3" ++ nl.
Definition other_row := str "0000000000000000: 00000002 00000000 00000000 0002 01 20125 @0a1f4" ++ nl.
Definition fd_dir : list (bool * option bytes) := [(false, None); (true, Some (str "/dev/null")); (true, Some (str "socket:[20124]"))].
Lemma fd_dir_ok : Forall link_ok fd_dir.
Proof.
  constructor; [exact I|]. constructor; [intros X; vm_compute in X; discriminate|]. constructor; [|constructor].
  intros _. exists (str "20124"). split; [vm_compute; reflexivity|]. split; [vm_compute; reflexivity|]. split; vm_compute; (reflexivity || discriminate).
Qed.
Theorem C41_refuted : ~ (forall dir table name, Forall link_ok dir -> socket_count dir <= MAX_INODES -> Forall well_formed (rows table) ->
  (exists e row i, In e dir /\ is_socket i e /\ In row (rows table) /\ tells row i name) ->
  has_pid_socket (PDir dir) table name = Ok 1).
Proof.
  intros H. specialize (H fd_dir (heading ++ unnamed_row ++ named_row) (str "@0a1f3")). cut (Ok (-1) = Ok 1); [discriminate|].
  rewrite <- H; [vm_compute; reflexivity| | | |].
  - exact fd_dir_ok.
  - vm_compute. discriminate.
  - replace (rows (heading ++ unnamed_row ++ named_row)) with [removelast unnamed_row; removelast named_row] by (vm_compute; reflexivity).
    constructor; [|constructor; [|constructor]]; [exists (str "20123")|exists (str "20124")]; (split; [|split]); vm_compute; reflexivity.
  - exists (true, Some (str "socket:[20124]")), (removelast named_row), 20124. split; [right; right; left; reflexivity|].
    split; [exists (str "20124"); (split; [|split]); vm_compute; reflexivity|]. split; [vm_compute; right; left; reflexivity|].
    exists (str "20124"). (split; [|split; [|split]]); vm_compute; reflexivity.
Qed.
Print Assumptions C41_refuted.
Example C41_case : Forall link_ok fd_dir /\ socket_count fd_dir = 1
  /\ has_pid_socket (PDir fd_dir) (heading ++ other_row ++ named_row) (str "@0a1f3") = Ok 1
  /\ has_pid_socket (PDir fd_dir) (heading ++ other_row ++ named_row) (str "@0a1f4") = Ok 0
  /\ Forall well_formed (rows (heading ++ other_row ++ named_row)) /\ Forall (fun row => row_name row <> None) (rows (heading ++ other_row ++ named_row)).
Proof.
  split; [exact fd_dir_ok|]. split; [vm_compute; reflexivity|]. split; [vm_compute; reflexivity|]. split; [vm_compute; reflexivity|].
  replace (rows (heading ++ other_row ++ named_row)) with [removelast other_row; removelast named_row] by (vm_compute; reflexivity).
  split; (constructor; [|constructor; [|constructor]]).
  - exists (str "20125"). (split; [|split]); vm_compute; reflexivity.
  - exists (str "20124"). (split; [|split]); vm_compute; reflexivity.
  - vm_compute. discriminate.
  - vm_compute. discriminate.
Qed.
