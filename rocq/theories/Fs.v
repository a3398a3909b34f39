(** * Fs: files.  shr_init and shr_open by path, with any number of processes
    creating, opening, removing and using rings.  Model only, no proofs.

    Granularity: one step per system call of shr_init (src/shr.c l.201-299),
    so that every interleaving and every failure is covered.  Each ring file
    (inode) is a [world] of Sys.v. *)
From Coq Require Export String.
From Verif Require Export Sys.
#[global] Open Scope Z_scope.

(** a file: its size, the process that has locked it inside shr_init, and the
    ring in it, once complete.  [None]: any other contents, for which
    validate_ring fails.  (What a process killed among the stores of l.275-290
    leaves is the subject of Crash.v.) *)
Record inode := mkino { in_size : Z; in_lock : option nat; in_ring : option world }.
#[export] Instance eta_ino : Settable _ := settable! mkino <in_size; in_lock; in_ring>.

(** arguments of shr_init.  [ia_app] is the application data (its length is
    the appsize argument). *)
Record iargs := mkia { ia_path : string; ia_data : Z; ia_flags : Z; ia_app : bytes; ia_max : Z }.

(** how far a process is inside shr_init: which system call comes next.
    [i] is the inode its descriptor refers to. *)
Inductive ipc :=
| IAccess                  (* l.231 *)
| IUnlink                  (* l.237 *)
| IOpen                    (* l.243 *)
| ILock (i : nat)          (* l.256 *)
| ITrunc (i : nat)         (* l.263 *)
| IMmap (i : nat)          (* l.269, and the stores l.275-290 *)
| IUndo (i : nat)          (* l.295: unlink on the way out *)
| IClose (i : nat) (rc : Z) (* l.296-297 *)
| IDone (rc : Z)           (* l.299 *)
| IKilled.
Record iproc := mkip { ip_args : iargs; ip_pc : ipc }.
#[export] Instance eta_ip : Settable _ := settable! mkip <ip_args; ip_pc>.

(** directory entries, inodes, the shr_init calls made so far, and the
    (inode) descriptors that shr_open calls in progress have obtained *)
Record fs := mkfs { fs_dir : list (string * nat); fs_ino : list inode; fs_ini : list iproc; fs_fds : list nat }.
#[export] Instance eta_fs : Settable _ := settable! mkfs <fs_dir; fs_ino; fs_ini; fs_fds>.

Definition some_bool {A} (o : option A) : bool := match o with Some _ => true | None => false end.
Fixpoint lookup (d : list (string * nat)) (p : string) : option nat :=
  match d with
  | [] => None
  | (q, i) :: t => if String.eqb p q then Some i else lookup t p
  end.
Definition unlink (d : list (string * nat)) (p : string) : list (string * nat) :=
  filter (fun x => negb (String.eqb p (fst x))) d.

Definition ino0 : inode := mkino 0 None None.
Definition ino (s : fs) (i : nat) : inode := nth i (fs_ino s) ino0.
Definition set_ino (s : fs) (i : nat) (x : inode) : fs := s <| fs_ino := set_nat (fs_ino s) i x |>.
Definition ip0 : iproc := mkip (mkia "" 0 0 [] 0) IKilled.
Definition ini (s : fs) (p : nat) : iproc := nth p (fs_ini s) ip0.
Definition set_pc (s : fs) (p : nat) (c : ipc) : fs :=
  s <| fs_ini := set_nat (fs_ini s) p (ini s p <| ip_pc := c |>) |>.

(** the layout shr_init computes for its arguments (Init.v) *)
Definition lay (a : iargs) : outcome (option layout) :=
  init_layout (ia_data a) (ia_flags a) (zlen (ia_app a)) (ia_max a).

(** l.275-290: the stores.  The file is [sz] bytes; memset writes sizeof(ctrl)
    bytes, the application data goes to its offset. *)
Definition fill (a : iargs) (l : layout) : outcome world :=
  if l_sz l <? SIZEOF_CTRL then UB else
  if has (ia_flags a) SHR_APPDATA_1 && (l_sz l <? SIZEOF_CTRL + l_n l + l_pad l + l_mv l + zlen (ia_app a))
  then UB else
  Ok (world0 (ring_of_layout l (ia_flags a) (ia_app a)) (l_sz l)).

(** one system call of shr_init by process [p]; [ok] says whether the call
    succeeds when it could (an unlink of a missing name or an O_EXCL open of an
    existing one fail regardless).  EINVAL from ftruncate counts as success
    (l.264).  access() failing on an existing file (permissions) is [ok =
    false]. *)
Definition init_step (s : fs) (p : nat) (ok : bool) : outcome fs :=
  let a := ip_args (ini s p) in
  match ip_pc (ini s p) with
  | IAccess =>
      if (ia_flags a >=? SHR_OPEN_FENCE) || (ia_data a =? 0) then Ok (set_pc s p (IDone (-1))) else
      if some_bool (lookup (fs_dir s) (ia_path a)) && ok then
        if has (ia_flags a) SHR_KEEPEXIST then Ok (set_pc s p (IDone 0)) else Ok (set_pc s p IUnlink)
      else Ok (set_pc s p IOpen)
  | IUnlink =>
      if some_bool (lookup (fs_dir s) (ia_path a)) && ok
      then Ok (set_pc (s <| fs_dir := unlink (fs_dir s) (ia_path a) |>) p IOpen)
      else Ok (set_pc s p (IDone (-1)))
  | IOpen =>
      if some_bool (lookup (fs_dir s) (ia_path a)) || negb ok then Ok (set_pc s p (IDone (-1))) else
      do l <- lay a;
      Ok (set_pc (s <| fs_dir := (ia_path a, List.length (fs_ino s)) :: fs_dir s |>
                    <| fs_ino := fs_ino s ++ [ino0] |>) p (ILock (List.length (fs_ino s))))
  | ILock i =>
      if ok then Ok (set_pc (set_ino s i (ino s i <| in_lock := Some p |>)) p (ITrunc i))
      else Ok (set_pc s p (IUndo i))
  | ITrunc i =>
      do l <- lay a;
      match l with
      | None => Ok s
      | Some l => if ok then Ok (set_pc (set_ino s i (ino s i <| in_size := l_sz l |>)) p (IMmap i))
                  else Ok (set_pc s p (IUndo i))
      end
  | IMmap i =>
      do l <- lay a;
      match l with
      | None => Ok s
      | Some l => if ok then do w <- fill a l; Ok (set_pc (set_ino s i (ino s i <| in_ring := Some w |>)) p (IClose i 0))
                  else Ok (set_pc s p (IUndo i))
      end
  | IUndo i =>
      Ok (set_pc (if ok then s <| fs_dir := unlink (fs_dir s) (ia_path a) |> else s) p (IClose i (-1)))
  | IClose i rc => Ok (set_pc (set_ino s i (ino s i <| in_lock := None |>)) p (IDone rc))
  | IDone _ | IKilled => Ok s
  end.

(** the descriptor process [p] holds inside shr_init, released when it dies *)
Definition held (c : ipc) : option nat :=
  match c with
  | ILock i | ITrunc i | IMmap i | IUndo i | IClose i _ => Some i
  | _ => None
  end.

Inductive faction :=
| FInit (a : iargs)                (* a process calls shr_init *)
| FStep (p : nat) (ok : bool)      (* its next system call *)
| FKill (p : nat)                  (* it dies between two of them *)
| FLook (p : string)               (* shr_open: open, fstat, mmap (l.569-590) *)
| FAct (i : nat) (a : action)      (* shr_open from l.592 on, or any other
                                      action of a process, on ring file i *)
| FRemove (p : string)             (* another program removes a name *)
| FOther (p : string) (sz : Z).    (* another program creates some file *)

(** what is seen: an shr_init call returned, an shr_open failed before the
    lock or on a file that is not a ring, an event of ring file [i] *)
Inductive fevent :=
| FRet (p : nat) (rc : Z)
| FNoRing
| FEv (i : nat) (e : event).

Definition is_done (c : ipc) : option Z := match c with IDone rc => Some rc | _ => None end.

Definition fstep (s : fs) (x : faction) : outcome (fs * list fevent) :=
  match x with
  | FInit a => Ok (s <| fs_ini := fs_ini s ++ [mkip a IAccess] |>, [])
  | FStep p ok =>
      match is_done (ip_pc (ini s p)) with
      | Some _ => Ok (s, [])
      | None => do s' <- init_step s p ok;
                Ok (s', match is_done (ip_pc (ini s' p)) with Some rc => [FRet p rc] | None => [] end)
      end
  | FKill p =>
      match is_done (ip_pc (ini s p)) with
      | Some _ => Ok (s, [])
      | None => Ok (set_pc (match held (ip_pc (ini s p)) with
                            | Some i => set_ino s i (ino s i <| in_lock := None |>)
                            | None => s end) p IKilled, [])
      end
  | FLook p =>
      match lookup (fs_dir s) p with
      | None => Ok (s, [FNoRing])
      | Some i => if in_size (ino s i) =? 0 then Ok (s, [FNoRing])   (* mmap of 0 bytes *)
                  else Ok (s <| fs_fds := fs_fds s ++ [i] |>, [])
      end
  | FAct i a =>
      match a with
      | AOpen _ _ _ =>
          if negb (existsb (Nat.eqb i) (fs_fds s)) then Ok (s, []) else
          if some_bool (in_lock (ino s i)) then Ok (s, []) else      (* waits for the lock *)
          match in_ring (ino s i) with
          | None => Ok (s, [FNoRing])
          | Some w => do (w', ev) <- step w a;
                      Ok (set_ino s i (ino s i <| in_ring := Some w' |>), map (FEv i) ev)
          end
      | _ =>
          match in_ring (ino s i) with
          | None => Ok (s, [])
          | Some w => do (w', ev) <- step w a;
                      Ok (set_ino s i (ino s i <| in_ring := Some w' |>), map (FEv i) ev)
          end
      end
  | FRemove p => Ok (s <| fs_dir := unlink (fs_dir s) p |>, [])
  | FOther p sz =>
      match lookup (fs_dir s) p with
      | Some _ => Ok (s, [])
      | None => Ok (s <| fs_dir := (p, List.length (fs_ino s)) :: fs_dir s |>
                      <| fs_ino := fs_ino s ++ [mkino sz None None] |>, [])
      end
  end.
Fixpoint frun (s : fs) (l : list faction) : outcome (fs * list fevent) :=
  match l with
  | [] => Ok (s, [])
  | x :: t => do (s, e) <- fstep s x; do (s, e') <- frun s t; Ok (s, e ++ e')
  end.
Definition fs0 : fs := mkfs [] [] [] [].
