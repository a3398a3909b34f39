(** * MainSpec: specification of C80-C82.  Definitions only. *)
From Verif Require Export Main ToolSpec ToolSpec2 UxSpec.
From Coq Require Import Strings.String.
Local Open Scope Z_scope.
Local Open Scope list_scope.

(** ** what a trace of calls contains *)
Definition puts (t : list ev) : list bytes := flat_map (fun e => match e with XPut m _ => [m] | _ => [] end) t.
Definition made (t : list ev) : list (bytes * Z * Z * Z * option bytes) :=
  flat_map (fun e => match e with XInit r n fl mx app _ => [(r, n, fl, mx, app)] | _ => [] end) t.
Definition subdirs (t : list ev) : list bytes := flat_map (fun e => match e with XMkdir d _ => [d] | _ => [] end) t.
Definition gets (t : list ev) : list (option bytes) := flat_map (fun e => match e with XGet g => [g] | _ => [] end) t.
Definition shown (t : list ev) : list bytes := flat_map (fun e => match e with XShow m => [m] | _ => [] end) t.
(** a call that reports an error *)
Definition call_failed (e : ev) : Prop :=
  match e with
  | XStat _ None | XStatfs _ None | XMap _ None | XAppdata None | XSelf None | XGet None => True
  | XMount _ _ _ ok | XUmount _ ok | XChdir _ ok | XMkdir _ ok | XOpen _ _ ok | XFd ok | XSetup ok | XAccess _ ok => ok = false
  | XHuge _ o w | XSave _ _ o w => o = false \/ w = false
  | XInit _ _ _ _ _ rc | XPut _ rc | XShrStat rc => rc < 0
  | _ => False
  end.

(** ** options *)
(** the last of -d, -u, -q; of -t; the options that create has (-H is -N as well) *)
Definition mode_of (os : list gopt) : mmode :=
  fold_left (fun m o => match o with OD => MSubdirs | OU => MUnmount | OQ => MQuery | _ => m end) os MMount.
Definition type_of (os : list gopt) : bytes := fold_left (fun t o => match o with OT fs => fs | _ => t end) os (str "ramfs").
Definition create_opts (os : list gopt) : list copt := flat_map (fun o => match o with OC o => [o] | OH a => [OptN a] | _ => [] end) os.
Definition blocking (os : list gopt) : bool := existsb (fun o => match o with OB => true | _ => false end) os.

(** ** file systems: the device of a path, whether it is a directory, the type of
    the file system it is on *)
Record files := mkfiles { d_dev : bytes -> Z; d_isdir : bytes -> bool; d_type : bytes -> Z }.
(** stat and statfs succeed and tell the truth *)
Definition sees (F : files) (t : list ev) : Prop :=
  (forall p r, In (XStat p r) t -> r = Some (d_dev F p, d_isdir F p))
  /\ (forall p r, In (XStatfs p r) t -> exists f, r = Some f /\ f_type f = d_type F p).
(** a directory on another device than its parent directory, in a ramdisk *)
Definition ramdisk (F : files) (d : bytes) : Prop :=
  d_isdir F d = true /\ d_dev F d <> d_dev F (d ++ str "/..") /\ In (d_type F d) [TMPFS; RAMFS; HUGEFS].
(** only looks *)
Definition looks (e : ev) : Prop := match e with XStat _ _ | XStatfs _ _ | XSay _ => True | _ => False end.
