(** * Main: main() of util/shr-tool.c (l.908-1321), with suitable_mountpoint and
    query_ramdisk (l.318-398) and try_delegate (l.859-906).  Model only.

    A command is a program of calls (to the library and the system) whose results
    are arbitrary.  Output to stderr is left out.  The handlers of the event loop
    of pub, sub and tee are calls here; Tool.v and Tool2.v model them.  getopt
    itself is not modelled: the options come as it returns them. *)
From Verif Require Export Tool2.

(** ** calls, with their results *)
(** what `mount -q` prints *)
Inductive qout := QNot | QRamfs | QHuge | QTmpfs (n unit pct : Z).   (* [unit]: 1 for bytes, KB, MB, GB *)
(** result of statfs *)
Record fsinfo := mkfs { f_type : Z; f_bsize : Z; f_blocks : Z; f_bfree : Z }.
(** what epoll_wait reports: an error; no event (timeout); the ring is readable;
    a signal (read from the signalfd: SIGALRM or another; or that read fails);
    another descriptor, whose handler returns [rc] *)
Inductive poll := EpError | EpNone | EpRing | EpSignal (alarm : option bool) | EpOther (rc : Z).
Inductive ev :=
| XStat (path : bytes) (res : option (Z * bool))            (* stat: the device, whether it is a directory *)
| XStatfs (path : bytes) (res : option fsinfo)
| XMount (dir fs : bytes) (size : option Z) (ok : bool)     (* mount(2); data "size=N" *)
| XUmount (dir : bytes) (ok : bool)
| XChdir (dir : bytes) (ok : bool)
| XMkdir (dir : bytes) (ok : bool)
| XHuge (n : Z) (opened wrote : bool)                       (* writing /proc/sys/vm/nr_hugepages *)
| XSay (q : qout)
| XMap (file : bytes) (res : option bytes)                  (* map, l.404-440 *)
| XInit (ring : bytes) (size flags max : Z) (app : option bytes) (rc : Z)  (* shr_init *)
| XOpen (ring : bytes) (flags : Z) (ok : bool)              (* shr_open; get_selectable_fd, l.1150-1160 *)
| XFd (ok : bool)
| XShrStat (rc : Z)                                         (* shr_stat and the report, l.1102-1124 *)
| XAppdata (res : option bytes)                             (* shr_appdata, l.1127 *)
| XSave (file : bytes) (data : bytes) (opened wrote : bool) (* l.1133-1143 *)
| XPut (m : bytes) (rc : Z)                                 (* shr_write *)
| XGet (got : option bytes)                                 (* shr_read: None an error, empty 0 *)
| XShow (m : bytes)                                         (* a message is printed (raw or hex) *)
| XSetup (ok : bool)                                        (* sockets, signalfd, epoll *)
| XPoll (p : poll)
| XSelf (path : option bytes)                               (* readlink("/proc/self/exe") *)
| XAccess (path : bytes) (ok : bool).

(** how it ends: exit status; execve (which succeeds); an assertion; undefined
    behaviour; or it has not ended yet *)
Inductive ending := Exited (rc : Z) | Became (path : bytes) (args : list bytes) | Failed | Undefined | Running.
Inductive prog := End (x : ending) | Ask {A : Type} (mk : A -> ev) (f : A -> prog).
(** the executions of a program *)
Fixpoint runs (p : prog) (t : list ev) (x : ending) : Prop :=
  match p with
  | End y => t = [] /\ x = y
  | Ask mk f => exists a t', t = mk a :: t' /\ runs (f a) t' x
  end.
(** goto done, with rc = -1; usage(), l.166 *)
Definition fails : prog := End (Exited (-1)).
Definition usage : prog := End (Exited (-1)).
Definition okay : prog := End (Exited 0).
Definition need (mk : bool -> ev) (p : prog) : prog := Ask mk (fun ok => if ok then p else fails).

(** ** options, l.965-1008 *)
Inductive gopt := OB | OP | OT (fs : bytes) | OD | OU | OQ | OH (arg : bytes) | OC (o : copt) | OV | OBad.
Inductive mmode := MMount | MSubdirs | MUnmount | MQuery.
Record gcfg := mkg { g_c : ccfg; g_block : bool; g_fs : bytes; g_mode : mmode; g_huge : Z; g_prefix : bool }.
#[export] Instance eta_gcfg : Settable _ := settable! mkg <g_c; g_block; g_fs; g_mode; g_huge; g_prefix>.
Definition ramfs : bytes := [114; 97; 109; 102; 115].        (* l.95 *)
Definition g0 : gcfg := mkg (mkcc 0 0 0 None) false ramfs MMount 0 true.
Definition set_c (c : ccfg) (g : gcfg) : gcfg := g <| g_c := c |>.
Fixpoint options (os : list gopt) (g : gcfg) : option gcfg :=
  match os with
  | [] => Some g
  | OV :: os => options os g
  | OB :: os => options os (g <| g_block := true |>)
  | OP :: os => options os (g <| g_prefix := false |>)
  | OT fs :: os => options os (g <| g_fs := fs |>)
  | OD :: os => options os (g <| g_mode := MSubdirs |>)
  | OU :: os => options os (g <| g_mode := MUnmount |>)
  | OQ :: os => options os (g <| g_mode := MQuery |>)
  | OH a :: os =>                                            (* l.975-978: falls through *)
      match getopts [OptN a] (g_c g) with Some c => options os (set_c c g <| g_huge := atoi a |>) | None => None end
  | OC o :: os => match getopts [o] (g_c g) with Some c => options os (set_c c g) | None => None end
  | OBad :: _ => None
  end.

(** ** mount *)
Definition PATH_MAX := 4096.
Definition TMPFS := 16914836.      (* 0x01021994, l.305-307 *)
Definition RAMFS := 2240043254.    (* 0x858458F6 *)
Definition HUGEFS := 2508478710.   (* 0x958458F6 *)
Definition ram_type (t : Z) : bool := (t =? TMPFS) || (t =? RAMFS) || (t =? HUGEFS).
Definition dotdot : bytes := [47; 46; 46].                   (* "/.." *)
(** l.318-366.  [k]: what is done with the result, and with what statfs has
    stored.  cfg.parent has PATH_MAX bytes; dlen + 1 are copied, 3 appended. *)
Definition suitable_mountpoint (dir : bytes) (k : Z -> fsinfo -> prog) : prog :=
  let none := mkfs 0 0 0 0 in
  let dlen := zlen dir in
  if dlen + 4 >? PATH_MAX then k (-1) none else
  Ask (XStat dir) (fun sb =>
    match sb with
    | None => k (-1) none
    | Some (_, false) => k (-1) none
    | Some (dev, true) =>
        if (dlen + 1 >? PATH_MAX) || (dlen + 1 + 3 >? PATH_MAX) then End Undefined else
        Ask (XStat (dir ++ dotdot)) (fun psb =>
          match psb with
          | None => k (-1) none
          | Some (pdev, _) =>
              Ask (XStatfs dir) (fun sf =>
                match sf with
                | None => k (-1) none
                | Some sf => if negb (pdev =? dev) && ram_type (f_type sf) then k (-2) sf else k 0 sf
                end)
          end)
    end).
(** l.371-398.  The percentage is computed with doubles and cut to int: exactly
    here.  bytes is a long: the product wraps. *)
Definition KB := 1024.
Definition MB := 1048576.
Definition GB := 1073741824.
Definition s64 (x : Z) : Z := let y := u64 x in if y >? SSIZE_MAX then y - W64 else y.
Definition size_text (n : Z) : Z * Z :=
  if n <? KB then (n, 1) else if n <? MB then (n / KB, KB) else if n <? GB then (n / MB, MB) else (n / GB, GB).
Definition query_ramdisk (dir : bytes) (k : prog) : prog :=
  suitable_mountpoint dir (fun rc sf =>
    if negb (rc =? -2) then Ask (fun _ : unit => XSay QNot) (fun _ => k)
    else if f_type sf =? RAMFS then Ask (fun _ : unit => XSay QRamfs) (fun _ => k)
    else if f_type sf =? HUGEFS then Ask (fun _ : unit => XSay QHuge) (fun _ => k)
    else
      let '(n, un) := size_text (s64 (f_bsize sf * f_blocks sf)) in
      if f_blocks sf =? 0 then End Undefined else             (* NaN or infinity to int *)
      let pct := Z.quot (100 * f_blocks sf - 100 * f_bfree sf) (f_blocks sf) in
      if (pct >? 2147483647) || (pct <? -2147483648) then End Undefined else
      Ask (fun _ : unit => XSay (QTmpfs n un pct)) (fun _ => k)).
Fixpoint mkdirs (subs : list bytes) (k : prog) : prog :=
  match subs with [] => k | s :: subs => need (XMkdir s) (mkdirs subs k) end.
(** l.1016-1076; [pos]: the arguments after the options, the first is DIR *)
Definition run_mount (g : gcfg) (dir : bytes) (subs : list bytes) : prog :=
  match g_mode g with
  | MMount | MSubdirs =>
      suitable_mountpoint dir (fun rc _ =>
        if rc =? -2 then fails else
        let size := cc_size (g_c g) in
        need (XMount dir (g_fs g) (if size =? 0 then None else Some size)) (
        need (XChdir dir) (
        mkdirs (match g_mode g with MSubdirs => subs | _ => [] end) (
        if g_huge g =? 0 then okay
        else Ask (fun x => XHuge (g_huge g) (fst x) (snd x)) (fun x => if fst x && snd x then okay else fails)))))
  | MUnmount => need (XUmount dir) okay
  | MQuery => query_ramdisk dir okay                         (* l.1069: its result is not used *)
  end.

(** ** create, l.1078-1097 *)
Fixpoint inits (rings : list bytes) (size flags max : Z) (app : option bytes) : prog :=
  match rings with
  | [] => okay
  | r :: rings => Ask (XInit r size flags max app) (fun rc => if rc <? 0 then End (Exited rc) else inits rings size flags max app)
  end.
Definition run_create (c : ccfg) (rings : list bytes) : prog :=
  if cc_size c =? 0 then usage else
  match cc_file c with
  | Some f => Ask (XMap f) (fun res => match res with
                | None => fails
                | Some app => inits rings (cc_size c) (Z.lor (cc_flags c) SHR_APPDATA_1) (cc_max c) (Some app)
                end)
  | None => inits rings (cc_size c) (cc_flags c) (cc_max c) None
  end.

(** ** status, l.1098-1146: [rc] is the variable rc, which each call sets *)
Definition run_status (c : ccfg) (ring : bytes) : prog :=
  need (XOpen ring SHR_RDONLY) (
  Ask XShrStat (fun rc => if rc <? 0 then End (Exited rc) else
  Ask XAppdata (fun res =>
    match res with
    | None => okay
    | Some data =>
        if zlen data =? 0 then End Failed else
        match cc_file c with
        | None => okay
        | Some f => Ask (fun x => XSave f data (fst x) (snd x)) (fun x =>
                      if fst x && negb (snd x) then End (Exited 0)        (* goto done; rc is 0 *)
                      else okay)
        end
    end))).

(** ** write, writehex, writefile, l.1161-1197 *)
Fixpoint put_lines (fuel : nat) (s : bytes) : prog :=
  match fuel with
  | O => End Running
  | S fuel =>
      if zlen s =? 0 then okay else
      let '(l, s') := fgets (Z.to_nat (LINE - 1)) s in
      Ask (XPut (chomp (upto0 l))) (fun rc => if rc <? 0 then fails else put_lines fuel s')
  end.
Definition run_write (ring stdin : bytes) : prog := need (XOpen ring SHR_WRONLY) (put_lines (S (length stdin)) stdin).
(** [arg]: the argument, a string *)
Definition run_writehex (ring arg : bytes) : prog :=
  need (XOpen ring SHR_WRONLY) (
  match unhex (arg ++ [0]) with
  | Ok (Some (h, n)) => if n <=? 0 then fails else
      match rd_mem 0 n h with Ok m => Ask (XPut m) (fun rc => if rc <? 0 then fails else okay) | _ => End Undefined end
  | Ok None => fails
  | Abort => End Failed
  | _ => End Undefined
  end).
Definition run_writefile (ring file : bytes) : prog :=
  need (XOpen ring SHR_WRONLY) (
  Ask (XMap file) (fun res => match res with
    | None => fails
    | Some m => Ask (XPut m) (fun rc => if rc <? 0 then fails else okay)
    end)).

(** ** the event loop, l.1290-1300, [fuel] rounds.  For read (and readhex)
    handle_io (l.655-702) is here; for the others its result is an input. *)
Section Loop.
Variables (reading block : bool) (max : Z).
Fixpoint event_loop (fuel : nat) (nread : Z) : prog :=
  match fuel with
  | O => End Running
  | S fuel =>
      let io :=
        if reading then
          Ask XGet (fun got => match got with
            | None => fails
            | Some m =>
                if zlen m =? 0 then if block then event_loop fuel nread else fails
                else Ask (fun _ : unit => XShow m) (fun _ =>
                       if (max >? 0) && (nread + 1 >=? max) then fails else event_loop fuel (nread + 1))
            end)
        else Ask (fun rc => XPoll (EpOther rc)) (fun rc => if rc <? 0 then fails else event_loop fuel nread) in
      Ask XPoll (fun p => match p with
        | EpError => okay
        | EpNone | EpRing => io
        | EpSignal (Some true) => event_loop fuel nread
        | EpSignal _ => fails
        | EpOther rc => if rc <? 0 then fails else event_loop fuel nread
        end)
  end.
End Loop.
(** l.1231-1281: set-up; the loop *)
Definition run_loop (reading : bool) (g : gcfg) (fuel : nat) : prog := need XSetup (event_loop reading (g_block g) (cc_max (g_c g)) fuel 0).
Definition run_read (g : gcfg) (ring : bytes) (fuel : nat) : prog :=
  need (XOpen ring (Z.lor SHR_RDONLY SHR_NONBLOCK)) (need XFd (run_loop true g fuel)).

(** ** commands; [pos] are the arguments after the options *)
Inductive command := KStatus | KCreate | KMount | KRead | KWrite | KWritehex (arg : bytes) | KWritefile (file : bytes)
  | KPub | KSub | KTee.
Definition tool (k : command) (os : list gopt) (pos : list bytes) (stdin : bytes) (fuel : nat) : prog :=
  match options os g0, pos with
  | None, _ => usage
  | _, [] => usage                                           (* l.1010 *)
  | Some g, ring :: rest =>
      match k with
      | KStatus => run_status (g_c g) ring
      | KCreate => run_create (g_c g) pos
      | KMount => run_mount g ring rest
      | KRead => run_read g ring fuel
      | KWrite => run_write ring stdin
      | KWritehex a => run_writehex ring a
      | KWritefile f => run_writefile ring f
      | KPub => need XSetup (need (XOpen ring (Z.lor SHR_RDONLY SHR_NONBLOCK)) (need XFd (run_loop false g fuel)))
      | KSub => need (XOpen ring SHR_WRONLY) (need XSetup (run_loop false g fuel))
      | KTee =>
          match rest with
          | r1 :: r2 :: _ => need (XOpen ring (Z.lor SHR_RDONLY SHR_NONBLOCK)) (need XFd (
              Ask (XOpen r1 SHR_WRONLY) (fun a => Ask (XOpen r2 SHR_WRONLY) (fun b => if a && b then run_loop false g fuel else fails))))
          | _ => usage
          end
      end
  end.

(** ** try_delegate, l.859-906: for any other command [sub], with arguments
    [args].  path has PATH_MAX bytes, of which readlink fills the first.  execve
    failing is left out ([access] has found the file). *)
Definition delegate (sub : bytes) (args : list bytes) : prog :=
  Ask XSelf (fun res => match res with
    | None => usage
    | Some self =>
        let nr := zlen self in                               (* readlink: at most PATH_MAX *)
        if (nr =? PATH_MAX) || (nr =? 0) then usage else
        let n := zlen sub in
        if nr + 1 + n + 1 >? PATH_MAX then usage else
        if (nr >=? PATH_MAX) || (nr + 1 + n >=? PATH_MAX) then End Undefined else
        let path := self ++ [45] ++ sub in
        Ask (XAccess path) (fun ok => if ok then End (Became path (path :: args)) else usage)
    end).
