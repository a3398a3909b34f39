(** * The theorems, twenty-third part: the shr-tool program as a whole (C80-C82). *)
From Verif Require Import MainFacts3.
From Coq Require Import Strings.String.
Local Open Scope Z_scope.
Local Open Scope list_scope.
Ltac nx := match goal with |- runs ?p ?t ?x => let q := eval hnf in p in change (runs q t x) end.
Ltac go := repeat (nx; match goal with |- runs (Ask _ _) _ _ => do 2 eexists; split; [reflexivity|]; cbv beta end); nx; split; reflexivity.

(** ** C80 *)
(** Exit status 0 of create: every ring named was made, with the size, flags,
    limit and application data that the options ask for (C65 says which). *)
Theorem C80_create : forall os rings stdin fuel t, runs (tool KCreate os rings stdin fuel) t (Exited 0) ->
  rings <> [] /\ exists n fl mx app, made t = map (fun r => (r, n, fl, mx, app)) rings
  /\ (forall r n fl mx app rc, In (XInit r n fl mx app rc) t -> 0 <= rc)
  /\ (app = None <-> has_A (create_opts os) = false)
  /\ forall content, (forall f r, In (XMap f r) t -> content f = r) ->
       create_args content (create_opts os) = Some (n, fl, mx, match app with Some a => a | None => [] end).
Proof. exact m_create. Qed.
Print Assumptions C80_create.
(** Of write: every line of the input was written, in order (lines as in C49). *)
Theorem C80_write : forall os ring rest ls fuel t, Forall (fun l => ~ In 10 l /\ ~ In 0 l /\ zlen l <= 998) ls ->
  runs (tool KWrite os (ring :: rest) (text ls) fuel) t (Exited 0) ->
  puts t = ls /\ In (XOpen ring SHR_WRONLY true) t /\ forall m rc, In (XPut m rc) t -> 0 <= rc.
Proof. exact m_write. Qed.
Print Assumptions C80_write.
Theorem C80_writehex : forall os ring rest stdin fuel s bs t, spells bs s -> bs <> [] ->
  runs (tool (KWritehex s) os (ring :: rest) stdin fuel) t (Exited 0) -> exists rc, t = [XOpen ring SHR_WRONLY true; XPut bs rc] /\ 0 <= rc.
Proof. exact m_writehex. Qed.
Print Assumptions C80_writehex.
Theorem C80_writefile : forall os ring rest stdin fuel f t, runs (tool (KWritefile f) os (ring :: rest) stdin fuel) t (Exited 0) ->
  exists m rc, t = [XOpen ring SHR_WRONLY true; XMap f (Some m); XPut m rc] /\ 0 <= rc.
Proof. exact m_writefile. Qed.
Print Assumptions C80_writefile.
(** Of mount: the file system of the type and size asked for was mounted, and
    every subdirectory made. *)
Theorem C80_mount : forall os dir subs stdin fuel t, mode_of os = MMount \/ mode_of os = MSubdirs -> runs (tool KMount os (dir :: subs) stdin fuel) t (Exited 0) ->
  (exists sz, In (XMount dir (type_of os) sz true) t
     /\ forall c, getopts (create_opts os) (mkcc 0 0 0 None) = Some c -> sz = if cc_size c =? 0 then None else Some (cc_size c))
  /\ In (XChdir dir true) t /\ subdirs t = (match mode_of os with MSubdirs => subs | _ => [] end)
  /\ forall d ok, In (XMkdir d ok) t -> ok = true.
Proof. exact m_mount. Qed.
Print Assumptions C80_mount.
(** Any other exit status of create and write: the arguments were refused, or a
    call failed. *)
Theorem C80_fails : forall os pos stdin fuel t x,
  (runs (tool KCreate os pos stdin fuel) t x -> x = Exited 0 \/ exists rc, x = Exited rc /\ (t = [] \/ exists e, In e t /\ call_failed e))
  /\ (runs (tool KWrite os pos stdin fuel) t x -> x = Exited 0 \/ (x = Exited (-1) /\ (t = [] \/ exists e, In e t /\ call_failed e))).
Proof. exact (fun os pos stdin fuel t x => conj (m_fail_create os pos stdin fuel t x) (m_fail_write os pos stdin fuel t x)). Qed.
Print Assumptions C80_fails.
(** read shows every message it has read, and at most -N; it and pub, sub and
    tee exit with status 0 only if epoll_wait has failed. *)
Theorem C80_read : forall os pos stdin fuel t x, runs (tool KRead os pos stdin fuel) t x -> shown t = messages (gets t)
  /\ forall c, getopts (create_opts os) (mkcc 0 0 0 None) = Some c -> 0 < cc_max c -> zlen (shown t) <= cc_max c.
Proof. exact m_read_shows. Qed.
Print Assumptions C80_read.
Theorem C80_loops : forall k os pos stdin fuel t x, In k [KRead; KPub; KSub; KTee] -> runs (tool k os pos stdin fuel) t x ->
  x = Running \/ x = Exited (-1) \/ (x = Exited 0 /\ In (XPoll EpError) t).
Proof. exact loops_end. Qed.
Print Assumptions C80_loops.

(** So read fails when it has done what it was asked to do: -N 1, and one
    message read and shown. *)
Theorem C80_read_refuted : exists t, runs (tool KRead [OC (OptN (str "1"))] [str "r"] [] 5) t (Exited (-1))
  /\ (forall e, In e t -> ~ call_failed e) /\ shown t = [[7]].
Proof.
  exists [XOpen (str "r") 40960 true; XFd true; XSetup true; XPoll EpRing; XGet (Some [7]); XShow [7]]. split; [|split].
  - go.
  - intros e He. cbn in He. repeat (destruct He as [<-|He]; [cbn; try discriminate; try tauto|]). destruct He.
  - reflexivity.
Qed.
Print Assumptions C80_read_refuted.
(** status -A succeeds although the file could not be written; mount -q although
    the directory is no ramdisk. *)
Theorem C80_status_refuted : exists t, runs (tool KStatus [OC (OptA (str "f"))] [str "r"] [] 0) t (Exited 0) /\ In (XSave (str "f") [7] true false) t.
Proof.
  exists [XOpen (str "r") SHR_RDONLY true; XShrStat 0; XAppdata (Some [7]); XSave (str "f") [7] true false]. split; [|cbn; auto 9].
  do 3 (nx; do 2 eexists; split; [reflexivity|]; cbv beta). nx. exists (true, false), []. split; [reflexivity|]. split; reflexivity.
Qed.
Print Assumptions C80_status_refuted.
Theorem C80_query_refuted : exists t, runs (tool KMount [OQ] [str "d"] [] 0) t (Exited 0) /\ In (XStat (str "d") None) t /\ In (XSay QNot) t.
Proof.
  exists [XStat (str "d") None; XSay QNot]. split; [|cbn; auto]. go.
Qed.
Print Assumptions C80_query_refuted.
Example C80_case :
  runs (tool KCreate [OC (OptS (str "2k")); OC (OptM (str "d"))] [str "a"; str "b"] [] 0)
    [XInit (str "a") 2048 SHR_DROP 0 None 0; XInit (str "b") 2048 SHR_DROP 0 None 0] (Exited 0)
  /\ runs (tool KWrite [] [str "a"] (text [str "hi"; str "you"]) 0) [XOpen (str "a") SHR_WRONLY true; XPut (str "hi") 2; XPut (str "you") 3] (Exited 0)
  /\ runs (tool (KWritehex (str "ff01")) [] [str "a"] [] 0) [XOpen (str "a") SHR_WRONLY true; XPut [255; 1] 2] (Exited 0)
  /\ runs (tool (KWritefile (str "f")) [] [str "a"] [] 0) [XOpen (str "a") SHR_WRONLY true; XMap (str "f") (Some [9; 9]); XPut [9; 9] 2] (Exited 0)
  /\ runs (tool KMount [OD; OT (str "tmpfs"); OC (OptS (str "1m"))] [str "d"; str "x"; str "y"] [] 0)
       [XStat (str "d") (Some (1, true)); XStat (str "d/..") (Some (1, true)); XStatfs (str "d") (Some (mkfs 61267 4096 10 5));
        XMount (str "d") (str "tmpfs") (Some 1048576) true; XChdir (str "d") true; XMkdir (str "x") true; XMkdir (str "y") true] (Exited 0)
  /\ runs (tool KRead [OB] [str "r"] [] 2) [XOpen (str "r") 40960 true; XFd true; XSetup true; XPoll EpRing; XGet (Some [7]); XShow [7]; XPoll EpError] (Exited 0).
Proof.
  split; [go|].
  split; [go|].
  split; [go|].
  split; [go|].
  split; [go|].
  go.
Qed.

(** ** C81 *)
(** mount does not mount a ramdisk on a ramdisk, if stat and statfs succeed and
    the path has at most 4092 bytes. *)
Theorem C81_no_stacking_partial : forall os dir subs stdin fuel t x F, runs (tool KMount os (dir :: subs) stdin fuel) t x ->
  sees F t -> ramdisk F dir -> zlen dir <= 4092 -> (forall d fs sz ok, ~ In (XMount d fs sz ok) t)
  /\ (mode_of os = MMount \/ mode_of os = MSubdirs -> x = Exited (-1)).
Proof. exact m_no_stacking. Qed.
Print Assumptions C81_no_stacking_partial.
(** Subdirectories are made only after the new file system was mounted and made
    the working directory, and only those named. *)
Theorem C81_inside : forall os dir subs stdin fuel t x, runs (tool KMount os (dir :: subs) stdin fuel) t x ->
  forall a d ok b, t = a ++ XMkdir d ok :: b -> (exists fs sz, In (XMount dir fs sz true) a) /\ In (XChdir dir true) a /\ In d subs.
Proof. exact m_inside. Qed.
Print Assumptions C81_inside.
(** -u unmounts the directory and does nothing else. *)
Theorem C81_unmount : forall os dir subs stdin fuel t x, mode_of os = MUnmount -> runs (tool KMount os (dir :: subs) stdin fuel) t x ->
  t = [] /\ x = Exited (-1) \/ exists ok, t = [XUmount dir ok] /\ x = Exited (if ok then 0 else -1).
Proof. exact m_umount. Qed.
Print Assumptions C81_unmount.
(** -q changes nothing, and tells whether the directory is a ramdisk; of a tmpfs
    also its size, in units, and the percentage used, rounded down. *)
Theorem C81_query : forall os dir subs stdin fuel t x, mode_of os = MQuery -> runs (tool KMount os (dir :: subs) stdin fuel) t x -> Forall looks t.
Proof. exact m_query. Qed.
Print Assumptions C81_query.
Theorem C81_query_partial : forall os dir subs stdin fuel t x F, mode_of os = MQuery -> runs (tool KMount os (dir :: subs) stdin fuel) t x -> sees F t -> zlen dir <= 4092 ->
  (forall f, In (XStatfs dir (Some f)) t -> 0 <= f_bfree f <= f_blocks f /\ 0 < f_blocks f /\ 0 <= f_bsize f * f_blocks f <= SSIZE_MAX) ->
  (t = [] /\ x = Exited (-1)) \/ (x = Exited 0 /\ exists q, In (XSay q) t /\ (q = QNot <-> ~ ramdisk F dir)
    /\ (ramdisk F dir -> d_type F dir = TMPFS -> exists f n u, q = QTmpfs n u (100 * (f_blocks f - f_bfree f) / f_blocks f) /\ In (XStatfs dir (Some f)) t
          /\ In u [1; KB; MB; GB] /\ n * u <= f_bsize f * f_blocks f < (n + 1) * u)).
Proof. exact m_query_says. Qed.
Print Assumptions C81_query_partial.
(** Without -q there is no undefined behaviour. *)
Theorem C81_safe : forall os pos stdin fuel t x, mode_of os <> MQuery -> runs (tool KMount os pos stdin fuel) t x -> exists rc, x = Exited rc /\ (rc = 0 \/ rc = -1).
Proof. exact m_mount_safe. Qed.
Print Assumptions C81_safe.

(** A tmpfs without size limit has 0 blocks: the percentage is a division by 0
    whose result does not fit an int. *)
Theorem C81_query_refuted : exists t, runs (tool KMount [OQ] [str "d"] [] 0) t Undefined
  /\ t = [XStat (str "d") (Some (1, true)); XStat (str "d/..") (Some (2, true)); XStatfs (str "d") (Some (mkfs TMPFS 4096 0 0))].
Proof. eexists. split; [|reflexivity]. go. Qed.
Print Assumptions C81_query_refuted.
(** A longer path is not checked at all, and neither is one whose parent cannot
    be examined: the ramdisk there is mounted over. *)
Definition long_dir : bytes := repeat 97 (Z.to_nat 4093).
Definition f81 : files := mkfiles (fun p => if 4093 <? zlen p then 1 else 2) (fun _ => true) (fun _ => RAMFS).
Theorem C81_refuted : exists t, runs (tool KMount [] [long_dir] [] 0) t (Exited 0) /\ sees f81 t /\ ramdisk f81 long_dir
  /\ In (XMount long_dir (str "ramfs") None true) t.
Proof.
  exists [XMount long_dir (str "ramfs") None true; XChdir long_dir true]. split; [|split; [|split]].
  - unfold tool. change (options [] g0) with (Some g0). cbv beta iota. unfold run_mount, suitable_mountpoint. cbn [g_mode g0].
    replace (zlen long_dir + 4 >? PATH_MAX) with true by (vm_compute; reflexivity). cbv zeta. change (-1 =? -2) with false. cbv iota.
    exists true. eexists. split; [reflexivity|]. exists true. eexists. split; [reflexivity|]. split; reflexivity.
  - split; intros p r [I|[I|[]]]; discriminate.
  - split; [reflexivity|]. split; [vm_compute; discriminate|]. right. left. reflexivity.
  - left. reflexivity.
Qed.
Print Assumptions C81_refuted.
Theorem C81_unchecked_refuted : exists t, runs (tool KMount [] [str "d"] [] 0) t (Exited 0)
  /\ t = [XStat (str "d") (Some (1, true)); XStat (str "d/..") None; XMount (str "d") (str "ramfs") None true; XChdir (str "d") true].
Proof. eexists. split; [|reflexivity]. go. Qed.
Print Assumptions C81_unchecked_refuted.

Definition f81d : files := mkfiles (fun p => if 1 <? zlen p then 1 else 2) (fun _ => true) (fun _ => TMPFS).
Example C81_case :
  let t := [XStat (str "d") (Some (2, true)); XStat (str "d/..") (Some (1, true)); XStatfs (str "d") (Some (mkfs TMPFS 4096 256 128))] in
  runs (tool KMount [] [str "d"] [] 0) t (Exited (-1)) /\ sees f81d t /\ ramdisk f81d (str "d")
  /\ runs (tool KMount [OQ] [str "d"] [] 0) (t ++ [XSay (QTmpfs 1 MB 50)]) (Exited 0) /\ sees f81d (t ++ [XSay (QTmpfs 1 MB 50)])
  /\ runs (tool KMount [OU] [str "d"] [] 0) [XUmount (str "d") true] (Exited 0)
  /\ runs (tool KMount [OD] [str "e"; str "x"] [] 0)
       [XStat (str "e") (Some (1, true)); XStat (str "e/..") (Some (1, true)); XStatfs (str "e") (Some (mkfs 61267 4096 10 5));
        XMount (str "e") (str "ramfs") None true; XChdir (str "e") true; XMkdir (str "x") false] (Exited (-1)).
Proof.
  cbv zeta. split; [go|].
  assert (S : forall u, (forall p r, ~ In (XStat p r) u) -> (forall p r, ~ In (XStatfs p r) u) ->
    sees f81d ([XStat (str "d") (Some (2, true)); XStat (str "d/..") (Some (1, true)); XStatfs (str "d") (Some (mkfs TMPFS 4096 256 128))] ++ u)).
  { intros u N1 N2. split; intros p r [I|[I|[I|I]]]; try discriminate; try (injection I as <- <-; vm_compute; reflexivity).
    - destruct (N1 _ _ I).
    - injection I as <- <-. eexists. split; reflexivity.
    - destruct (N2 _ _ I). }
  split; [apply (S []); intros ? ? []|]. split; [split; [reflexivity|split; [vm_compute; discriminate|left; reflexivity]]|].
  split; [go|].
  split; [apply S; intros ? ? [I|[]]; discriminate|].
  split; go.
Qed.

(** ** C82 *)
(** Another command [sub] executes the file of that name beside the program
    itself (its path, a hyphen, the command) with the remaining arguments, if it
    exists; otherwise the tool exits.  The path is never cut off. *)
Theorem C82_delegate : forall sub args t x, runs (delegate sub args) t x ->
  (x = Exited (-1) /\ forall p, ~ In (XAccess p true) t) \/ exists self, t = [XSelf (Some self); XAccess (self ++ str "-" ++ sub) true]
    /\ x = Became (self ++ str "-" ++ sub) ((self ++ str "-" ++ sub) :: args) /\ zlen (self ++ str "-" ++ sub) < PATH_MAX.
Proof. exact m_delegate. Qed.
Print Assumptions C82_delegate.
Example C82_case : runs (delegate (str "foo") [str "a"]) [XSelf (Some (str "/bin/shr-tool")); XAccess (str "/bin/shr-tool-foo") true]
  (Became (str "/bin/shr-tool-foo") [str "/bin/shr-tool-foo"; str "a"]).
Proof. go. Qed.
