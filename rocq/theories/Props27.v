(** * The theorems, twenty-seventh part: shr-tool write and shr-tool read on
    the two ends of a ring (C86, C87).  Statements lst; every proof is [exact]
    of a lemma.  [attached c p evs t next x]: a process running [p] has opened the
    ring as client [c], has done [t] so far while the ring saw [evs], and does
    [next] from there on until it ends with [x]. *)
From Verif Require Import Pipe Witness2.
From Coq Require Import Strings.String.
Local Open Scope Z_scope.
Local Open Scope list_scope.

(** ** C86: what comes out is what went in *)

(** shr-tool write: what it has put in the ring, in any state, is an initial
    part of the lines of its input: those whose shr_write has returned a count,
    and perhaps one more, whose shr_write returned an error (C10).  When it has
    exited with status 0 it is every line. *)
Theorem C86_write : forall r w evs c os ring rest ls fuel t next x, reach contract r w evs ->
  attached c (tool KWrite os (ring :: rest) (text ls) fuel) evs t next x -> Forall line_ok ls ->
  prefix_of (committed_by c evs) ls
  /\ (exists extra, committed_by c evs = acknowledged t ++ extra /\ (extra = [] \/ exists m rc, extra = [m] /\ In (XPut m rc) t /\ rc < 0))
  /\ (ended next x 0 -> committed_by c evs = ls).
Proof. exact pipe_write. Qed.
Print Assumptions C86_write.
(** An input with an empty line cannot be written. *)
Theorem C86_empty_line : forall r w evs c os ring rest ls fuel t next x, reach contract r w evs ->
  attached c (tool KWrite os (ring :: rest) (text ls) fuel) evs t next x -> Forall line_ok ls -> In [] ls -> ~ ended next x 0.
Proof. exact pipe_empty_line. Qed.
Print Assumptions C86_empty_line.
(** writehex and writefile put at most one message in the ring, the bytes that
    the argument spells or the contents of the file, and with status 0 they have. *)
Theorem C86_writehex : forall r w evs c os ring rest stdin fuel s bs t next x, reach contract r w evs -> spells bs s -> bs <> [] ->
  attached c (tool (KWritehex s) os (ring :: rest) stdin fuel) evs t next x ->
  (committed_by c evs = [] \/ committed_by c evs = [bs]) /\ (ended next x 0 -> committed_by c evs = [bs]).
Proof. exact pipe_writehex. Qed.
Print Assumptions C86_writehex.
Theorem C86_writefile : forall r w evs c os ring rest stdin fuel f t next x, reach contract r w evs ->
  attached c (tool (KWritefile f) os (ring :: rest) stdin fuel) evs t next x ->
  (committed_by c evs = [] \/ exists m, In (XMap f (Some m)) t /\ committed_by c evs = [m])
  /\ (ended next x 0 -> exists m, In (XMap f (Some m)) t /\ committed_by c evs = [m]).
Proof. exact pipe_writefile. Qed.
Print Assumptions C86_writefile.
(** shr-tool read: what it has shown is an initial part of what shr_read has
    given it, and all of it whenever it waits for more or has ended. *)
Theorem C86_read : forall r w evs c os pos stdin fuel t next x, reach contract r w evs ->
  attached c (tool KRead os pos stdin fuel) evs t next x ->
  prefix_of (shown t) (delivered_to c evs) /\ (in_epoll next \/ next = [] -> shown t = delivered_to c evs).
Proof. exact pipe_read. Qed.
Print Assumptions C86_read.
(** From one to the other, nobody else using the ring, which has no SHR_DROP:
    the messages shown are an initial part of the lines of the input; when write
    has exited with status 0 and read is waiting or has ended, the lines
    of the input are those shown and those still in the ring. *)
Theorem C86_through : forall r w evs cw cr osw ring rest ls fw tw nw xw osr pos stdin fr tr nr xr, reach contract r w evs -> r_drop r = false ->
  attached cw (tool KWrite osw (ring :: rest) (text ls) fw) evs tw nw xw -> Forall line_ok ls -> sole_writer cw evs ->
  attached cr (tool KRead osr pos stdin fr) evs tr nr xr -> sole_reader cr evs ->
  prefix_of (shown tr) ls
  /\ (ended nw xw 0 -> in_epoll nr \/ nr = [] -> ls = shown tr ++ ring_unread (w_ring w)).
Proof. exact pipe_through. Qed.
Print Assumptions C86_through.
(** On any ring, SHR_DROP or SHR_FARM, and whoever else reads it: the messages
    shown are lines of the input, in order, none twice. *)
Theorem C86_any : forall r w evs cw cr osw ring rest ls fw tw nw xw osr pos stdin fr tr nr xr, reach contract r w evs ->
  attached cw (tool KWrite osw (ring :: rest) (text ls) fw) evs tw nw xw -> Forall line_ok ls -> sole_writer cw evs ->
  attached cr (tool KRead osr pos stdin fr) evs tr nr xr -> (r_farm r = true -> c_live (cli w cr) = true) ->
  sublist (shown tr) ls.
Proof. exact pipe_any. Qed.
Print Assumptions C86_any.

(** ** C87: and nobody waits in vain *)

(** While the ring holds something that shr-tool read has not read, the
    descriptor on which it waits is readable. *)
Theorem C87_reader : forall r w evs c os pos stdin fuel t next x, reach steady r w evs ->
  attached c (tool KRead os pos stdin fuel) evs t next x -> c_live (cli w c) = true ->
  exists s, data_sock w c = Some s /\ (available (w_ring w) (c_q (cli w c)) <> [] -> readable w s).
Proof. exact pipe_reader. Qed.
Print Assumptions C87_reader.
(** So when write has exited with status 0 and read waits with nothing
    to wake it, it has shown the whole input. *)
Theorem C87_drained : forall r w evs cw cr osw ring rest ls fw tw nw xw osr pos stdin fr tr nr xr s, reach steady r w evs -> r_drop r = false ->
  attached cw (tool KWrite osw (ring :: rest) (text ls) fw) evs tw nw xw -> Forall line_ok ls -> sole_writer cw evs -> ended nw xw 0 ->
  attached cr (tool KRead osr pos stdin fr) evs tr nr xr -> sole_reader cr evs -> in_epoll nr ->
  data_sock w cr = Some s -> ~ readable w s -> shown tr = ls.
Proof. exact pipe_drained. Qed.
Print Assumptions C87_drained.
(** A write that sleeps because the ring is full wakes up if read waits with
    nothing to wake it: they never wait for each other. *)
Theorem C87_no_deadlock : forall r w evs cr osr pos stdin fr tr nr xr s c, reach steady r w evs -> r_drop r = false ->
  attached cr (tool KRead osr pos stdin fr) evs tr nr xr -> data_sock w cr = Some s -> ~ readable w s ->
  blocked_msgs w c <> [] -> exists w1, step w (AWake c) = Ok (w1, []) /\ asleep w1 c = false /\ w_ring w1 = w_ring w.
Proof. exact pipe_no_deadlock. Qed.
Print Assumptions C87_no_deadlock.

(** ** cases *)
Ltac nx := match goal with |- runs ?p ?t ?x => let q := eval hnf in p in change (runs q t x) end.
Ltac go := repeat (nx; match goal with |- runs (Ask _ _) _ _ => do 2 eexists; split; [reflexivity|]; cbv beta end); nx; split; reflexivity.
Ltac lst := let I := fresh in intros; match goal with H : In _ _ |- _ => vm_compute in H; repeat (destruct H as [H|H]; [first [discriminate H | injection H; intros; subst; eauto]|]); destruct H end.
Ltac att fl := constructor; [cbn [app]; go|exists (str "r"), fl; split; vm_compute; auto 30|vm_compute; reflexivity|lst|lst|intros y Hy; vm_compute in Hy; discriminate].
Ltac conc d := let v := eval vm_compute in (se2 true plain0 d) in assert (EV : se2 true plain0 d = v) by (vm_compute; reflexivity); rewrite !EV; clear EV.
Definition hi : bytes := str "hi".
Definition you : bytes := str "you".
Definition d86 := map Do ([Open WR 7; Open RDN 8] ++ write 0 [hi] ++ write 0 [you] ++ read 1 9 1).
Definition d87 := d86 ++ map Do (read 1 9 1 ++ read 1 9 1).
Definition w_done := [XOpen (str "r") SHR_WRONLY true; XPut hi 2; XPut you 3].
Definition r_half := [XOpen (str "r") 40960 true; XFd true; XSetup true; XPoll EpRing; XGet (Some hi); XShow hi].
Definition r_all := r_half ++ [XPoll EpRing; XGet (Some you); XShow you; XPoll EpRing; XGet (Some [])].
Example C86_case : let w := sw2 true plain0 d86 in let evs := se2 true plain0 d86 in
  reach steady plain_ring w evs /\ r_drop plain_ring = false
  /\ attached 0 (tool KWrite [] [str "r"] (text [hi; you]) 0) evs w_done [] (Exited 0) /\ Forall line_ok [hi; you] /\ sole_writer 0 evs
  /\ attached 1 (tool KRead [Main.OB] [str "r"] [] 3) evs r_half [XPoll EpError] (Exited 0) /\ sole_reader 1 evs
  /\ ended [] (Exited 0) 0 /\ in_epoll [XPoll EpError] /\ shown r_half = [hi] /\ ring_unread (w_ring w) = [you].
Proof.
  cbv zeta. split; [apply reach_steady2; [exact plain_fresh|vm_compute; reflexivity]|]. split; [reflexivity|]. conc d86.
  split; [att SHR_WRONLY|]. split; [repeat constructor; cbn; intuition (try discriminate; lia)|]. split; [unfold sole_writer; lst|].
  split; [att 40960|]. split; [unfold sole_reader; lst|]. split; [split; reflexivity|]. split; [do 2 eexists; reflexivity|]. split; vm_compute; reflexivity.
Qed.
Example C87_drained_case : let w := sw2 true plain0 d87 in let evs := se2 true plain0 d87 in
  reach steady plain_ring w evs
  /\ attached 0 (tool KWrite [] [str "r"] (text [hi; you]) 0) evs w_done [] (Exited 0) /\ sole_writer 0 evs
  /\ attached 1 (tool KRead [Main.OB] [str "r"] [] 5) evs r_all [XPoll EpError] (Exited 0) /\ sole_reader 1 evs
  /\ data_sock w 1 = Some 1%nat /\ ~ readable w 1 /\ shown r_all = [hi; you].
Proof.
  cbv zeta. split; [apply reach_steady2; [exact plain_fresh|vm_compute; reflexivity]|]. conc d87.
  split; [att SHR_WRONLY|]. split; [unfold sole_writer; lst|]. split; [att 40960|]. split; [unfold sole_reader; lst|].
  split; [vm_compute; reflexivity|]. split; [unfold readable; vm_compute; discriminate|vm_compute; reflexivity].
Qed.
(** a write that sleeps *)
Definition d87b := map Do ([Open WR 7; Open RDN 8] ++ write 0 [hi ++ you ++ hi] ++ write 0 [you ++ you] ++ read 1 9 1).
Definition r_one := [XOpen (str "r") 40960 true; XFd true; XSetup true; XPoll EpRing; XGet (Some (hi ++ you ++ hi)); XShow (hi ++ you ++ hi)].
Example C87_no_deadlock_case : let w := sw2 true plain0 d87b in let evs := se2 true plain0 d87b in
  reach steady plain_ring w evs
  /\ attached 0 (tool KWrite [] [str "r"] (text [hi ++ you ++ hi; you ++ you]) 0) evs [XOpen (str "r") SHR_WRONLY true; XPut (hi ++ you ++ hi) 7] [XPut (you ++ you) 6] (Exited 0)
  /\ attached 1 (tool KRead [Main.OB] [str "r"] [] 5) evs r_one [XPoll EpError] (Exited 0)
  /\ data_sock w 1 = Some 1%nat /\ ~ readable w 1 /\ blocked_msgs w 0 = [you ++ you] /\ asleep w 0 = true.
Proof.
  cbv zeta. split; [apply reach_steady2; [exact plain_fresh|vm_compute; reflexivity]|]. conc d87b.
  split; [|split; [att 40960|]].
  - constructor; [cbn [app]; go|exists (str "r"), SHR_WRONLY; split; vm_compute; auto 30|vm_compute; reflexivity|lst|lst|].
    intros y Hy. assert (E : y = CWrite [you ++ you]) by (vm_compute in Hy; injection Hy; intros; subst; reflexivity). subst y. do 3 eexists. split; reflexivity.
  - split; [vm_compute; reflexivity|]. split; [unfold readable; vm_compute; discriminate|]. split; vm_compute; reflexivity.
Qed.
(** one message *)
Definition d86h := map Do ([Open WR 7] ++ write 0 [[255; 1]]).
Example C86_one_case : let w := sw2 true plain0 d86h in let evs := se2 true plain0 d86h in
  reach steady plain_ring w evs /\ spells [255; 1] (str "ff01")
  /\ attached 0 (tool (KWritehex (str "ff01")) [] [str "r"] [] 0) evs [XOpen (str "r") SHR_WRONLY true; XPut [255; 1] 2] [] (Exited 0)
  /\ attached 0 (tool (KWritefile (str "f")) [] [str "r"] [] 0) evs [XOpen (str "r") SHR_WRONLY true; XMap (str "f") (Some [255; 1]); XPut [255; 1] 2] [] (Exited 0).
Proof.
  cbv zeta. split; [apply reach_steady2; [exact plain_fresh|vm_compute; reflexivity]|]. conc d86h.
  split; [change [255; 1] with [16 * 15 + 15; 16 * 0 + 1]; change (str "ff01") with [102; 102; 48; 49]; apply sp_cons; [cbn; auto 20|cbn; auto 20|]; apply sp_cons; [cbn; auto 20|cbn; auto 20|apply sp_nil]|]. split; att SHR_WRONLY.
Qed.
(** SHR_DROP: the first line is gone *)
Definition d86d := map Do ([Open WR 7; Open RDN 8] ++ write 0 [hi] ++ write 0 [you] ++ write 0 [hi ++ you] ++ write 0 [hi] ++ read 1 9 1).
Example C86_any_case : let w := sw2 true drop0 d86d in let evs := se2 true drop0 d86d in
  reach contract drop_ring w evs
  /\ attached 0 (tool KWrite [] [str "r"] (text [hi; you; hi ++ you; hi]) 0) evs
       [XOpen (str "r") SHR_WRONLY true; XPut hi 2; XPut you 3; XPut (hi ++ you) 5; XPut hi 2] [] (Exited 0) /\ sole_writer 0 evs
  /\ attached 1 (tool KRead [Main.OB] [str "r"] [] 5) evs
       [XOpen (str "r") 40960 true; XFd true; XSetup true; XPoll EpRing; XGet (Some you); XShow you] [XPoll EpError] (Exited 0)
  /\ r_farm drop_ring = false.
Proof.
  cbv zeta. split; [apply (reach_mono steady); [exact steady_contract|apply reach_steady2; [exact drop_fresh|vm_compute; reflexivity]]|].
  let v := eval vm_compute in (se2 true drop0 d86d) in assert (EV : se2 true drop0 d86d = v) by (vm_compute; reflexivity); rewrite !EV; clear EV.
  split; [att SHR_WRONLY|]. split; [unfold sole_writer; lst|]. split; [att 40960|reflexivity].
Qed.
