(** * The theorems, twenty-eighth part: pub, sub and tee between rings (C88,
    C89).  Statements only; every proof is [exact] of a lemma. *)
From Verif Require Import Relay Witness2.
From Coq Require Import Strings.String.
Local Open Scope Z_scope.
Local Open Scope list_scope.

(** ** C88: a ring is continued on another host *)

(** What the publisher takes from its ring is what it has dealt with, in order,
    and what it is about to deal with. *)
Theorem C88_pub : forall r w evs a p t s hand, reach contract r w evs -> publishing a p evs t s hand ->
  delivered_to a evs = read_all t ++ messages hand.
Proof. exact relay_pub. Qed.
Print Assumptions C88_pub.
(** The subscriber, [x] having arrived of the frames of [ms]: it has put an
    initial part of [ms] in its ring, whatever the results of its calls; and all of
    it if everything has arrived and it waits for more. *)
Theorem C88_sub : forall r w evs b x ks st ms y, reach contract r w evs -> subscribing b evs x ks st -> Forall ToolSpec.fits ms -> x ++ y = frames ms ->
  prefix_of (committed_by b evs) ms /\ (caught_up x ks st -> y = [] -> committed_by b evs = ms).
Proof. exact relay_sub. Qed.
Print Assumptions C88_sub.
(** Publisher and subscriber, on rings of any kind, over connection [c] of the
    publisher, of which [x] has arrived: what the subscriber has put in its ring
    is a contiguous part of what the publisher took from its own, an initial
    part if that is the first connection, and all to the end if the connection
    stands, everything has arrived and both are waiting. *)
Theorem C88_relay : forall ra wa evsa a t s hand rb wb evsb b x y ks st c, reach contract ra wa evsa -> reach contract rb wb evsb ->
  publishing a true evsa t s hand -> (c < p_conns s)%nat -> sent_to c t = x ++ y -> Forall ToolSpec.fits (read_for c t) -> subscribing b evsb x ks st ->
  exists before after, delivered_to a evsa = before ++ committed_by b evsb ++ after /\ (c = O -> before = [])
    /\ (hand = [] -> p_fd s = Some c -> y = [] -> caught_up x ks st -> after = []).
Proof. exact relay. Qed.
Print Assumptions C88_relay.
(** From shr-tool write on one host to shr-tool read on the other, rings without
    SHR_DROP, first connection: the messages shown are an initial part of the
    input; when all processes wait, the input is what was shown and what is still
    in the rings. *)
Theorem C88_hosts : forall ra wa evsa cw osw ring rest ls fw tw nw xw a t s hand x y ks st rb wb evsb b cr osr pos stdin fr tr nr xr,
  reach contract ra wa evsa -> r_drop ra = false -> attached cw (tool KWrite osw (ring :: rest) (text ls) fw) evsa tw nw xw -> Forall line_ok ls -> sole_writer cw evsa ->
  publishing a true evsa t s hand -> sole_reader a evsa -> (0 < p_conns s)%nat -> sent_to 0 t = x ++ y ->
  reach contract rb wb evsb -> r_drop rb = false -> subscribing b evsb x ks st -> sole_writer b evsb ->
  attached cr (tool KRead osr pos stdin fr) evsb tr nr xr -> sole_reader cr evsb ->
  prefix_of (shown tr) ls
  /\ (ended nw xw 0 -> hand = [] -> p_fd s = Some O -> y = [] -> caught_up x ks st -> in_epoll nr \/ nr = [] ->
      ls = shown tr ++ ring_unread (w_ring wb) ++ ring_unread (w_ring wa)).
Proof. exact relay_through. Qed.
Print Assumptions C88_hosts.
(** On rings of any kind, whoever else reads them, and over any connection: the
    messages shown are lines of the input, in order, none twice. *)
Theorem C88_hosts_any : forall ra wa evsa cw osw ring rest ls fw tw nw xw a t s hand c x y ks st rb wb evsb b cr osr pos stdin fr tr nr xr,
  reach contract ra wa evsa -> attached cw (tool KWrite osw (ring :: rest) (text ls) fw) evsa tw nw xw -> Forall line_ok ls -> sole_writer cw evsa ->
  publishing a true evsa t s hand -> (r_farm ra = true -> c_live (cli wa a) = true) -> (c < p_conns s)%nat -> sent_to c t = x ++ y ->
  reach contract rb wb evsb -> subscribing b evsb x ks st -> sole_writer b evsb ->
  attached cr (tool KRead osr pos stdin fr) evsb tr nr xr -> (r_farm rb = true -> c_live (cli wb cr) = true) ->
  sublist (shown tr) ls.
Proof. exact relay_any. Qed.
Print Assumptions C88_hosts_any.

(** ** C89: tee *)
(** What tee has put in each of the output rings is an initial part of what it
    has taken from the input ring, whatever the results of its calls; all of it
    whenever it waits for the next message. *)
Theorem C89_tee : forall r w evs r1 w1 evs1 r2 w2 evs2 a b1 b2 t s, reach contract r w evs -> reach contract r1 w1 evs1 -> reach contract r2 w2 evs2 ->
  teeing a b1 b2 evs evs1 evs2 t s ->
  prefix_of (committed_by b1 evs1) (delivered_to a evs) /\ prefix_of (committed_by b2 evs2) (delivered_to a evs)
  /\ (s = TCall TRead -> committed_by b1 evs1 = delivered_to a evs /\ committed_by b2 evs2 = delivered_to a evs).
Proof. exact relay_tee. Qed.
Print Assumptions C89_tee.

(** ** cases *)
Ltac nx := match goal with |- runs ?p ?t ?x => let q := eval hnf in p in change (runs q t x) end.
Ltac go := repeat (nx; match goal with |- runs (Ask _ _) _ _ => do 2 eexists; split; [reflexivity|]; cbv beta end); nx; split; reflexivity.
Ltac lst := let I := fresh in intros; match goal with H : In _ _ |- _ => vm_compute in H; repeat (destruct H as [H|H]; [first [discriminate H | injection H; intros; subst; eauto]|]); destruct H end.
Ltac att fl := constructor; [cbn [app]; go|exists (str "r"), fl; split; vm_compute; auto 30|vm_compute; reflexivity|lst|lst|intros y Hy; vm_compute in Hy; discriminate].
Ltac conc d := let v := eval vm_compute in (se2 true plain0 d) in assert (EV : se2 true plain0 d = v) by (vm_compute; reflexivity); rewrite !EV; clear EV.
Definition hi : bytes := str "hi".
Definition you : bytes := str "you".
Definition d88a := map Do ([Open WR 7; Open RDN 8] ++ write 0 [hi] ++ write 0 [you] ++ read 1 9 1 ++ read 1 9 1).
Definition d88b := map Do ([Open WR 7; Open RDN 8] ++ write 0 [hi] ++ write 0 [you] ++ read 1 9 1).
Definition w_done := [XOpen (str "r") SHR_WRONLY true; XPut hi 2; XPut you 3].
Definition r_half := [XOpen (str "r") 40960 true; XFd true; XSetup true; XPoll EpRing; XGet (Some hi); XShow hi].
Definition t88 := [mkpi (PAccept true) None []; mkpi (PRing (Some hi) [4;2]) (Some O) (frame hi); mkpi (PRing (Some you) [4;3]) (Some O) (frame you)].
Definition s88 := mkpst (Some O) true 1.
Definition ks88 := [7; 100; 1; 1; 1; 1; 1; 1; 1; 1; 1; 1; 1].
Lemma run88 : pub_run true t88 s88.
Proof.
  apply (pr_next true [mkpi (PAccept true) None []; mkpi (PRing (Some hi) [4;2]) (Some O) (frame hi)] s88 (PRing (Some you) [4;3]) s88 (frame you)); [|reflexivity|vm_compute; reflexivity].
  apply (pr_next true [mkpi (PAccept true) None []] s88 (PRing (Some hi) [4;2]) s88 (frame hi)); [|reflexivity|vm_compute; reflexivity].
  apply (pr_next true [] (mkpst None false 0) (PAccept true) s88 []); [constructor|reflexivity|reflexivity].
Qed.
Example C88_case : let wa := sw2 true plain0 d88a in let evsa := se2 true plain0 d88a in let wb := sw2 true plain0 d88b in let evsb := se2 true plain0 d88b in
  reach contract plain_ring wa evsa /\ r_drop plain_ring = false
  /\ attached 0 (tool KWrite [] [str "r"] (text [hi; you]) 0) evsa w_done [] (Exited 0) /\ Forall line_ok [hi; you] /\ sole_writer 0 evsa
  /\ publishing 1 true evsa t88 s88 [] /\ sole_reader 1 evsa /\ (0 < p_conns s88)%nat /\ sent_to 0 t88 = frames [hi; you] ++ []
  /\ reach contract plain_ring wb evsb /\ subscribing 0 evsb (frames [hi; you]) ks88 (SubWaits []) /\ sole_writer 0 evsb
  /\ attached 1 (tool KRead [Main.OB] [str "r"] [] 3) evsb r_half [XPoll EpError] (Exited 0) /\ sole_reader 1 evsb
  /\ p_fd s88 = Some O /\ caught_up (frames [hi; you]) ks88 (SubWaits []) /\ in_epoll [XPoll EpError]
  /\ shown r_half = [hi] /\ ring_unread (w_ring wb) = [you] /\ ring_unread (w_ring wa) = [].
Proof.
  cbv zeta. split; [apply (reach_mono steady); [exact steady_contract|apply reach_steady2; [exact plain_fresh|vm_compute; reflexivity]]|]. split; [reflexivity|].
  conc d88a. split; [att SHR_WRONLY|]. split; [repeat constructor; cbn; intuition (try discriminate; lia)|]. split; [unfold sole_writer; lst|].
  split; [constructor; [exact run88|vm_compute; auto 30|vm_compute; reflexivity|vm_compute; discriminate|unfold reads_one; lst]|]. split; [unfold sole_reader; lst|].
  split; [cbn; lia|]. split; [vm_compute; reflexivity|].
  split; [apply (reach_mono steady); [exact steady_contract|apply reach_steady2; [exact plain_fresh|vm_compute; reflexivity]]|].
  conc d88b. split; [constructor; [vm_compute; reflexivity|vm_compute; auto 30|intros iov Hi; vm_compute in Hi; discriminate]|]. split; [unfold sole_writer; lst|].
  split; [att 40960|]. split; [unfold sole_reader; lst|]. split; [reflexivity|].
  split; [split; [eexists; reflexivity|vm_compute; discriminate]|]. split; [do 2 eexists; reflexivity|]. split; [vm_compute; reflexivity|]. split; vm_compute; reflexivity.
Qed.
(** tee: the second message has arrived in the first ring only *)
Definition d89 := map Do ([Open WR 7; Open WR 8] ++ write 0 [hi] ++ write 0 [you]).
Definition d89b := map Do ([Open WR 7] ++ write 0 [hi]).
Definition t89 := [(TRead, TGot 2 hi); (TWrite1 hi, TPut 2); (TWrite2 hi, TPut 2); (TRead, TGot 3 you); (TWrite1 you, TPut 3)].
Example C89_case : let evs := se2 true plain0 d88a in let evs1 := se2 true plain0 d89 in let evs2 := se2 true plain0 d89b in
  reach contract plain_ring (sw2 true plain0 d88a) evs /\ reach contract plain_ring (sw2 true plain0 d89) evs1 /\ reach contract plain_ring (sw2 true plain0 d89b) evs2
  /\ teeing 1 0 0 evs evs1 evs2 t89 (TCall (TWrite2 you))
  /\ delivered_to 1 evs = [hi; you] /\ committed_by 0 evs1 = [hi; you] /\ committed_by 0 evs2 = [hi].
Proof.
  cbv zeta. do 3 (split; [apply (reach_mono steady); [exact steady_contract|apply reach_steady2; [exact plain_fresh|vm_compute; reflexivity]]|]).
  conc d88a. conc d89. conc d89b. split; [constructor|split; [|split]; vm_compute; reflexivity].
  - pose proof (tr_next _ _ (TGot 2 hi) _ tr_start eq_refl) as R. pose proof (tr_next _ _ (TPut 2) _ R eq_refl) as R1.
    pose proof (tr_next _ _ (TPut 2) _ R1 eq_refl) as R2. pose proof (tr_next _ _ (TGot 3 you) _ R2 eq_refl) as R3.
    exact (tr_next _ _ (TPut 3) _ R3 eq_refl).
  - vm_compute; auto 30.
  - vm_compute; auto 30.
  - vm_compute; auto 30.
  - vm_compute; reflexivity.
  - intros nr m I _. cbn in I. repeat (destruct I as [I|I]; [first [discriminate I|injection I as <- <-; reflexivity]|]). destruct I.
  - unfold reads_one; lst.
  - vm_compute; reflexivity.
  - vm_compute; reflexivity.
Qed.
