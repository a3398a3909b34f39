(** * Facts about Disk.v *)
From Verif Require Import MicroFacts Crash Effects Final Pending PollFacts StepInv.
From Verif Require Export KillExec KillInv DiskSpec KillSpec.

(** ** what a program notes *)
Fixpoint trail {A} (p : prog shm A) (m : shm) (u : store) : store :=
  match p with
  | Ret _ => u
  | At _ f => match f m with Ok sp => let '(m', p') := sp in trail p' m' (note m' u) | _ => u end
  end.
Lemma mem_exec {A} (p : prog shm A) : forall m u, exec_all (mem p) (m, u) = do (m', x) <- exec_all p m; Ok ((m', trail p m u), x).
Proof.
  unfold mem. revert p. fix IH 1. destruct p as [x|l f]; intros m u; cbn [liftp exec_all obind trail]; [reflexivity|]. cbn [fst].
  destruct (f m) as [[m' p']| | |]; cbn [obind]; try reflexivity. cbn [snd]. exact (IH p' m' (note m' u)).
Qed.
(** the contents of the file while [p] runs from [m] to [m'] *)
Definition seen {A} (p : prog shm A) (m m' : shm) (s : image) : Prop := s = im m' \/ exists line m1, dies_at p m line m1 /\ s = im m1.
Lemma trail_in {A} (p : prog shm A) : forall m m' x u, exec_all p m = Ok (m', x) ->
  match u with None => trail p m u = None | Some l => exists l', trail p m u = Some l' /\ forall s, In s l' -> In s l \/ seen p m m' s end.
Proof.
  revert p. fix IH 1. destruct p as [x|ln f]; intros m m' y u E; cbn [trail].
  - destruct u as [l|]; [|reflexivity]. exists l. split; [reflexivity|auto].
  - cbn [exec_all] in E. destruct (f m) as [[m1 p1]| | |] eqn:Ef; try discriminate E.
    specialize (IH p1 m1 m' y (note m1 u) E). destruct u as [l|]; cbn [note option_map] in *; [|exact IH].
    destruct IH as (l' & -> & K). exists l'. split; [reflexivity|]. intros s Hs. apply K in Hs. destruct Hs as [[<-|Hs]|Hs]; [right|left; exact Hs|right].
    + destruct p1 as [z|ln1 f1]; [left; injection E as -> _; reflexivity|]. right. exists ln1, m1. split; [econstructor; [exact Ef|constructor]|reflexivity].
    + destruct Hs as [->|(l2 & m2 & D & ->)]; [left; reflexivity|right]. exists l2, m2. split; [econstructor; eassumption|reflexivity].
Qed.
Lemma mem_dies {A} (p : prog shm A) : forall m u l m' u', dies_at (mem p) (m, u) l (m', u') ->
  dies_at p m l m' /\ match u with None => u' = None | Some h => exists h', u' = Some h' /\ forall s, In s h' -> In s h \/ exists l1 m1, dies_at p m l1 m1 /\ s = im m1 end.
Proof.
  unfold mem. revert p. fix IH 1. destruct p as [x|ln f]; intros m u l m' u' D; cbn [liftp] in D; [apply dies_ret in D; contradiction|].
  apply dies_at_inv in D. destruct D as [[-> E]|([m1 u1] & p1 & E & D)].
  - injection E as -> ->. split; [constructor|]. destruct u as [h|]; [|reflexivity]. exists h. split; [reflexivity|auto].
  - cbn [fst] in E. destruct (f m) as [[m2 p2]| | |] eqn:Ef; try discriminate E. cbn [snd] in E. injection E as <- <- <-.
    pose proof D as D0. apply IH in D. destruct D as [D K]. split; [econstructor; eassumption|].
    destruct u as [h|]; cbn [note option_map] in *; [|exact K]. destruct K as (h' & -> & K). exists h'. split; [reflexivity|].
    assert (H2 : exists l1, dies_at (At ln f) m l1 m2).
    { destruct p2 as [z|ln2 f2]; [cbn [liftp] in D0; apply dies_ret in D0; contradiction|]. exists ln2. econstructor; [exact Ef|constructor]. }
    intros s Hs. apply K in Hs. destruct Hs as [[<-|Hs]|(l1 & m1 & D1 & ->)]; [right|left; exact Hs|right].
    + destruct H2 as [l1 H2]. exists l1, m2. auto.
    + exists l1, m1. split; [econstructor; eassumption|reflexivity].
Qed.

(** [u'] has what [u] had and images whose ring is [r] *)
Definition quiet (r : ring) (u u' : store) : Prop :=
  match u with None => u' = None | Some l => exists l', u' = Some l' /\ forall s, In s l' -> In s l \/ im_ring s = r end.
Lemma quiet_refl r u : quiet r u u.
Proof. destruct u as [l|]; [|reflexivity]. exists l. auto. Qed.
Lemma quiet_trans r u u1 u2 : quiet r u u1 -> quiet r u1 u2 -> quiet r u u2.
Proof.
  intros A B. destruct u as [l|]; cbn [quiet] in *; [|subst; exact B]. destruct A as (l1 & -> & A). destruct B as (l2 & -> & B).
  exists l2. split; [reflexivity|]. intros s Hs. destruct (B s Hs); auto.
Qed.
Lemma quiet_bw {A} b (p : prog bks A) m m' x u : exec_all (on_bw b p) m = Ok (m', x) -> quiet (sh_ring m) u (trail (on_bw b p) m u) /\ sh_ring m' = sh_ring m.
Proof.
  intros E. assert (R : sh_ring m' = sh_ring m).
  { rewrite exec_bw in E. apply obind_ok in E. destruct E as ([s y] & _ & E). injection E as <- _. apply ring_bk. }
  split; [|exact R]. pose proof (trail_in _ _ _ _ u E) as T. destruct u as [l|]; cbn [quiet]; [|exact T]. destruct T as (l' & -> & K). exists l'. split; [reflexivity|].
  intros s Hs. apply K in Hs. destruct Hs as [Hs|[->|(l1 & m1 & D & ->)]]; [left; exact Hs|right; exact R|right].
  apply dies_bw in D. destruct D as (s' & _ & ->). cbn [im im_ring]. apply ring_bk.
Qed.
Lemma quiet_open e w flags pid m' x u : exec_all (open_section e w flags pid) (shared w) = Ok (m', x) ->
  sh_ring m' = w_ring w -> quiet (w_ring w) u (trail (open_section e w flags pid) (shared w) u).
Proof.
  intros E R. pose proof (trail_in _ _ _ _ u E) as T. destruct u as [l|]; cbn [quiet]; [|exact T]. destruct T as (l' & -> & K). exists l'. split; [reflexivity|].
  intros s Hs. apply K in Hs. destruct Hs as [Hs|[->|(l1 & m1 & D & ->)]]; [left; exact Hs|right; exact R|right]. exact (open_ring _ _ _ _ _ _ D).
Qed.
Lemma exec_msync line e m u : exec_all (msync_p line e) (m, u) = Ok ((m, if has (r_gflags (sh_ring m)) SHR_SYNC && e_msync e then Some [im m] else u), tt).
Proof. unfold msync_p. cbn [exec_all fst]. destruct (has (r_gflags (sh_ring m)) SHR_SYNC && e_msync e); reflexivity. Qed.
Lemma trail_ring_nostore {A} line (f : ring -> outcome (ring * prog ring A)) m r x u : f (sh_ring m) = Ok (r, Ret x) -> r = sh_ring m -> quiet (sh_ring m) u (trail (on_ring (At line f)) m u).
Proof.
  intros E ->. unfold on_ring. cbn [liftp trail]. rewrite E. cbn [liftp trail]. destruct u as [l|]; cbn [quiet note option_map]; [|reflexivity].
  eexists. split; [reflexivity|]. intros s [<-|H]; [right; reflexivity|left; exact H].
Qed.

(** ** a critical section *)
Definition strong (e : env) (ev : list event) (x : ret) : Prop := match x with RetRead v _ _ => 0 < v /\ e_msync e = true | _ => safe_result ev x end.
Definition outcome_on_disk (e : env) (w w' : world) (c : nat) (ev : list event) (u u' : store) : Prop :=
  (has (r_gflags (w_ring w')) SHR_SYNC && e_msync e = true /\ u' = Some [im (shared w')])
  \/ (w_ring w' = w_ring w /\ quiet (w_ring w) u u' /\ forall x, In (ERet c x) ev -> ~ strong e ev x)
  \/ ((has (r_gflags (w_ring w')) SHR_SYNC && e_msync e = false \/ ~ good_sockets (w_ks w) e) /\ (u = None -> u' = None)
      /\ (has (r_gflags (w_ring w')) SHR_SYNC = true -> forall x, In (ERet c x) ev -> ~ strong e ev x)).
Lemma trail_none {A} (p : prog shm A) : forall m, trail p m None = None.
Proof. revert p. fix IH 1. destruct p as [x|l f]; intros m; cbn [trail]; [reflexivity|]. destruct (f m) as [[m' p']| | |]; [apply IH| | |]; reflexivity. Qed.
Lemma bad_end e cl k iov cl' rs c ev0 : end_write cl k iov (-1) = Ok (cl', rs) -> forall x, In (ERet c x) (rets c rs) -> ~ strong e (ev0 ++ rets c rs) x.
Proof.
  intros E x Hx. destruct k; cbn in E; injection E as _ <-; cbn in Hx; try (destruct Hx as [[= <-]|[]]; cbn; lia); contradiction.
Qed.
Lemma in_commit_ret c ms x l : In (ERet c x) ([ECommit c ms] ++ l) -> In (ERet c x) l.
Proof. intros [H|H]; [discriminate H|exact H]. Qed.
Lemma no_commit_rets c rs : committed (rets c rs) = [].
Proof. unfold rets. induction rs as [|x rs IH]; [reflexivity|exact IH]. Qed.
Theorem dsection_exec e w c w' ev u : LI w -> run_client e w c = Ok (w', ev) ->
  exists u', exec_all (dsection e (cli w c)) (shared w, u) = Ok ((shared w', u'), tt) /\ outcome_on_disk e w w' c ev u u'.
Proof.
  intros L. unfold run_client, dsection. set (cl := cli w c) in *. cbv zeta.
  assert (NOP : forall w1 ev1, shared w1 = shared w -> w_ring w1 = w_ring w -> (forall x, In (ERet c x) ev1 -> ~ strong e ev1 x) ->
     exists u', Ok ((shared w, u), tt) = Ok ((shared w1, u'), tt) /\ outcome_on_disk e w w1 c ev1 u u').
  { intros w1 ev1 -> E N. exists u. split; [reflexivity|]. right; left. split; [exact E|]. split; [apply quiet_refl|exact N]. }
  destruct (e_lock e) eqn:El; cbn [negb].
  2:{ intros H. destruct (c_pc cl) as [ |k iov len nb|k iov len nb|buf niov|buf niov| | |reset|get st sz] eqn:Ep;
        unfold crit_write, crit_read, do_stat, do_app in H; try rewrite El in H; cbn [negb obind] in H;
        try (injection H as <- <-; apply NOP; [destruct w; reflexivity|reflexivity|cbn [In]; first [tauto|intros ? [[= <-]|[]]; cbn; lia]]).
      apply obind_ok in H. destruct H as ([cl1 rs] & Ee & H). injection H as <- <-. apply NOP; [reflexivity|reflexivity|]. cbn [app].
      intros x Hx. exact (bad_end e _ _ _ _ _ _ [] Ee x Hx). }
  destruct (c_pc cl) as [ |k iov len nb|k iov len nb|buf niov|buf niov| | |reset|get st sz] eqn:Ep;
    try (intros [= <- <-]; apply NOP; [reflexivity|reflexivity|cbn [In]; tauto]).
  - (* writer *)
    intros H. apply obind_ok in H. destruct H as (res & E & H). unfold crit_write in E. rewrite El in E. cbn [negb] in E. cbv zeta in E.
    apply obind_ok in E. destruct E as (o & Eo & E). rewrite exec_bind, mem_exec, exec_ring. cbn [shared sh_ring].
    rewrite (write_exec _ _ _ false _ _ Eo). cbn [obind]. destruct o as [r'|].
    + cbn [obind]. destruct (c_w2r cl) as [h|] eqn:Eh; [|discriminate E].
      apply obind_ok in E. destruct E as ([[[ks bh] h'] ok] & Ew & E). rewrite exec_bind, mem_exec, exec_bw.
      unfold get_bk at 1. rewrite exec_wake; [|exact (li_w2r _ L)|apply (li_a _ L c), Eh]. cbn [shared put_ring sh_ring sh_w2r sh_r2w sh_ks w_ks w_w2r].
      rewrite Ew. cbn [obind snd]. rewrite ?put_bk_t. cbn [put_ring shared sh_ring sh_r2w].
      match goal with |- context [trail (on_bw true (bw_wake_p e h)) ?m ?u1] => set (u2 := trail (on_bw true (bw_wake_p e h)) m u1) end.
      destruct ok; injection E as <-; apply obind_ok in H; destruct H as ([cl1 rs] & Ee & H); injection H as <- <-.
      * rewrite exec_bind, mem_exec. cbn [obind exec_all]. unfold wrote_p at 1. rewrite exec_ring, MicroFacts.exec_at. cbn [obind]. rewrite MicroFacts.exec_at. cbn [obind exec_all].
        match goal with |- context [exec_all (msync_p _ _) (put_ring ?m ?r2, _)] => change r2 with (stat_wrote r' len (zlen iov)) end.
        assert (N3 : u = None -> trail (on_ring (wrote_p len (zlen iov))) (mksh r' bh (w_r2w w) ks) u2 = None) by (intros ->; unfold u2; rewrite !trail_none; reflexivity).
        revert N3. generalize (trail (on_ring (wrote_p len (zlen iov))) (mksh r' bh (w_r2w w) ks) u2). intros u3 N3.
        rewrite exec_msync. cbn [put_ring sh_ring]. eexists. split; [reflexivity|]. unfold outcome_on_disk. cbn [setc w_ring set]. revert Ee. unfold shr_sync.
        destruct (has (r_gflags (stat_wrote r' len (zlen iov))) SHR_SYNC); cbn [negb orb andb].
        -- destruct (e_msync e) eqn:Em; intros Ee; [left; split; reflexivity|]. right; right. split; [left; reflexivity|]. split; [exact N3|].
           intros _ x Hx. apply in_commit_ret in Hx. exact (bad_end e _ _ _ _ _ _ [ECommit c iov] Ee x Hx).
        -- intros _. right; right. split; [left; reflexivity|]. split; [exact N3|discriminate].
      * cbn [exec_all]. exists u2. split; [reflexivity|]. right; right. split; [right; intros G|].
        -- pose proof (bw_wake_good _ _ _ _ _ _ _ _ G Ew) as Q. discriminate Q.
        -- split; [intros ->; unfold u2; rewrite !trail_none; reflexivity|]. intros _ x Hx. apply in_commit_ret in Hx. exact (bad_end e _ _ _ _ _ _ [ECommit c iov] Ee x Hx).
    + cbn [obind exec_all]. match goal with |- context [trail ?p ?m ?u] => set (u2 := trail p m u) end.
      assert (Q : quiet (w_ring w) u u2).
      { unfold u2, write_p. eapply (trail_ring_nostore _ _ (shared w)); [|reflexivity]. cbn [shared sh_ring].
        unfold ring_write in Eo. apply obind_ok in Eo. destruct Eo as (go & Eg & Eo).
        destruct (wr_space (w_ring w) len (zlen iov)); [injection Eg as <-; apply obind_ok in Eo; destruct Eo as (? & _ & Eo); discriminate Eo|].
        destruct (r_drop (w_ring w)); [|reflexivity]. apply obind_ok in Eg. destruct Eg as (? & _ & Eg). injection Eg as <-.
        apply obind_ok in Eo. destruct Eo as (? & _ & Eo). discriminate Eo. }
      assert (SM : mksh (w_ring w) (w_w2r w) (w_r2w w) (w_ks w) = shared w) by reflexivity.
      destruct nb; [injection E as <-; apply obind_ok in H; destruct H as ([cl1 rs] & Ee & H); injection H as <- <-|
        destruct (c_r2w cl) as [[|]|]; try discriminate E; injection E as <-; injection H as <- <-];
      (exists u2; split; [reflexivity|]; right; left; split; [reflexivity|split; [exact Q|]]).
      * cbn [app]. intros x Hx Sx. destruct x; cbn [strong safe_result] in Sx; rewrite ?no_commit_rets in Sx; try tauto;
          destruct k; cbn in Ee; injection Ee as _ <-; cbn in Hx; try (destruct Hx as [[=]|[]]); try contradiction.
      * cbn [In]. tauto.
  - (* reader *)
    intros H. apply obind_ok in H. destruct H as (res & E & H). unfold crit_read in E. rewrite El in E. cbn [negb] in E.
    apply obind_ok in E. destruct E as ([[q md] o] & Eo & E). rewrite exec_bind, mem_exec, exec_ring. cbn [shared sh_ring].
    rewrite (read_exec _ _ _ _ _ _ _ _ Eo). cbn [obind]. destruct o as [[x cur']|]; cbn [snd obind].
    + match goal with |- context [trail ?p ?m ?u] => set (u2 := trail p m u) end.
      assert (N2 : u = None -> u2 = None) by (intros ->; apply trail_none). clearbody u2.
      cbv zeta in E. apply obind_ok in E. destruct E as ([w1 cl1] & E1 & E). cbn [c_w2r set] in E1, E.
      replace (rl_nr (loc_of x)) with (rd_nr x) by reflexivity.
      assert (FIN : forall w2 u3 v b i, (u = None -> u3 = None) -> exists u', exec_all (msync_p 852 e) (shared w2, u3) = Ok ((shared w2, u'), tt) /\ outcome_on_disk e w w2 c [ERet c (RetRead v b i)] u u').
      { intros w2 u3 v b i N3. rewrite exec_msync. eexists. split; [reflexivity|]. cbn [shared sh_ring].
        unfold outcome_on_disk. destruct (has (r_gflags (w_ring w2)) SHR_SYNC && e_msync e) eqn:Es; [left; split; reflexivity|].
        right; right. split; [left; reflexivity|]. split; [exact N3|]. intros Hs y [[= <-]|[]] [_ Sy]. rewrite Hs, Sy in Es. discriminate Es. }
      destruct (rd_nr x >? 0) eqn:En.
      * cbn [c_r2w set] in E1. destruct (c_r2w cl) as [h2|] eqn:Eh2; [|discriminate E1]. apply obind_ok in E1.
        destruct E1 as ([[[ks bh] h'] ok] & Ew & E1). injection E1 as <- <-. cbn [c_w2r set] in E.
        destruct (c_w2r cl) as [h|] eqn:Eh; [|discriminate E]. rewrite exec_bind, exec_bind, mem_exec, exec_bw.
        unfold get_bk at 1. rewrite exec_wake; [|exact (li_r2w _ L)|apply (li_b _ L c), Eh2]. cbn [put_ring shared sh_ring sh_w2r sh_r2w sh_ks].
        cbn [w_ks w_r2w set] in Ew. rewrite Ew. cbn [obind exec_all]. rewrite exec_bind, mem_exec, exec_bw, ?put_bk_f.
        cbn [put_ring shared sh_ring sh_w2r sh_r2w sh_ks]. unfold get_bk at 1. cbn [sh_w2r sh_ks]. rewrite exec_force.
        apply obind_ok in E. destruct E as ([ks2 ok2] & Ef & E). cbn [w_ks set] in Ef. rewrite Ef. cbn [obind fst snd exec_all].
        injection E as <-. injection H as <- <-. rewrite put_bk_t. cbn [sh_ring sh_r2w].
        match goal with |- context [setc ?w2 c ?cl2] => apply (FIN (setc w2 c cl2)) end. intros Hu. rewrite (N2 Hu), !trail_none. reflexivity.
      * injection E1 as <- <-. cbn [c_w2r set] in E. destruct (c_w2r cl) as [h|] eqn:Eh; [|discriminate E].
        rewrite exec_bind. cbn [exec_all obind]. rewrite exec_bind, mem_exec, exec_bw. unfold get_bk at 1. cbn [put_ring shared sh_ring sh_w2r sh_r2w sh_ks].
        rewrite exec_force. apply obind_ok in E. destruct E as ([ks2 ok2] & Ef & E). cbn [w_ks set] in Ef. rewrite Ef. cbn [obind fst snd exec_all].
        injection E as <-. injection H as <- <-. rewrite put_bk_t. cbn [sh_ring sh_r2w].
        match goal with |- context [setc ?w2 c ?cl2] => apply (FIN (setc w2 c cl2)) end. intros Hu. rewrite (N2 Hu), !trail_none. reflexivity.
    + match goal with |- context [trail ?p ?m ?u] => set (u2 := trail p m u) end.
      assert (Q : quiet (w_ring w) u u2).
      { unfold u2, read_p. cbv zeta. unfold ring_read in Eo. apply obind_ok in Eo. destruct Eo as ([[q1 md1] cur] & En & Eo).
        destruct cur as [sg|]; [apply obind_ok in Eo; destruct Eo as ([? ?] & _ & Eo); discriminate Eo|].
        eapply (trail_ring_nostore _ _ (shared w)); [|reflexivity]. cbn [shared sh_ring]. rewrite En. reflexivity. }
      clearbody u2. cbn [c_w2r c_flags set] in E. destruct (c_w2r cl) as [h|] eqn:Eh; [|discriminate E].
      destruct (has (c_flags cl) SHR_NONBLOCK).
      * rewrite exec_bind, mem_exec.
        match goal with |- context [exec_all (on_bw ?b ?p) ?m] => destruct (exec_all (on_bw b p) m) as [[m1 x1]| | |] eqn:Eb;
           [destruct (quiet_bw b p m m1 x1 u2 Eb) as [Q2 _]|..]; rewrite exec_bw in Eb; unfold get_bk at 1 in Eb end;
        cbn [put_ring shared sh_ring sh_w2r sh_r2w sh_ks] in Eb; rewrite exec_force in Eb;
        apply obind_ok in E; destruct E as ([ks2 ok2] & Ef & E); rewrite Ef in Eb; cbn [obind fst snd exec_all] in Eb; try discriminate Eb.
        injection Eb as <- <-. cbn [obind exec_all]. injection E as <-. injection H as <- <-. eexists. split; [reflexivity|]. right; left.
        split; [reflexivity|]. split; [eapply quiet_trans; [exact Q|exact Q2]|]. intros y [[= <-]|[]] Sy. cbn in Sy; lia.
      * destruct h; [discriminate E|]. injection E as <-. injection H as <- <-. cbn [exec_all]. exists u2. split; [destruct w; reflexivity|].
        right; left. split; [reflexivity|]. split; [exact Q|]. cbn [In]. tauto.
  - (* opening a wait handle for flush *)
    intros H. rewrite exec_bind, mem_exec.
    match goal with |- context [exec_all (on_bw ?b ?p) ?m] => destruct (exec_all (on_bw b p) m) as [[m1 x1]| | |] eqn:Eb;
       [destruct (quiet_bw b p m m1 x1 u Eb) as [Q2 _]|..]; rewrite exec_bw in Eb; unfold get_bk at 1 in Eb end;
    cbn [shared sh_r2w sh_ks] in Eb; rewrite exec_open_wait in Eb by exact (li_r2w _ L);
    destruct (bw_open_wait e (w_ks w) (w_r2w w) (c_pid cl) (e_name e)) as [[ks h] o]; cbn [obind] in Eb; try discriminate Eb.
    injection Eb as <- <-. cbn [obind exec_all]. destruct o.
    + apply obind_ok in H. destruct H as ([cl1 rs] & Ee & H). injection H as <- <-. eexists. split; [reflexivity|]. right; left. split; [reflexivity|]. split; [exact Q2|].
      intros y Hy Sy. assert (Z : match y with RetFlush _ => True | RetWrite _ _ => True | _ => False end).
      { unfold flush_write, go_write in Ee. unfold rets in Hy. apply in_map_iff in Hy. destruct Hy as (y' & [= ->] & Hy).
        apply obind_ok in Ee. destruct Ee as (ms & _ & Ee). destruct (wr_check _ _ _); injection Ee as _ <-; [contradiction|]. destruct Hy as [<-|[]]. exact I. }
      destruct y; try contradiction; cbn [strong safe_result] in Sy; rewrite no_commit_rets in Sy; tauto.
    + injection H as <- <-. eexists. split; [reflexivity|]. right; left. split; [reflexivity|]. split; [exact Q2|]. intros y [[= <-]|[]] Sy. cbn in Sy. lia.
  - (* close *)
    intros [= <- <-]. unfold close_handles. rewrite exec_bind.
    assert (CL : forall h m1 u1, exec_all (mem (on_bw false (bw_close_p h))) (m1, u1) = 
        let '(ks2, h3) := bw_close (sh_ks m1) (sh_r2w m1) h in Ok ((mksh (sh_ring m1) (sh_w2r m1) h3 ks2, trail (on_bw false (bw_close_p h)) m1 u1), tt)).
    { intros h m1 u1. rewrite mem_exec, exec_bw. unfold get_bk at 1. rewrite exec_close. destruct (bw_close (sh_ks m1) (sh_r2w m1) h). reflexivity. }
    assert (Q : forall b h m1 u1, quiet (sh_ring m1) u1 (trail (on_bw b (bw_close_p h)) m1 u1)).
    { intros b h m1 u1. destruct (exec_all (on_bw b (bw_close_p h)) m1) as [[m2 x]| | |] eqn:Eb; [exact (proj1 (quiet_bw _ _ _ _ _ _ Eb))|..];
        rewrite exec_bw, exec_close in Eb || (rewrite exec_bw in Eb; unfold get_bk at 1 in Eb; rewrite exec_close in Eb); destruct (bw_close _ _ _); discriminate Eb. }
    assert (N : forall x, In (ERet c x) [ERet c RetClosed] -> ~ strong e [ERet c RetClosed] x) by (intros y [[= <-]|[]] Sy; exact Sy).
    destruct (c_w2r cl) as [h|].
    + rewrite mem_exec, exec_bw. unfold get_bk at 1. cbn [shared sh_w2r sh_ks]. rewrite exec_close. destruct (bw_close (w_ks w) (w_w2r w) h) as [ks1 h1].
      cbn [obind]. rewrite put_bk_t. cbn [sh_ring sh_r2w]. destruct (c_r2w cl) as [h2|].
      * rewrite CL. cbn [shared sh_ks sh_r2w sh_ring sh_w2r w_ks w_r2w set]. destruct (bw_close ks1 (w_r2w w) h2) as [ks2 h3]. eexists. split; [reflexivity|]. right; left. split; [reflexivity|]. split; [|exact N].
        eapply quiet_trans; [apply (Q true h (shared w))|apply (Q false h2 (mksh (w_ring w) h1 (w_r2w w) ks1))].
      * cbn [exec_all]. eexists. split; [reflexivity|]. right; left. split; [reflexivity|]. split; [|exact N]. apply (Q true h (shared w)).
    + cbn [exec_all obind]. destruct (c_r2w cl) as [h2|].
      * rewrite CL. cbn [shared sh_ks sh_r2w sh_ring sh_w2r w_ks w_r2w set]. destruct (bw_close (w_ks w) (w_r2w w) h2) as [ks2 h3]. eexists. split; [reflexivity|]. right; left. split; [reflexivity|]. split; [|exact N]. apply (Q false h2 (shared w)).
      * cbn [exec_all]. apply NOP; [destruct w; reflexivity|reflexivity|exact N].
  - (* stat *)
    unfold do_stat. rewrite El. cbn [negb]. cbv zeta. intros H. rewrite exec_bind.
    assert (FIN : forall r' u3 so b, (u = None -> u3 = None) -> exists u', exec_all (msync_p 342 e) (mksh r' (w_w2r w) (w_r2w w) (w_ks w), u3) = Ok ((shared (setc (w <| w_ring := r' |>) c (cl <| c_pc := Idle |>)), u'), tt)
        /\ outcome_on_disk e w (setc (w <| w_ring := r' |>) c (cl <| c_pc := Idle |>)) c [ERet c (RetStat b (if shr_sync e r' then 0 else -1) so)] u u').
    { intros r' u3 so b N3. rewrite exec_msync. eexists. split; [reflexivity|]. cbn [sh_ring]. unfold outcome_on_disk. cbn [setc w_ring set]. unfold shr_sync.
      destruct (has (r_gflags r') SHR_SYNC); cbn [negb orb andb]; [destruct (e_msync e); [left; split; reflexivity|]|];
        (right; right; split; [left; reflexivity|split; [exact N3|]]); [|discriminate]. intros _ y [[= <-]|[]] Sy. cbn in Sy. lia. }
    destruct reset as [t|]; injection H as <- <-.
    + unfold reset_p. rewrite mem_exec, exec_ring, MicroFacts.exec_at. cbn [obind]. rewrite MicroFacts.exec_at. cbn [obind exec_all].
      apply FIN. intros ->. apply trail_none.
    + cbn [exec_all obind]. change (shared w) with (mksh (w_ring w) (w_w2r w) (w_r2w w) (w_ks w)). apply FIN. auto.
  - (* appdata *)
    unfold do_app. rewrite El. cbn [negb]. rewrite MicroFacts.exec_at. cbn [fst shared sh_ring obind]. unfold app_done, setapp_p.
    destruct (r_app_len (w_ring w) =? 0) eqn:E0; cbn [negb andb]; [intros [= <- <-]; apply NOP; [destruct w; reflexivity|reflexivity|intros y [[= <-]|[]] Sy; cbn in Sy; lia]|]. intros H.
    apply obind_ok in H. destruct H as ([r x] & E & H). injection H as <- <-.
    assert (FIN : forall r' u3 o z, (u = None -> u3 = None) -> exists u', exec_all (msync_p 1078 e) (mksh r' (w_w2r w) (w_r2w w) (w_ks w), u3) = Ok ((shared (setc (w <| w_ring := r' |>) c (cl <| c_pc := Idle |>)), u'), tt)
        /\ (shr_sync e r' = shr_sync e (w_ring w) -> outcome_on_disk e w (setc (w <| w_ring := r' |>) c (cl <| c_pc := Idle |>)) c [ERet c (RetApp (if shr_sync e (w_ring w) then 0 else -1) o z)] u u')).
    { intros r' u3 o z N3. rewrite exec_msync. eexists. split; [reflexivity|]. cbn [sh_ring]. intros <-. unfold outcome_on_disk. cbn [setc w_ring set]. unfold shr_sync.
      destruct (has (r_gflags r') SHR_SYNC); cbn [negb orb andb]; [destruct (e_msync e); [left; split; reflexivity|]|];
        (right; right; split; [left; reflexivity|split; [exact N3|]]); [|discriminate]. intros _ y [[= <-]|[]] Sy. cbn in Sy. lia. }
    assert (FAIL : forall w1 ev1, shared w1 = shared w -> w_ring w1 = w_ring w -> (exists g z, ev1 = [ERet c (RetApp (-1) g z)]) ->
        exists u', exec_all (Ret tt) (shared w, u) = Ok ((shared w1, u'), tt) /\ outcome_on_disk e w w1 c ev1 u u').
    { intros w1 ev1 A B (g & z & ->). cbn [exec_all]. apply NOP; [exact A|exact B|]. intros y [[= <-]|[]] Sy. cbn in Sy. lia. }
    destruct get as [ | |b], st as [s|];
      repeat match type of E with
      | (if ?b then _ else _) = Ok _ => destruct b eqn:?
      | obind _ _ = Ok _ => apply obind_ok in E; let y := fresh "y" in destruct E as (y & ? & E)
      end; try discriminate E; cbn [negb] in *;
      repeat match goal with H : negb _ = true |- _ => apply negb_true_iff in H | H : negb _ = false |- _ => apply negb_false_iff in H end;
      repeat match goal with H : e_alloc e = _ |- _ => rewrite H | H : (sz =? _) = _ |- _ => rewrite H end; cbn [negb];
      try (injection E as <- <-; apply FAIL; [destruct w; reflexivity|reflexivity|eauto]);
      injection E as <- <-; rewrite exec_bind, mem_exec, exec_ring, MicroFacts.exec_at; cbn [shared sh_ring]; rewrite ?E0; cbn [obind exec_all];
      repeat match goal with H : (sz =? _) = _ |- _ => rewrite H end; cbn [negb obind];
      repeat match goal with H : rd_mem 0 sz s = Ok _ |- _ => rewrite H end; cbn [obind exec_all];
      repeat match goal with H : wr_mem 0 _ (r_app _) = Ok _ |- _ => rewrite (exec_app _ _ _ _ H) end; cbn [obind exec_all put_ring];
      match goal with |- context [exec_all (msync_p 1078 e) (put_ring _ ?r1, ?u3)] => 
        match goal with |- context [RetApp _ ?o ?z] => destruct (FIN r1 u3 o z) as (u' & F1 & F2); [intros ->; apply trail_none|] end end;
      exists u'; (split; [exact F1|]); apply F2; reflexivity.
Qed.
