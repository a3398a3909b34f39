(** * The simulation: statements, and what happens meanwhile. *)
From Verif Require Import BaseFacts MicroFacts KillExec KillFacts KillInv KillFinal BwInv KillBwInv LockFacts WorldFacts StepInv SysFacts KillSpec.
From Verif Require Export FineSim2.

Section Sim.
Variables (P : world -> action -> Prop) (st : world).
Hypothesis HP : local P.

Lemma sim_lock w x evs : kexec P st w evs -> HI w -> ready w x -> P w (act x) -> sim P st w (mkin w x (body w x)) evs w (shared w) [].
Proof.
  intros K H R Pa. constructor; cbn [in_w in_who in_p]; auto using pw_none.
  - cbn. symmetry. apply with_shared_same.
  - constructor.
  - constructor.
  - intros d [].
Qed.

Lemma sim_names w i evs w0 m0 D : sim P st w i evs w0 m0 D -> new_names w0 (act (in_who i)).
Proof. intros S. apply (lo_names _ HP), (si_p _ _ _ _ _ _ _ _ S). Qed.
Lemma sim_len w i evs w0 m0 D d : sim P st w i evs w0 m0 D -> In d D -> (snd d < length (w_ks w0))%nat.
Proof. intros S I. destruct (si_d _ _ _ _ _ _ _ _ S d I) as (_ & (p & E) & _). apply (wait_lt _ _ _ _ (si_hi _ _ _ _ _ _ _ _ S) E). Qed.
Lemma adv_at {A} s l (f : shm -> outcome (shm * prog shm A)) m (Q : A -> shm -> Prop) : advs Q s false (At l f) m ->
  inert sh_ks kputs s f /\ forall m1 m' p', likes m m1 -> f m1 = Ok (m', p') -> advs Q s false p' m'.
Proof. intros H. inversion H; subst. auto. Qed.

Lemma sim_stmt w iw x line f m p evs w0 m0 D : sim P st w (mkin iw x (At line f)) evs w0 m0 D -> f (shared w) = Ok (m, p) ->
  exists m1, sim P st (with_shared w m) (mkin iw x p) evs w0 m1 D.
Proof.
  intros S E. pose proof (sim_names _ _ _ _ _ _ S) as N. pose proof (si_w _ _ _ _ _ _ _ _ S) as W. pose proof (si_hi _ _ _ _ _ _ _ _ S) as H.
  pose proof (si_e _ _ _ _ _ _ _ _ S) as Ew. cbn [in_w in_who in_p] in *.
  assert (Lm : (length (w_ks w0) <= length (sh_ks m0))%nat) by (apply (body_len _ _ _ _ H N W)).
  rewrite Ew, shared_wakes, shared_with in E.
  destruct (inert_list f D m0 m p) as (m1 & F & ->); [| |exact E|].
  - intros d I. pose proof (sim_len _ _ _ _ _ _ _ S I). destruct (si_d _ _ _ _ _ _ _ _ S d I) as (_ & _ & _ & A). cbn [in_p] in A. apply adv_at in A. split; [apply A|lia].
  - intros m1 F d I. pose proof (sim_len _ _ _ _ _ _ _ S I). pose proof (body_len _ _ _ _ H N (pw_stmt _ _ _ _ _ _ _ W F)). lia.
  - exists m1. pose proof (pw_stmt _ _ _ _ _ _ _ W F) as W1. pose proof (body_len _ _ _ _ H N W1) as L1.
    constructor; cbn [in_w in_who in_p]; try apply S.
    + exact W1.
    + rewrite Ew. apply wakes_shared.
    + intros d I. pose proof (sim_len _ _ _ _ _ _ _ S I) as Ld. destruct (si_d _ _ _ _ _ _ _ _ S d I) as (A1 & A2 & A3 & A). cbn [in_p in_who] in *.
      apply adv_at in A. destruct A as [A A']. split; [exact A1|]. split; [exact A2|]. split.
      * assert (La : (snd d < length (sh_ks m0))%nat) by lia. assert (Lb : (snd d < length (sh_ks m1))%nat) by lia.
        rewrite (inert_pend sh_ks kputs kgps kpgs _ _ _ _ _ A La Lb F). exact A3.
      * apply (A' m0 m1 p); [apply like_refl, kpgs|exact F].
Qed.

(** actions of one client on itself *)
Lemma setc_same w c : setc w c (cli w c) = w.
Proof. unfold setc, cli. rewrite set_nat_same. destruct w; reflexivity. Qed.
Definition own (a : action) (c : nat) : Prop := match a with ACall c' _ | AEintr c' | APoll c' _ | ACrash c' => c' = c | _ => False end.
Lemma own_step w w0 a c w' ev : own a c -> (match a with ACrash _ => no_sock (c_w2r (cli w c)) /\ no_sock (c_r2w (cli w c)) | _ => True end) ->
  cli w0 c = cli w c -> step w a = Ok (w', ev) -> exists cl, w' = setc w c cl /\ step w0 a = Ok (setc w0 c cl, ev).
Proof.
  intros O NS Ec H. assert (Z : forall wx : world, w' = w -> ev = [] -> step w0 a = Ok (w0, []) -> exists cl, w' = setc w c cl /\ step w0 a = Ok (setc w0 c cl, ev)).
  { intros _ -> -> Hs. exists (cli w c). rewrite setc_same. split; [reflexivity|]. rewrite <- Ec, setc_same. exact Hs. }
  assert (WF : forall sc, wait_failed w c sc = Ok (w', ev) -> exists cl, w' = setc w c cl /\ wait_failed w0 c sc = Ok (setc w0 c cl, ev)).
  { intros sc. unfold wait_failed. rewrite Ec. cbv zeta. destruct (c_pc (cli w c)); intros G.
    all: try (apply ok_pair in G; destruct G as [<- <-]; exists (cli w c); rewrite setc_same; split; [reflexivity|]; rewrite <- Ec, setc_same; reflexivity).
    - apply obind_ok in G. destruct G as ([cl rs] & E & G). apply ok_pair in G. destruct G as [<- <-]. exists cl. split; [reflexivity|]. rewrite E. reflexivity.
    - apply ok_pair in G. destruct G as [<- <-]. eexists. split; reflexivity. }
  destruct a as [e flags pid|c' x|c' e|c'|c'|c' fd|c']; cbn [own] in O; try contradiction; subst c'; cbn [step] in *; rewrite ?Ec in *; cbv zeta in *.
  - destruct (negb (c_live (cli w c))); [apply ok_pair in H; destruct H; apply (Z w); [congruence|congruence|reflexivity]|].
    destruct (c_pc (cli w c)); try (apply ok_pair in H; destruct H; apply (Z w); [congruence|congruence|reflexivity]).
    apply obind_ok in H. destruct H as ([cl rs] & E & H). apply ok_pair in H. destruct H as [<- <-]. exists cl. rewrite E. split; reflexivity.
  - apply WF, H.
  - destruct (wait_sid (cli w c)) as [[s p]|]; [destruct (existsb _ _); [apply WF, H|]|]; apply ok_pair in H; destruct H; (apply (Z w); [congruence|congruence|reflexivity]).
  - destruct (negb (c_live (cli w c))); [apply ok_pair in H; destruct H; apply (Z w); [congruence|congruence|reflexivity]|].
    destruct NS as [N1 N2]. assert (DS : forall ks, drop_sock (drop_sock ks (c_w2r (cli w c))) (c_r2w (cli w c)) = ks).
    { intros ks. destruct (c_w2r (cli w c)) as [[|]|]; try contradiction; destruct (c_r2w (cli w c)) as [[|]|]; try contradiction; reflexivity. }
    rewrite DS in *. apply ok_pair in H. destruct H as [<- <-]. eexists. split; [destruct w; reflexivity|]. destruct w0; reflexivity.
Qed.

Lemma wait_resume cl s p : wait_sid cl = Some (s, p) -> wait_sid (resume cl) = None /\ (match c_pc (resume cl) with RunW _ _ _ _ | RunR _ _ => True | _ => False end)
  /\ ~ (no_sock (c_w2r (resume cl)) /\ no_sock (c_r2w (resume cl))).
Proof.
  intros H. pose proof (wait_hnd _ _ _ H) as (b & n & E). split; [|split].
  - unfold wait_sid, resume in *. destruct (c_pc cl); try discriminate H; reflexivity.
  - unfold wait_sid, resume in *. destruct (c_pc cl); try discriminate H; exact I.
  - intros [N1 N2]. pose proof (resume_hnd cl b) as R. rewrite E in R. destruct b; cbn [hnd] in R; rewrite R in *; contradiction.
Qed.
(** somebody who has been woken up goes for the lock *)
Lemma woken_step w x a c w' ev s p cl : (own a c \/ a = AWake c) -> meanwhile w x a -> wait_sid cl = Some (s, p) -> cli w c = resume cl -> step w a = Ok (w', ev) -> w' = w /\ ev = [].
Proof.
  intros O M E Ec H. destruct (wait_resume _ _ _ E) as (R1 & R2 & R3). rewrite <- Ec in *.
  destruct O as [O| ->]; [|cbn [step] in H; rewrite R1 in H; apply ok_pair in H; destruct H; auto].
  destruct a as [e flags pid|c' x'|c' e|c'|c'|c' fd|c']; cbn [own] in O; try contradiction; subst c'; cbn [step] in H.
  - destruct (negb _); [apply ok_pair in H; destruct H; auto|]. destruct (c_pc (cli w c)); try contradiction; apply ok_pair in H; destruct H; auto.
  - unfold wait_failed in H. destruct (c_pc (cli w c)); try contradiction; apply ok_pair in H; destruct H; auto.
  - rewrite R1 in H. apply ok_pair in H; destruct H; auto.
  - elim R3. apply M.
Qed.

Lemma holds_dec x c : holds x c \/ ~ holds x c.
Proof. destruct x; cbn [holds]; [destruct (Nat.eq_dec c c0); auto|auto]. Qed.
Lemma ready_other w w' x : (forall c, holds x c -> cli w' c = cli w c) -> ready w x -> ready w' x.
Proof. destruct x as [c e|]; cbn [ready holds]; [|auto]. intros E. rewrite (E c eq_refl). auto. Qed.
Lemma body_other w w' x : (forall c, holds x c -> cli w' c = cli w c) -> w_ring w' = w_ring w -> w_fsz w' = w_fsz w -> body w' x = body w x.
Proof. destruct x as [c e|]; cbn [body holds]; intros E1 E2 E3; rewrite ?E2, ?E3; [rewrite (E1 c eq_refl)|]; reflexivity. Qed.

Lemma sim_own w i evs w0 m0 D a c w' ev : sim P st w i evs w0 m0 D -> own a c -> meanwhile w (in_who i) a -> ~ In c (map fst D) ->
  P w a -> step w a = Ok (w', ev) -> exists w1, sim P st w' i (evs ++ ev) w1 m0 D.
Proof.
  intros S O M Nc Pa H. pose proof (si_e _ _ _ _ _ _ _ _ S) as Ew. pose proof (si_w _ _ _ _ _ _ _ _ S) as W.
  assert (Nh : ~ holds (in_who i) c) by (destruct a; cbn [own meanwhile] in *; subst; intuition).
  assert (Ec : cli w0 c = cli w c) by (rewrite Ew, cli_wakes by exact Nc; reflexivity).
  destruct (own_step w w0 a c w' ev O) as (cl & -> & H0); [destruct a; try exact I; cbn [own meanwhile] in *; subst; intuition|exact Ec|exact H|].
  pose proof (body_fixd _ _ _ _ W) as F.
  assert (Pa0 : P w0 a).
  { destruct a as [e flags pid|c' x'|c' e|c'|c'|c' fd|c']; cbn [own] in O; try contradiction; subst c'; [|apply (lo_intr _ HP w); [exact I|exact Pa]|apply (lo_intr _ HP w); [exact I|exact Pa]|apply (lo_crash _ HP)].
    apply (lo_call _ HP w); [exact Ec| |exact Pa]. rewrite Ew, ring_wakes. change (w_ring (with_shared w0 m0)) with (sh_ring m0). destruct F; split; congruence. }
  assert (HC : forall c', holds (in_who i) c' -> cli (setc w0 c cl) c' = cli w0 c') by (intros c' X; apply cli_setc_other; intros ->; exact (Nh X)).
  exists (setc w0 c cl). constructor.
  - eapply kx_step; [apply S|exact Pa0|exact H0].
  - apply (HI_free w0 a _ ev); [destruct a; try exact I; contradiction|apply S|exact H0].
  - apply (lo_run _ HP w0); [destruct (in_who i); exact I|apply pends_refl|apply S].
  - apply (ready_other w0); [exact HC|apply S].
  - rewrite (body_other w0); [exact W|exact HC|reflexivity|reflexivity].
  - rewrite Ew, wakes_setc by exact Nc. reflexivity.
  - apply S.
  - apply S.
  - intros d I. destruct (si_d _ _ _ _ _ _ _ _ S d I) as (A1 & A2 & A3). split; [exact A1|]. split; [|exact A3].
    rewrite cli_setc_other; [exact A2|]. intros X. apply Nc. rewrite <- X. apply in_map, I.
  - apply S.
  - intros c' X. rewrite HC by exact X. apply S, X.
  - apply S.
Qed.

Lemma sim_wake w i evs w0 m0 D c w' ev : sim P st w i evs w0 m0 D -> ~ holds (in_who i) c -> ~ In c (map fst D) ->
  step w (AWake c) = Ok (w', ev) -> exists w1 m1 D1, sim P st w' i (evs ++ ev) w1 m1 D1.
Proof.
  intros S Nh Nc H. pose proof (si_e _ _ _ _ _ _ _ _ S) as Ew. pose proof (si_w _ _ _ _ _ _ _ _ S) as W. pose proof (sim_names _ _ _ _ _ _ S) as N.
  pose proof (si_hi _ _ _ _ _ _ _ _ S) as HI0.
  assert (Ec : cli w c = cli w0 c) by (rewrite Ew, cli_wakes by exact Nc; reflexivity).
  assert (Z : w' = w -> ev = [] -> exists w1 m1 D1, sim P st w' i (evs ++ ev) w1 m1 D1) by (intros -> ->; rewrite app_nil_r; eauto).
  cbn [step] in H. destruct (wait_sid (cli w c)) as [[s p]|] eqn:E; [|apply ok_pair in H; destruct H; apply Z; congruence].
  destruct (_ >? 0) eqn:G; apply ok_pair in H; destruct H as [Hw Hv]; [|apply Z; congruence]. clear Z. subst ev. rewrite app_nil_r. rewrite Ec in E.
  assert (Ns : ~ In s (map snd D)).
  { intros I. apply in_map_iff in I. destruct I as ([c' s'] & X & I). cbn [snd] in X. subst s'. destruct (si_d _ _ _ _ _ _ _ _ S _ I) as (_ & (p' & E') & _). cbn [fst snd] in E'.
    assert (c = c') by (apply (wait_own _ _ _ _ _ _ HI0 E E')). subst c'. apply Nc. apply (in_map fst) in I. exact I. }
  assert (Hw2 : w' = wake (c, s) (wakes D (with_shared w0 m0))) by (rewrite <- Hw, Ew; reflexivity). clear Hw.
  assert (Pn : 0 < pend m0 s).
  { pose proof (recvs_pend D s m0 Ns) as Q. pose proof (shared_wakes D (with_shared w0 m0)) as Q2. rewrite shared_with, <- Ew in Q2. rewrite <- Q2 in Q. cbn [shared sh_ks] in Q. lia. }
  destruct (body_once w0 (in_who i) c s p (in_p i) m0 HI0 N Nh E W) as [A|[A B]].
  - exists w0, m0, ((c, s) :: D). constructor; try apply S.
    + rewrite Hw2. reflexivity.
    + constructor; [exact Nc|apply S].
    + constructor; [exact Ns|apply S].
    + intros d [<-|I]; [|apply S, I]. cbn [fst snd]. split; [exact Nh|]. split; [exists p; exact E|]. split; [exact Pn|exact A].
  - set (v := Z.max 0 (pend m0 s - 1)) in *. set (w1 := wake (c, s) w0).
    assert (St : step w0 (AWake c) = Ok (w1, [])).
    { cbn [step]. rewrite E. cbn [shared sh_ks] in A. rewrite <- A. replace (pend m0 s >? 0) with true by lia. reflexivity. }
    assert (HC : forall c', c' <> c -> cli w1 c' = cli w0 c') by (intros c' X; unfold w1, wake; cbn [fst]; rewrite cli_setc_other by exact X; reflexivity).
    assert (HC' : forall c', holds (in_who i) c' -> cli w1 c' = cli w0 c') by (intros c' X; apply HC; intros ->; exact (Nh X)).
    assert (Sh : shared w1 = recv s (shared w0)) by reflexivity.
    assert (R0 : recv s (shared w0) = setps s v (shared w0)) by (rewrite recv_setp, <- A; reflexivity).
    assert (Lk : length (w_ks w1) = length (w_ks w0)) by apply sk_upd_len.
    exists w1, (recv s m0), D. constructor.
    + rewrite <- (app_nil_r evs). eapply kx_step; [apply S|apply (lo_wake _ HP)|exact St].
    + apply (HI_free w0 (AWake c) _ []); [exact I|exact HI0|exact St].
    + apply (lo_run _ HP w0); [destruct (in_who i); exact I|apply upd_pends; reflexivity|apply S].
    + apply (ready_other w0); [exact HC'|apply S].
    + rewrite (body_other w0); [|exact HC'|reflexivity|reflexivity]. rewrite Sh, R0, recv_setp. apply B.
    + rewrite Hw2, wakes_comm by assumption. f_equal. 
    + apply S.
    + apply S.
    + intros d I. destruct (si_d _ _ _ _ _ _ _ _ S d I) as (A1 & A2 & A3 & A4). assert (Nd : fst d <> c) by (intros X; apply Nc; rewrite <- X; apply in_map, I).
      assert (Nds : snd d <> s) by (intros X; apply Ns; rewrite <- X; apply in_map, I).
      split; [exact A1|]. split; [rewrite HC by exact Nd; exact A2|]. split.
      * change (sh_ks (recv s m0)) with (bw_recv (sh_ks m0) s). unfold bw_recv. rewrite sk_upd_other by exact Nds. exact A3.
      * apply (adv_like sh_ks kputs kgps kpps _ _ _ _ m0); [apply recv_like|exact A4].
    + apply S.
    + intros c' X. rewrite HC' by exact X. apply S, X.
    + rewrite Lk. apply S.
Qed.

Theorem sim_meanwhile w i evs w0 m0 D a w' ev : sim P st w i evs w0 m0 D -> meanwhile w (in_who i) a -> P w a -> step w a = Ok (w', ev) ->
  exists w1 m1 D1, sim P st w' i (evs ++ ev) w1 m1 D1.
Proof.
  intros S M Pa H. assert (O : exists c, own a c \/ a = AWake c) by (destruct a; cbn [meanwhile own] in *; try contradiction; eexists; eauto).
  destruct O as [c O]. destruct (in_dec Nat.eq_dec c (map fst D)) as [I|Nc].
  - apply in_map_iff in I. destruct I as ([c' s] & X & I). cbn [fst] in X. subst c'. destruct (si_d _ _ _ _ _ _ _ _ S _ I) as (_ & (p & E) & _). cbn [fst snd] in E.
    destruct (woken_step w (in_who i) a c w' ev s p (cli w0 c) O M E) as [-> ->]; [|exact H|rewrite app_nil_r; eauto].
    rewrite (si_e _ _ _ _ _ _ _ _ S). rewrite cli_wakes_in; [reflexivity|apply (in_map fst) in I; exact I|apply (wait_in _ _ _ _ E)].
  - destruct O as [O| ->].
    + destruct (sim_own _ _ _ _ _ _ _ _ _ _ S O M Nc Pa H) as [w1 R]. eauto.
    + apply (sim_wake _ _ _ _ _ _ _ _ _ S M Nc H).
Qed.
End Sim.
