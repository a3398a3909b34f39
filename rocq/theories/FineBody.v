(** * The critical sections of the API while the queues change under them. *)
From Verif Require Import BaseFacts MicroFacts KillExec BwInv KillBwInv LockFacts.
From Verif Require Export Fine FineOnce.

Definition kputs (m : shm) (ks : socks) : shm := mksh (sh_ring m) (sh_w2r m) (sh_r2w m) ks.
Notation advs := (adv sh_ks kputs).
Notation setps := (setp sh_ks kputs).
Notation likes := (like sh_ks kputs).
Lemma kgps m ks : sh_ks (kputs m ks) = ks. Proof. reflexivity. Qed.
Lemma kpps m a b : kputs (kputs m a) b = kputs m b. Proof. reflexivity. Qed.
Lemma kpgs m : kputs m (sh_ks m) = m. Proof. destruct m; reflexivity. Qed.

Lemma adv_on_bw {A} b (Q : A -> bks -> Prop) s fl p x : advb Q s fl p x -> forall m, x = get_bk b m -> advs (fun y m' => Q y (get_bk b m')) s fl (on_bw b p) m.
Proof.
  assert (LB : forall m m1, likes m m1 -> like b_ks kputb (get_bk b m) (get_bk b m1)).
  { intros m m1 (ks & -> & P). exists ks. split; [destruct b; reflexivity|exact P]. }
  induction 1 as [fl y x H|fl l f x HN HK IH|l f x HK IH]; intros m ->; cbn [on_bw liftp].
  - apply adv_ret. intros m1 K. apply H, LB, K.
  - apply adv_in.
    + intros m1 v L. pose proof (HN (get_bk b m1) v L) as G. change (get_bk b (setps s v m1)) with (setp b_ks kputb s v (get_bk b m1)). rewrite G.
      destruct (f (get_bk b m1)) as [[x' p']| | |]; try reflexivity. destruct b; reflexivity.
    + intros m1 m' p' K E. destruct (f (get_bk b m1)) as [[x2 p2]| | |] eqn:Ef; try discriminate E. apply ok_pair in E; destruct E as [<- <-].
      apply (IH _ _ _ (LB _ _ K) Ef). rewrite bk_gp. reflexivity.
  - apply adv_send. intros m1 m' p' K E. destruct (f (get_bk b m1)) as [[x2 p2]| | |] eqn:Ef; try discriminate E. apply ok_pair in E; destruct E as [<- <-].
    apply (IH _ _ _ (LB _ _ K) Ef). rewrite bk_gp. reflexivity.
Qed.
(** ring statements have nothing to do with sockets *)
Definition same_hk (m m' : shm) : Prop := sh_w2r m' = sh_w2r m /\ sh_r2w m' = sh_r2w m /\ pends (sh_ks m) (sh_ks m').
Lemma adv_on_ring {A} s fl (p : prog ring A) : forall m, advs (fun _ => same_hk m) s fl (on_ring p) m.
Proof.
  enough (G : forall m0 m, same_hk m0 m -> advs (fun _ => same_hk m0) s fl (on_ring p) m) by (intros m; apply G; repeat split; reflexivity).
  intros m0. induction p as [x|l f IH] using prog_ind2; intros m (H1 & H2 & H3); cbn [on_ring liftp].
  - apply adv_ret. intros m1 (ks & -> & P). split; [exact H1|]. split; [exact H2|]. eapply pends_trans; eassumption.
  - apply adv_in.
    + intros m1 v L. change (sh_ring (setps s v m1)) with (sh_ring m1). destruct (f (sh_ring m1)) as [[r' p']| | |]; reflexivity.
    + intros m1 m' p' (ks & -> & P) E. cbn [sh_ring kputs] in E. destruct (f (sh_ring m)) as [[r2 p2]| | |] eqn:Ef; try discriminate E. apply ok_pair in E; destruct E as [<- <-].
      apply (IH _ _ _ Ef). split; [exact H1|]. split; [exact H2|]. eapply pends_trans; eassumption.
Qed.

Section S.
Variables (s : nat) (e : env).
Notation lt m := (s < length (sh_ks m))%nat (only parsing).
Definition T {A} (_ : A) (m : shm) : Prop := lt m.
Lemma T_ret {A} fl (x : A) m : lt m -> advs T s fl (Ret x) m.
Proof. intros L. apply adv_ret. intros m1 (ks & -> & P). unfold T. cbn. rewrite (pends_len _ _ P). exact L. Qed.
Lemma T_ring {A} fl (p : prog ring A) m : lt m -> advs T s fl (on_ring p) m.
Proof. intros L. eapply adv_post; [|apply adv_on_ring]. intros x m' (_ & _ & P). unfold T. rewrite (pends_len _ _ P). exact L. Qed.
Lemma T_bind {A B} fl (p : prog shm A) (k : A -> prog shm B) m : advs T s false p m -> (forall x m1, lt m1 -> advs T s fl (k x) m1) -> advs T s fl (bindp p k) m.
Proof. intros H K. apply (adv_bind sh_ks kputs kpgs T); [exact H|]. intros x m1 L. apply K, L. Qed.
Lemma T_bind_l {A B} fl (p : prog shm A) (k : A -> prog shm B) m : advs T s fl p m -> (forall x m1, lt m1 -> advs T s false (k x) m1) -> advs T s fl (bindp p k) m.
Proof. intros H K. apply (adv_bind_l sh_ks kputs kpgs T); [exact H|]. intros x m1 L. apply K, L. Qed.
Lemma T_on {A} b fl (p : prog bks A) m : advb (fun _ x => (s < length (b_ks x))%nat) s fl p (get_bk b m) -> advs T s fl (on_bw b p) m.
Proof. intros H. exact (adv_on_bw b _ s fl p _ H m eq_refl). Qed.
Lemma T_force b fl h want m : lt m -> (forall n p, h <> Wait n s p) -> advs T s fl (on_bw b (bw_force_p e h want)) m.
Proof. intros L N. apply T_on, adv_force; assumption. Qed.
Lemma T_close b fl h m : lt m -> advs T s fl (on_bw b (bw_close_p h)) m.
Proof. intros L. apply T_on, adv_close; assumption. Qed.
Lemma T_open_wake b fl m : lt m -> advs T s fl (on_bw b (bw_open_wake_p e)) m.
Proof. intros L. apply T_on, adv_open_wake; assumption. Qed.
Lemma T_open_wait b fl pid name m : lt m -> advs (fun o m => lt m /\ forall n p, o <> Some (Wait n s p)) s fl (on_bw b (bw_open_wait_p e pid name)) m.
Proof. intros L. exact (adv_on_bw b _ s fl _ _ (adv_open_wait s e fl pid name (get_bk b m) L) m eq_refl). Qed.
Lemma T_stop {A} fl l (o : outcome (shm * prog shm A)) m : (forall x, o <> Ok x) -> advs T s fl (At l (fun _ => o)) m.
Proof. apply adv_stop. Qed.

(** what is known about the handles when the section begins *)
Definition hshm (home : Z -> bool -> nat -> Prop) (m : shm) : Prop := forall b, hslots home b (KillBwInv.hd b m).
Definition hcl (home : Z -> bool -> nat -> Prop) (ks : socks) (cl : client) : Prop :=
  forall b h, hnd b cl = Some h -> hwake home b h ks.
Definition unique (home : Z -> bool -> nat -> Prop) : Prop := forall nm b i b' i', home nm b i -> home nm b' i' -> b = b' /\ i = i'.

Theorem section_once home sync c cl m : lt m -> unique home -> hshm home m -> hcl home (sh_ks m) cl ->
  (forall n p, hnd true cl <> Some (Wait n s p)) -> advs T s true (fsection e sync c cl) m.
Proof.
  intros L U HS HC N. unfold fsection. destruct (c_pc cl) as [|k iov len nb|k iov len nb|buf niov|buf niov| | |reset|get set sz].
  - apply T_stop; discriminate.
  - apply (adv_bind sh_ks kputs kpgs (fun _ => same_hk m)); [apply adv_on_ring|]. intros stored m1 (E1 & E2 & P). pose proof (pends_len _ _ P) as L1.
    assert (Lm : lt m1) by (rewrite L1; exact L).
    destruct stored; [|apply T_ret, Lm]. destruct (c_w2r cl) as [h|] eqn:Eh; [|apply T_stop; discriminate].
    apply T_bind_l.
    + apply T_on, (adv_wake s e home true); [exact U|split; [exact Lm|cbn; rewrite E1; apply (HS true)]|].
      pose proof (HC true h Eh) as G. destruct h as [q cs|]; [|exact I]. apply (hconns_pends home true (sh_ks m)); [exact P|exact G].
    + intros [h' ok] m2 L2. cbn [snd]. destruct ok; [apply T_bind; [apply T_ring, L2|intros; apply T_ret; assumption]|apply T_ret, L2].
  - apply T_stop; discriminate.
  - apply (adv_bind sh_ks kputs kpgs (fun _ => same_hk m)); [apply adv_on_ring|]. intros [[q md] got] m1 (E1 & E2 & P). pose proof (pends_len _ _ P) as L1.
    assert (Lm : lt m1) by (rewrite L1; exact L). cbn zeta. change (c_w2r (cl <| c_q := q |> <| c_md := md |>)) with (c_w2r cl). change (c_r2w (cl <| c_q := q |> <| c_md := md |>)) with (c_r2w cl).
    destruct (c_w2r cl) as [h|] eqn:Eh; [|destruct got as [[]|]; apply T_stop; discriminate].
    assert (Nh : forall n p, h <> Wait n s p) by (intros n p ->; exact (N n p Eh)).
    destruct got as [[l cur']|].
    + apply T_bind_l.
      * destruct (_ >? 0); [|apply T_ret, Lm]. destruct (c_r2w cl) as [h2|] eqn:Eh2; [|apply T_stop; discriminate]. apply T_bind_l; [|intros; apply T_ret; assumption].
        apply T_on, (adv_wake s e home false); [exact U|split; [exact Lm|cbn; rewrite E2; apply (HS false)]|].
        pose proof (HC false h2 Eh2) as G. destruct h2 as [q2 cs|]; [|exact I]. apply (hconns_pends home false (sh_ks m)); [exact P|exact G].
      * intros cl' m2 L2. apply T_bind; [apply T_force; assumption|intros; apply T_ret; assumption].
    + destruct (has _ _); [apply T_bind; [apply T_force; assumption|intros; apply T_ret; assumption]|apply T_ret, Lm].
  - apply T_stop; discriminate.
  - apply (adv_bind sh_ks kputs kpgs (fun (o : option bwt) m => lt m /\ forall n p, o <> Some (Wait n s p))); [apply T_open_wait, L|]. intros o m1 [L1 _]. apply T_ret, L1.
  - apply T_bind; [destruct (c_w2r cl); [apply T_close, L|apply T_ret, L]|]. intros _ m1 L1.
    apply T_bind; [destruct (c_r2w cl); [apply T_close, L1|apply T_ret, L1]|]. intros _ m2 L2. apply T_ret, L2.
  - apply adv_in.
    + intros m1 v _. reflexivity.
    + intros m1 m' p' (ks & -> & P) E. apply ok_pair in E; destruct E as [<- <-]. assert (Lk : lt (kputs m ks)) by (cbn; rewrite (pends_len _ _ P); exact L).
      destruct reset; [|apply T_ret, Lk]. apply T_bind; [apply T_ring, Lk|]. intros; apply T_ret; assumption.
  - assert (G : forall m1 m' p', (match fsection e sync c (cl <| c_pc := RunApp get set sz |>) with At _ f => f m1 | Ret _ => Stuck end) = Ok (m', p') ->
      m' = m1 /\ forall m2, lt m2 -> advs T s true p' m2).
    { intros m1 m' p' E. unfold fsection in E. cbn in E.
      repeat match goal with
      | H : obind ?t _ = Ok _ |- _ => destruct t eqn:?; cbn [obind] in H; try discriminate H
      | H : match ?t with _ => _ end = Ok _ |- _ => match t with context [match _ with _ => _ end] => fail 1 | _ => destruct t eqn:? end
      end; try discriminate E; apply ok_pair in E; destruct E as [<- <-]; (split; [reflexivity|]); intros m2 L2; first [apply T_ret, L2|apply T_bind; [apply T_ring, L2|intros; apply T_ret; assumption]]. }
    unfold fsection in G. cbn in G. apply adv_in.
    + intros m1 v _. cbn zeta. change (sh_ring (setps s v m1)) with (sh_ring m1).
      repeat match goal with
      | |- context [obind ?t _] => destruct t; cbn [obind]; try reflexivity
      | |- context [match ?t with _ => _ end] => match t with context [match _ with _ => _ end] => fail 1 | _ => destruct t; try reflexivity end
      end.
    + intros m1 m' p' (ks & -> & P) E. apply G in E. destruct E as [-> K]. apply K. cbn. rewrite (pends_len _ _ P). exact L.
Qed.

Theorem open_never fsz flags pid m : lt m -> advs T s false (fopen e fsz flags pid) m.
Proof.
  intros L. unfold fopen. apply adv_in; [intros m1 v _; reflexivity|]. intros m1 m' p' (ks & -> & P) E. apply ok_pair in E. destruct E as [<- <-].
  assert (L1 : lt (kputs m ks)) by (cbn; rewrite (pends_len _ _ P); exact L). remember (kputs m ks) as m1. clear Heqm1.
  assert (UN : forall a b m2, lt m2 -> advs T s false (run! _ <- fail_open a b; Ret (Ok (@None client, @nil event))) m2).
  { intros a b m2 L2. apply T_bind; [|intros; apply T_ret; assumption]. unfold fail_open, close_opt. apply T_bind; [destruct b; [apply T_close, L2|apply T_ret, L2]|].
    intros _ m3 L3. destruct a; [apply T_close, L3|apply T_ret, L3]. }
  cbn zeta. destruct (_ || _); [apply T_ret, L1|]. destruct (has flags SHR_RDONLY).
  - apply (adv_bind sh_ks kputs kpgs (fun (o : option bwt) m => lt m /\ forall n p, o <> Some (Wait n s p))); [apply T_open_wait, L1|]. intros a m2 [L2 Na].
    apply T_bind; [apply T_open_wake, L2|]. intros b m3 L3. destruct a as [a|]; [|apply UN, L3]. destruct b as [b|]; [|apply UN, L3].
    apply T_bind; [apply T_force; [exact L3|]; intros n p ->; exact (Na n p eq_refl)|]. intros ok m4 L4. destruct ok; [apply T_ret, L4|apply UN, L4].
  - apply T_bind; [apply T_open_wake, L1|]. intros a m2 L2. destruct a as [a|]; [|apply T_ret, L2].
    destruct (_ && _); [|apply T_ret, L2].
    apply (adv_bind sh_ks kputs kpgs (fun (o : option bwt) m => lt m /\ forall n p, o <> Some (Wait n s p))); [apply T_open_wait, L2|]. intros b m3 [L3 _].
    destruct b as [b|]; [apply T_ret, L3|apply UN, L3].
Qed.
End S.
