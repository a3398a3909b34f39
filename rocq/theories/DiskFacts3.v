(** * Facts about Disk.v, continued: the power fails during a call (C84) *)
From Verif Require Import MicroFacts Crash Effects Final Pending PollFacts StepInv WorldFacts FineStep FineSect RingFacts QueueFacts.
From Verif Require Export DiskFacts2.

Inductive tracks {A} : prog (shm * store) A -> prog shm A -> Prop :=
| tr_ret x : tracks (Ret x) (Ret x)
| tr_at l f l' g : (forall m u t' d', g (m, u) = Ok (t', d') -> exists m' p', f m = Ok (m', p') /\ t' = (m', note m' u) /\ tracks d' p') -> tracks (At l g) (At l' f)
| tr_sync l g p : (forall m u t' d', g (m, u) = Ok (t', d') -> (t' = (m, u) \/ t' = (m, Some [im m])) /\ tracks d' p) -> tracks (At l g) p.
Lemma tr_mem {A} (p : prog shm A) : tracks (mem p) p.
Proof.
  unfold mem. revert p. apply prog_ind2; [intros x; apply tr_ret|]. intros l f IH. cbn [liftp]. apply tr_at. intros m u t' d' E. cbn [fst snd] in E.
  destruct (f m) as [[m' p']| | |] eqn:Ef; try discriminate E. injection E as <- <-. exists m', p'. split; [reflexivity|]. split; [reflexivity|]. exact (IH _ _ _ Ef).
Qed.
Lemma tr_bind {A B} (d : prog (shm * store) A) : forall (p : prog shm A) (k : A -> prog (shm * store) B) (k' : A -> prog shm B),
  tracks d p -> (forall x, tracks (k x) (k' x)) -> tracks (bindp d k) (bindp p k').
Proof.
  revert d. apply (prog_ind2 (fun d => forall p k k', tracks d p -> (forall x, tracks (k x) (k' x)) -> tracks (bindp d k) (bindp p k'))).
  - intros x p k k' T K. inversion T; subst. cbn [bindp]. apply K.
  - intros l g IH p k k' T K. inversion T as [x|l1 f l' g1 H|l1 g1 p1 H]; subst; cbn [bindp].
    + apply tr_at. intros m u t' d' E. destruct (g (m, u)) as [[t1 d1]| | |] eqn:Eg; try discriminate E. injection E as <- <-.
      destruct (H _ _ _ _ Eg) as (m' & p' & -> & -> & T1). exists m', (bindp p' k'). split; [reflexivity|]. split; [reflexivity|]. exact (IH _ _ _ Eg _ _ _ T1 K).
    + apply tr_sync. intros m u t' d' E. destruct (g (m, u)) as [[t1 d1]| | |] eqn:Eg; try discriminate E. injection E as <- <-.
      destruct (H _ _ _ _ Eg) as (X & T1). split; [exact X|]. exact (IH _ _ _ Eg _ _ _ T1 K).
Qed.
Lemma tr_bindr {A} (d : prog (shm * store) A) : forall (p : prog shm A) (k : A -> prog (shm * store) A),
  tracks d p -> (forall x, tracks (k x) (Ret x)) -> tracks (bindp d k) p.
Proof.
  revert d. apply (prog_ind2 (fun d => forall (p : prog shm A) k, tracks d p -> (forall x, tracks (k x) (Ret x)) -> tracks (bindp d k) p)).
  - intros x p k T K. inversion T; subst. cbn [bindp]. apply K.
  - intros l g IH p k T K. inversion T as [x|l1 f l' g1 H|l1 g1 p1 H]; subst; cbn [bindp].
    + apply tr_at. intros m u t' d' E. destruct (g (m, u)) as [[t1 d1]| | |] eqn:Eg; try discriminate E. injection E as <- <-.
      destruct (H _ _ _ _ Eg) as (m' & p' & -> & -> & T1). exists m', p'. split; [reflexivity|]. split; [reflexivity|]. exact (IH _ _ _ Eg _ _ T1 K).
    + apply tr_sync. intros m u t' d' E. destruct (g (m, u)) as [[t1 d1]| | |] eqn:Eg; try discriminate E. injection E as <- <-.
      destruct (H _ _ _ _ Eg) as (X & T1). split; [exact X|]. exact (IH _ _ _ Eg _ _ T1 K).
Qed.
Lemma tr_msync line e : tracks (msync_p line e) (Ret tt).
Proof.
  unfold msync_p. apply tr_sync. intros m u t' d' E. cbn [fst] in E. injection E as <- <-. split; [|apply tr_ret].
  destruct (has _ _ && _); [right|left]; reflexivity.
Qed.

(** [m1] is in memory at some time while [p] runs from [m] *)
Definition point {A} (p : prog shm A) (m m1 : shm) : Prop := (exists line, dies_at p m line m1) \/ exists x, exec_all p m = Ok (m1, x).
Lemma point_here {A} (p : prog shm A) m : point p m m.
Proof. destruct p as [x|l f]; [right; exists x; reflexivity|left; exists l; constructor]. Qed.
Lemma point_next {A} l (f : shm -> outcome (shm * prog shm A)) m m' p' m1 : f m = Ok (m', p') -> point p' m' m1 -> point (At l f) m m1.
Proof.
  intros E [[line D]|[x X]]; [left; exists line; econstructor; eassumption|right; exists x]. rewrite MicroFacts.exec_at, E. exact X.
Qed.
Definition from {A} (p : prog shm A) (m : shm) (u u' : store) : Prop :=
  (u <> None -> u' <> None) /\ forall h', u' = Some h' -> forall s, In s h' -> (exists h, u = Some h /\ In s h) \/ exists m1, point p m m1 /\ s = im m1.
Lemma from_refl {A} (p : prog shm A) m u : from p m u u.
Proof. split; [auto|]. intros h' E s Hs. left. eauto. Qed.
Lemma tracks_dies {A} (d : prog (shm * store) A) : forall (p : prog shm A) m u l m' u', tracks d p -> dies_at d (m, u) l (m', u') -> from p m u u' /\ point p m m'.
Proof.
  revert d. apply (prog_ind2 (fun d => forall (p : prog shm A) m u l m' u', tracks d p -> dies_at d (m, u) l (m', u') -> from p m u u' /\ point p m m')).
  { intros x p m u l m' u' _ D. apply dies_ret in D. contradiction. }
  intros l g IH p m u ln m' u' T D. apply dies_at_inv in D. destruct D as [[_ E]|([m1 u1] & d1 & E & D)]; [injection E as -> ->; split; [apply from_refl|apply point_here]|].
  inversion T as [x|l1 f l' g1 H|l1 g1 p1 H]; subst.
  - destruct (H _ _ _ _ E) as (m2 & p2 & Ef & X & T1). injection X as -> ->. destruct (IH _ _ _ E _ _ _ _ _ _ T1 D) as [[F1 F2] P1].
    split; [|eapply point_next; eassumption]. split; [intros N; apply F1; destruct u; [discriminate|congruence]|].
    intros h' E' s Hs. destruct (F2 _ E' _ Hs) as [(h & Eh & Hh)|(m3 & P3 & ->)]; [|right; exists m3; split; [eapply point_next; eassumption|reflexivity]].
    destruct u as [h0|]; [|discriminate Eh]. cbn [note option_map] in Eh. injection Eh as <-. destruct Hh as [<-|Hh]; [|left; eauto].
    right. exists m2. split; [eapply point_next; [exact Ef|apply point_here]|reflexivity].
  - destruct (H _ _ _ _ E) as (X & T1). destruct (IH _ _ _ E _ _ _ _ _ _ T1 D) as [[F1 F2] P1].
    destruct X as [X|X]; injection X as -> ->; (split; [|exact P1]); [split; assumption|].
    split; [intros _; apply F1; discriminate|]. intros h' E' s Hs. destruct (F2 _ E' _ Hs) as [(h & Eh & Hh)|K]; [|right; exact K].
    injection Eh as <-. destruct Hh as [<-|[]]. right. exists m. split; [apply point_here|reflexivity].
Qed.

Lemma tr_section e cl : (forall get st sz, c_pc cl <> RunApp get st sz) -> tracks (dsection e cl) (section e cl).
Proof.
  intros NA. unfold dsection, section. destruct (e_lock e); cbn [negb]; [|apply tr_ret].
  assert (UB' : forall l l', @tracks unit (At l (fun _ => UB)) (At l' (fun _ => UB))) by (intros; apply tr_at; intros m u t' d' E; discriminate E).
  destruct (c_pc cl) as [ |k iov len nb|k iov len nb|buf niov|buf niov| | |reset|get st sz]; try apply tr_ret.
  - apply tr_bind; [apply tr_mem|]. intros [|]; [|apply tr_ret]. destruct (c_w2r cl); [|apply UB']. apply tr_bind; [apply tr_mem|]. intros x. destruct (snd x); [|apply tr_ret].
    apply (tr_bindr (mem (on_ring (wrote_p len (zlen iov)))) _ (fun _ => msync_p 1008 e)); [apply tr_mem|]. intros []. apply tr_msync.
  - apply tr_bind; [apply tr_mem|]. intros x. destruct (snd x) as [[l cur']|], (c_w2r cl) as [h|]; try apply UB'.
    + apply tr_bind.
      * destruct (rl_nr l >? 0); [|apply tr_ret]. destruct (c_r2w cl); [|apply UB']. apply tr_bind; [apply tr_mem|intros; apply tr_ret].
      * intros _. apply tr_bind; [apply tr_mem|]. intros _. apply tr_msync.
    + destruct (has _ _); [|apply tr_ret]. apply tr_bind; [apply tr_mem|intros; apply tr_ret].
  - apply tr_bind; [apply tr_mem|intros; apply tr_ret].
  - apply tr_bind; [destruct (c_w2r cl); [apply tr_mem|apply tr_ret]|]. intros _. destruct (c_r2w cl); [apply tr_mem|apply tr_ret].
  - destruct reset as [t|].
    + apply (tr_bindr (mem (on_ring (reset_p t))) _ (fun _ => msync_p 342 e)); [apply tr_mem|]. intros []. apply tr_msync.
    + cbn [bindp]. apply tr_msync.
  - exfalso. eapply NA. reflexivity.
Qed.
Lemma section_dies e cl m u l m' u' : dies_at (dsection e cl) (m, u) l (m', u') -> from (section e cl) m u u' /\ point (section e cl) m m'.
Proof.
  destruct (c_pc cl) as [ |k iov len nb|k iov len nb|buf niov|buf niov| | |reset|get st sz] eqn:Ep; try (apply tracks_dies, tr_section; congruence).
  unfold dsection, section. rewrite Ep. destruct (e_lock e); cbn [negb]; [|intros D; apply dies_ret in D; contradiction].
  intros D. apply dies_at_inv in D. destruct D as [[_ E]|([m1 u1] & d1 & E & D)]; [injection E as -> ->; split; [apply from_refl|apply point_here]|].
  injection E as <- <- <-. cbn [fst] in D. destruct (app_done _ _ _ _ _); [|apply dies_ret in D; contradiction].
  revert D. apply tracks_dies. apply (tr_bindr (mem (on_ring (setapp_p get st sz))) _ (fun _ => msync_p 1078 e)); [apply tr_mem|]. intros []. apply tr_msync.
Qed.
Lemma open_dies e w flags pid m u l m' u' : dies_at (dopen e w flags pid) (m, u) l (m', u') -> from (open_section e w flags pid) m u u' /\ point (open_section e w flags pid) m m'.
Proof.
  apply tracks_dies. apply (tr_bindr (mem (open_section e w flags pid)) _ (fun _ => if opened e w flags pid then msync_p 611 e else Ret tt)); [apply tr_mem|].
  intros []. destruct (opened _ _ _ _); [apply tr_msync|apply tr_ret].
Qed.
