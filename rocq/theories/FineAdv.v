(** * Programs while the queues of the sockets change under them. *)
From Verif Require Import BaseFacts MicroFacts KillExec BwInv.
From Verif Require Export FineStep.

(** only the numbers of queued datagrams differ *)
Definition nopend (k : sock) : sock := k <| k_pend := 0 |>.
Definition pends (ks ks' : socks) : Prop := map nopend ks' = map nopend ks.
Lemma pends_refl ks : pends ks ks. Proof. reflexivity. Qed.
Lemma pends_trans a b c : pends a b -> pends b c -> pends a c. Proof. unfold pends. congruence. Qed.
Lemma pends_sym a b : pends a b -> pends b a. Proof. unfold pends. congruence. Qed.
Lemma pends_len a b : pends a b -> length b = length a.
Proof. intros H. apply (f_equal (@length _)) in H. rewrite !map_length in H. exact H. Qed.
Lemma pends_sk a b s : pends a b -> nopend (sk b s) = nopend (sk a s).
Proof. intros H. unfold sk. pose proof (map_nth nopend a sock_dead s) as E1. pose proof (map_nth nopend b sock_dead s) as E2. unfold pends in H. rewrite H in E2. congruence. Qed.
Lemma pends_name a b s : pends a b -> k_name (sk b s) = k_name (sk a s). Proof. intros H. exact (f_equal k_name (pends_sk _ _ s H)). Qed.
Lemma pends_pid a b s : pends a b -> k_pid (sk b s) = k_pid (sk a s). Proof. intros H. exact (f_equal k_pid (pends_sk _ _ s H)). Qed.
Lemma pends_open a b s : pends a b -> k_open (sk b s) = k_open (sk a s). Proof. intros H. exact (f_equal k_open (pends_sk _ _ s H)). Qed.
Lemma pends_lookup a b name : pends a b -> sk_lookup b name = sk_lookup a name.
Proof.
  unfold pends, sk_lookup. generalize O. revert b. induction a as [|x a IH]; intros [|y b] i H; try discriminate H; [reflexivity|].
  cbn [map] in H. injection H as H1 H2 H3 H4 H5. cbn [sk_find]. rewrite H1, H3, (IH b (S i) H5). reflexivity.
Qed.
Definition setpk (s : nat) (v : Z) (ks : socks) : socks := sk_upd ks s (fun k => k <| k_pend := v |>).
Lemma set_nat_same {A} (d : A) l n : set_nat l n (nth n l d) = l.
Proof. revert n. induction l as [|x t IH]; intros [|n]; cbn; try reflexivity. rewrite IH. reflexivity. Qed.
Lemma map_set {A B} (f : A -> B) l : forall n x, map f (set_nat l n x) = set_nat (map f l) n (f x).
Proof. induction l as [|y t IH]; intros [|n] x; cbn; try reflexivity. rewrite IH. reflexivity. Qed.
Lemma upd_pends ks s f : nopend (f (sk ks s)) = nopend (sk ks s) -> pends ks (sk_upd ks s f).
Proof. intros H. unfold pends, sk_upd. rewrite map_set, H. unfold sk. rewrite <- (map_nth nopend). apply set_nat_same. Qed.
Lemma setp_pends s v ks : pends ks (setpk s v ks). Proof. apply upd_pends. reflexivity. Qed.
Lemma setp_len s v ks : length (setpk s v ks) = length ks. Proof. apply pends_len, setp_pends. Qed.

Section Adv.
Context {S : Type} (kget : S -> socks) (kput : S -> socks -> S).
Hypothesis kgp : forall m ks, kget (kput m ks) = ks.
Hypothesis kpp : forall m a b, kput (kput m a) b = kput m b.
Hypothesis kpg : forall m, kput m (kget m) = m.
(** the queues of [m] have changed *)
Definition like (m m1 : S) : Prop := exists ks, m1 = kput m ks /\ pends (kget m) ks.
Lemma like_refl m : like m m. Proof. exists (kget m). rewrite kpg. split; reflexivity. Qed.
Definition setp (s : nat) (v : Z) (m : S) : S := kput m (setpk s v (kget m)).
Lemma like_setp s v m : like m (setp s v m). Proof. eexists. split; [reflexivity|apply setp_pends]. Qed.
(** the statement neither looks at nor changes the queue of socket [s] *)
Definition inert {A} (s : nat) (f : S -> outcome (S * prog S A)) : Prop := forall m v, (s < length (kget m))%nat ->
  f (setp s v m) = match f m with Ok (m', p') => Ok (setp s v m', p') | Abort => Abort | UB => UB | Stuck => Stuck end.

(** From [m], whatever happens to the queues meanwhile: [Q] holds at the end,
    and at most one statement (none if the flag is off) touches the queue of
    [s]. *)
Inductive adv {A} (Q : A -> S -> Prop) (s : nat) : bool -> prog S A -> S -> Prop :=
| adv_ret b x m : (forall m1, like m m1 -> Q x m1) -> adv Q s b (Ret x) m
| adv_in b l f m : inert s f -> (forall m1 m' p', like m m1 -> f m1 = Ok (m', p') -> adv Q s b p' m') -> adv Q s b (At l f) m
| adv_send l f m : (forall m1 m' p', like m m1 -> f m1 = Ok (m', p') -> adv Q s false p' m') -> adv Q s true (At l f) m.

Lemma adv_more {A} (Q : A -> S -> Prop) s b p m : adv Q s b p m -> adv Q s true p m.
Proof. induction 1 as [b x m H|b l f m HN HK IH|l f m HK IH]; [apply adv_ret; exact H|apply adv_in; assumption|apply adv_send; assumption]. Qed.
Lemma adv_weak {A} (Q : A -> S -> Prop) s b p m : adv Q s false p m -> adv Q s b p m.
Proof. destruct b; [apply adv_more|auto]. Qed.
Lemma inert_bind {A B} s f (k : A -> prog S B) : inert s f ->
  inert s (fun s => match f s with Ok sp => let '(s', p') := sp in Ok (s', bindp p' k) | Abort => Abort | UB => UB | Stuck => Stuck end).
Proof. intros HN m1 v L. rewrite (HN m1 v L). destruct (f m1) as [[m' p']| | |]; reflexivity. Qed.
Lemma adv_bind_l {A B} (Q1 : A -> S -> Prop) (Q : B -> S -> Prop) s b p k m : adv Q1 s b p m ->
  (forall x m1, Q1 x m1 -> adv Q s false (k x) m1) -> adv Q s b (bindp p k) m.
Proof.
  intros H K. induction H as [b x m H|b l f m HN HK IH|l f m HK IH]; cbn [bindp].
  - apply adv_weak, K, H, like_refl.
  - apply adv_in; [apply inert_bind, HN|].
    intros m1 m' p' L E. destruct (f m1) as [[m2 p2]| | |] eqn:Ef; try discriminate E. injection E as <- <-. apply (IH _ _ _ L Ef).
  - apply adv_send. intros m1 m' p' L E. destruct (f m1) as [[m2 p2]| | |] eqn:Ef; try discriminate E. injection E as <- <-. apply (IH _ _ _ L Ef).
Qed.
Lemma adv_bind {A B} (Q1 : A -> S -> Prop) (Q : B -> S -> Prop) s b p k m : adv Q1 s false p m ->
  (forall x m1, Q1 x m1 -> adv Q s b (k x) m1) -> adv Q s b (bindp p k) m.
Proof.
  intros H K. remember false as z eqn:Ez. revert Ez. induction H as [z x m H|z l f m HN HK IH|l f m HK IH]; intros Ez; cbn [bindp]; [| |discriminate Ez].
  - apply K, H, like_refl.
  - apply adv_in; [apply inert_bind, HN|].
    intros m1 m' p' L E. destruct (f m1) as [[m2 p2]| | |] eqn:Ef; try discriminate E. injection E as <- <-. apply (IH _ _ _ L Ef Ez).
Qed.
Lemma adv_post {A} (Q Q' : A -> S -> Prop) s b p m : (forall x m, Q x m -> Q' x m) -> adv Q s b p m -> adv Q' s b p m.
Proof. intros H2. induction 1 as [b x m H|b l f m HN HK IH|l f m HK IH]; [apply adv_ret|apply adv_in|apply adv_send]; auto. Qed.
(** an undefined statement, an assertion that fails *)
Lemma adv_stop {A} (Q : A -> S -> Prop) s b l (o : outcome (S * prog S A)) m : (forall x, o <> Ok x) -> adv Q s b (At l (fun _ => o)) m.
Proof.
  intros H. apply adv_in.
  - intros m1 v L. destruct o as [x| | |]; [elim (H x eq_refl)|reflexivity..].
  - intros m1 m' p' L E. elim (H _ E).
Qed.
(** the queues at the start do not matter *)
Lemma like_trans a b c : like a b -> like b c -> like a c.
Proof.
  intros (k1 & -> & P1) (k2 & -> & P2). exists k2. rewrite kgp in P2. rewrite kpp. split; [reflexivity|]. eapply pends_trans; eassumption.
Qed.
Lemma adv_like {A} (Q : A -> S -> Prop) s b p m m1 : like m m1 -> adv Q s b p m -> adv Q s b p m1.
Proof.
  intros L H. destruct H as [b x m H|b l f m HN HK|l f m HK]; [apply adv_ret|apply adv_in|apply adv_send]; try assumption; intros; try (eapply HK; [|eassumption]);
    try apply H; eapply like_trans; eassumption.
Qed.
Lemma setp_same m s : setp s (k_pend (sk (kget m) s)) m = m.
Proof.
  unfold setp, setpk, sk_upd. replace (sk (kget m) s <| k_pend := k_pend (sk (kget m) s) |>) with (sk (kget m) s) by (destruct (sk (kget m) s); reflexivity).
  unfold sk. rewrite set_nat_same. apply kpg.
Qed.
Lemma setp_pend m s v : (s < length (kget m))%nat -> k_pend (sk (kget (setp s v m)) s) = v.
Proof. intros L. unfold setp. rewrite kgp. unfold setpk. rewrite sk_upd_same by exact L. reflexivity. Qed.
Lemma inert_pend {A} s (f : S -> outcome (S * prog S A)) m m' p : inert s f -> (s < length (kget m))%nat -> (s < length (kget m'))%nat -> f m = Ok (m', p) ->
  k_pend (sk (kget m') s) = k_pend (sk (kget m) s).
Proof.
  intros H L L' E. pose proof (H m (k_pend (sk (kget m) s)) L) as G. rewrite setp_same, E in G. injection G as G. rewrite G. apply setp_pend, L'.
Qed.
(** At any point of an execution, either the queue of [s] is not going to be
    touched any more, or it has not been touched. *)
Lemma adv_partway {A} (Q : A -> S -> Prop) s p m p' m' :
  (forall p1 m1, partway p m p1 m1 -> (s < length (kget m1))%nat) ->
  adv Q s true p m -> partway p m p' m' ->
  adv Q s false p' m'
  \/ adv Q s true p' m' /\ k_pend (sk (kget m') s) = k_pend (sk (kget m) s) /\ forall v, partway p (setp s v m) p' (setp s v m').
Proof.
  intros HL H W. induction W as [p m|p m line f m1 m2 p2 W IH E]; [right; split; [exact H|split; [reflexivity|intros v; constructor]]|].
  pose proof (HL _ _ W) as L1. pose proof (HL _ _ (pw_stmt _ _ _ _ _ _ _ W E)) as L2.
  destruct (IH HL H) as [D|(D & HP & C)].
  - left. inversion D; subst. eauto using like_refl.
  - inversion D; subst.
    + match goal with HN : inert s f |- _ => rename HN into N end.
      right. split; [eauto using like_refl|]. split; [rewrite <- HP; apply (inert_pend s f m1 m2 p2 N L1 L2 E)|]. intros v. econstructor; [apply C|].
      rewrite (N m1 v L1), E. reflexivity.
    + left. eauto using like_refl.
Qed.
Lemma adv_partway0 {A} (Q : A -> S -> Prop) s p m p' m' : adv Q s false p m -> partway p m p' m' -> adv Q s false p' m'.
Proof. intros H W. induction W as [|p m line f m1 m2 p2 W IH E]; [exact H|]. specialize (IH H). inversion IH; subst. eauto using like_refl. Qed.
End Adv.
Arguments adv_ret {S kget kput A Q s}.
Arguments adv_in {S kget kput A Q s}.
Arguments adv_send {S kget kput A Q s}.
