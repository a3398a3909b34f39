(** * Properties of every statement of a program, whatever the state. *)
From Verif Require Import BaseFacts MicroFacts Crash Effects Final Pending PollFacts StepInv KillExec.
From Verif Require Export LockFacts.
From Verif Require Export Kill Fine.

Section Each.
Context {S : Type}.
Variable R : S -> S -> Prop.
(** each statement of [p] relates the states before and after by [R] *)
Inductive each {A} : prog S A -> Prop :=
| ea_ret x : each (Ret x)
| ea_at' l f : (forall s s' p', f s = Ok (s', p') -> R s s') -> (forall s s' p', f s = Ok (s', p') -> each p') -> each (At l f).
Lemma ea_at {A} l (f : S -> outcome (S * prog S A)) : (forall s s' p', f s = Ok (s', p') -> R s s' /\ each p') -> each (At l f).
Proof. intros H. constructor; intros s s' p' E; apply (H _ _ _ E). Qed.
Lemma each_bind {A B} (p : prog S A) (k : A -> prog S B) : each p -> (forall x, each (k x)) -> each (bindp p k).
Proof.
  intros H K. induction H as [x|l f H H' IH]; cbn [bindp]; [apply K|]. apply ea_at. intros s s' p' E.
  destruct (f s) as [[s1 p1]| | |] eqn:Ef; try discriminate E. injection E as <- <-. split; [exact (H _ _ _ Ef)|apply (IH _ _ _ Ef)].
Qed.
Lemma each_stop {A} l (f : S -> outcome (S * prog S A)) : (forall s, f s = UB) -> each (At l f).
Proof. intros H. apply ea_at. intros s s' p' E. rewrite H in E. discriminate. Qed.
Hypothesis Rr : forall s, R s s.
Hypothesis Rt : forall a b c, R a b -> R b c -> R a c.
Lemma each_partway {A} (p p' : prog S A) s s' : partway p s p' s' -> each p -> R s s' /\ each p'.
Proof.
  induction 1 as [|p s line f s1 s2 p2 H IH E]; intros HE; [auto|]. destruct (IH HE) as [A1 A2]. inversion A2; subst.
  split; [eapply Rt; [exact A1|]; eauto|eauto].
Qed.
Lemma each_exec {A} (p : prog S A) : each p -> forall s s' x, exec_all p s = Ok (s', x) -> R s s'.
Proof.
  induction 1 as [x|l f H H' IH]; intros s s' y E; [injection E as <- <-; apply Rr|]. cbn [exec_all] in E.
  destruct (f s) as [[s1 p1]| | |] eqn:Ef; try discriminate E. apply (Rt _ _ _ (H _ _ _ Ef)). apply (IH _ _ _ Ef _ _ _ E).
Qed.
End Each.
Lemma each_lift {S T A} (R : S -> S -> Prop) (R' : T -> T -> Prop) (get : T -> S) (put : T -> S -> T) (p : prog S A) :
  (forall t s, R (get t) s -> R' t (put t s)) -> each R p -> each R' (liftp get put p).
Proof.
  intros HR. induction 1 as [x|l f H H' IH]; cbn [liftp]; [constructor|]. apply ea_at. intros t t' p' E.
  destruct (f (get t)) as [[s1 p1]| | |] eqn:Ef; try discriminate E. injection E as <- <-. split; [apply HR, (H _ _ _ Ef)|apply (IH _ _ _ Ef)].
Qed.
Lemma prog_ind2 {S A} (Q : prog S A -> Prop) : (forall x, Q (Ret x)) ->
  (forall l f, (forall s s' p', f s = Ok (s', p') -> Q p') -> Q (At l f)) -> forall p, Q p.
Proof.
  intros H1 H2. fix IH 1. intros [x|l f]; [apply H1|]. apply H2. intros s s' p' E.
  assert (K : match f s with Ok (_, q) => Q q | _ => True end) by (destruct (f s) as [[s1 p1]| | |]; [apply IH|exact Logic.I..]).
  rewrite E in K. exact K.
Qed.
Lemma each_any {S A} (R : S -> S -> Prop) : (forall s s', R s s') -> forall p : prog S A, each R p.
Proof. intros H. apply prog_ind2; [constructor|]. intros l f IH. constructor; intros s s' p' E; [apply H|apply (IH _ _ _ E)]. Qed.

(** ** flags and sizes are not stored to *)
Definition fixd (r r' : ring) : Prop := r_gflags r' = r_gflags r /\ r_app_len r' = r_app_len r.
Lemma fixd_r r : fixd r r. Proof. split; reflexivity. Qed.
Lemma fixd_t a b c : fixd a b -> fixd b c -> fixd a c. Proof. intros [] []. split; congruence. Qed.
Ltac ring_step := apply ea_at; let E := fresh "E" in intros ? ? ? E; cbn [obind] in E;
  repeat match type of E with
  | (if ?b then _ else _) = Ok _ => destruct b; try discriminate E
  | obind _ _ = Ok _ => apply obind_ok in E; let y := fresh "y" in destruct E as (y & ? & E); cbn [obind] in E
  | (let '(_, _) := ?x in _) = Ok _ => destruct x
  end; try discriminate E; apply ok_pair in E; destruct E as [<- <-]; (split; [split; reflexivity|]).

Lemma fx_drop_loop {R} smm fuel niov need am ab (k : Z -> Z -> Z -> prog ring R) : (forall i z p, each fixd (k i z p)) ->
  forall i z p, each fixd (drop_loop_p smm fuel niov need am ab i z p k).
Proof.
  intros K. induction fuel as [|fuel IH]; intros i z p; cbn [drop_loop_p]; destruct (_ || _); try apply K.
  - apply ea_at. intros s s' p' E. discriminate E.
  - ring_step. apply IH.
Qed.
Lemma fx_drop {R} smm need niov (k : prog ring R) : each fixd k -> each fixd (drop_p smm need niov k).
Proof. intros K. unfold drop_p. ring_step. apply fx_drop_loop. intros i z p. do 6 ring_step. exact K. Qed.
Lemma fx_evict {R} smm len niov n i (k : Z -> Z -> Z -> prog ring R) : (forall e a mp, each fixd (k e a mp)) ->
  forall mp e a, each fixd (evict_p smm len mp n niov i e a k).
Proof. intros K. induction mp as [|mp IH]; intros e a; cbn [evict_p]; [apply K|]. ring_step; first [apply K|apply IH]. Qed.
Lemma fx_bytes {R} line (k : prog ring R) : each fixd k -> forall bs pos, each fixd (bytes_p line pos bs k).
Proof. intros K. induction bs as [|x t IH]; intros pos; cbn [bytes_p]; [exact K|]. ring_step. apply IH. Qed.
Lemma fx_copy {R} (k : prog ring R) : each fixd k -> forall iov p, each fixd (copy_p iov p k).
Proof.
  intros K. induction iov as [|b t IH]; intros p; cbn [copy_p]; [exact K|]. cbv zeta. do 3 ring_step; apply fx_bytes, fx_bytes; ring_step; apply IH.
Qed.
Lemma fx_commit smm iov len : each fixd (commit_p smm iov len false).
Proof. unfold commit_p. cbv zeta. ring_step. apply fx_evict. intros e a mp. do 4 ring_step. apply fx_copy. do 4 ring_step. constructor. Qed.
Lemma fx_write smm iov len : each fixd (write_p smm iov len false).
Proof. unfold write_p. ring_step; first [apply fx_commit|apply fx_drop, fx_commit|constructor]. Qed.
Lemma fx_read_loop {R} (k : rloc -> option seg -> prog ring R) : (forall x c, each fixd (k x c)) -> forall niov cur x, each fixd (read_loop_p niov cur x k).
Proof.
  intros K. induction niov as [|niov IH]; intros [s|] x; cbn [read_loop_p]; try apply K.
  cbv zeta. destruct (_ >? _); [apply K|]. ring_step;
    (match goal with |- each _ (if ?b then _ else _) => destruct b end; [ring_step; apply IH|]; do 4 ring_step; apply IH).
Qed.
Lemma fx_read q md buf niov : each fixd (read_p q md buf niov).
Proof. unfold read_p. cbv zeta. ring_step. destruct o; [|constructor]. apply fx_read_loop. intros x c. do 2 ring_step. constructor. Qed.
Lemma fx_wrote len niov : each fixd (wrote_p len niov).
Proof. unfold wrote_p. do 2 ring_step. constructor. Qed.
Lemma fx_reset t : each fixd (reset_p t).
Proof. unfold reset_p. do 2 ring_step. constructor. Qed.
Lemma fx_app : forall bs pos, each fixd (app_p pos bs).
Proof. induction bs as [|x t IH]; intros pos; cbn [app_p]; [constructor|]. ring_step. apply IH. Qed.

Definition sfix (m m' : shm) : Prop := fixd (sh_ring m) (sh_ring m').
Lemma sfix_ring {A} (p : prog ring A) : each fixd p -> each sfix (on_ring p).
Proof. apply each_lift. intros t s H. exact H. Qed.
Lemma sfix_bw {A} b (p : prog bks A) : each sfix (on_bw b p).
Proof. apply (each_lift (fun _ _ => True)); [|apply each_any; auto]. intros t s _. destruct b; split; reflexivity. Qed.
Ltac fx := repeat first
  [ apply ea_ret | apply sfix_bw | apply sfix_ring, fx_write | apply sfix_ring, fx_read | apply sfix_ring, fx_wrote | apply sfix_ring, fx_reset | apply sfix_ring, fx_app
  | apply each_bind; [|intro] | match goal with |- each _ (At _ (fun _ => UB)) => apply each_stop; reflexivity
                   | |- each _ (match ?x with _ => _ end) => destruct x end ].
Lemma sfix_section e sync c cl : each sfix (fsection e sync c cl).
Proof.
  unfold fsection. destruct (c_pc cl); cbv zeta; fx.
  all: try (apply ea_at; intros s s' p' E; discriminate E).
  - apply ea_at. intros s s' p' E. apply ok_pair in E. destruct E as [<- <-]. split; [split; reflexivity|]. fx.
  - apply ea_at. intros s s' p' E.
    repeat match type of E with
    | (if ?b then _ else _) = Ok _ => destruct b; try discriminate E
    | obind _ _ = Ok _ => apply obind_ok in E; let y := fresh "y" in destruct E as (y & ? & E); cbn [obind] in E
    | (match ?x with _ => _ end) = Ok _ => destruct x; try discriminate E
    end; try discriminate E; apply ok_pair in E; destruct E as [<- <-]; (split; [split; reflexivity|]); fx.
Qed.
Lemma sfix_open e fsz flags pid : each sfix (fopen e fsz flags pid).
Proof.
  unfold fopen. apply ea_at. intros s s' p' E. apply ok_pair in E. destruct E as [<- <-]. split; [split; reflexivity|].
  unfold fail_open, close_opt. fx.
Qed.
