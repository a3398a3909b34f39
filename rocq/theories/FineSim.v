(** * Every interleaving of statements is a history of whole critical sections. *)
From Verif Require Import BaseFacts MicroFacts KillExec KillFacts KillInv KillFinal BwInv KillBwInv LockFacts WorldFacts StepInv SysFacts KillSpec.
From Verif Require Export FineHI FineSect FineBody.

(** ** wake-ups received while another process has the lock *)
Notation pend m s := (k_pend (sk (sh_ks m) s)).
Definition recv (s : nat) (m : shm) : shm := kputs m (bw_recv (sh_ks m) s).
Definition recvs (D : list (nat * nat)) (m : shm) : shm := fold_right (fun d => recv (snd d)) m D.
Definition wake (d : nat * nat) (w : world) : world := setc (w <| w_ks := bw_recv (w_ks w) (snd d) |>) (fst d) (resume (cli w (fst d))).
Definition wakes (D : list (nat * nat)) (w : world) : world := fold_right wake w D.
Lemma recvs_cons d D m : recvs (d :: D) m = recv (snd d) (recvs D m). Proof. reflexivity. Qed.
Lemma wakes_cons d D w : wakes (d :: D) w = wake d (wakes D w). Proof. reflexivity. Qed.

Lemma recv_setp s m : recv s m = setps s (Z.max 0 (pend m s - 1)) m. Proof. reflexivity. Qed.
Lemma recv_len s m : length (sh_ks (recv s m)) = length (sh_ks m). Proof. apply sk_upd_len. Qed.
Lemma recvs_len D m : length (sh_ks (recvs D m)) = length (sh_ks m).
Proof. induction D as [|d D IH]; rewrite ?recvs_cons; [reflexivity|]. rewrite recv_len. exact IH. Qed.
Lemma recv_like s m : likes m (recv s m). Proof. exists (bw_recv (sh_ks m) s). split; [reflexivity|apply upd_pends; reflexivity]. Qed.
Lemma recvs_like D m : likes m (recvs D m).
Proof. induction D as [|d D IH]; rewrite ?recvs_cons; [apply like_refl, kpgs|]. eapply like_trans; [exact kgps|exact kpps|exact IH|apply recv_like]. Qed.
Lemma recvs_pend D s m : ~ In s (map snd D) -> pend (recvs D m) s = pend m s.
Proof.
  induction D as [|d D IH]; intros N; [reflexivity|]. rewrite recvs_cons. cbn [map In] in N.
  change (sh_ks (recv (snd d) (recvs D m))) with (bw_recv (sh_ks (recvs D m)) (snd d)). unfold bw_recv. rewrite sk_upd_other by intuition congruence. apply IH. tauto.
Qed.
Lemma recv_comm s s' m : s <> s' -> recv s (recv s' m) = recv s' (recv s m).
Proof. intros N. unfold recv, kputs. cbn [sh_ring sh_w2r sh_r2w sh_ks]. f_equal. unfold bw_recv. apply upd_comm. congruence. Qed.

Lemma shared_wakes D w : shared (wakes D w) = recvs D (shared w).
Proof. induction D as [|d D IH]; [reflexivity|]. rewrite wakes_cons, recvs_cons, <- IH. reflexivity. Qed.
Lemma cli_wakes D w c : ~ In c (map fst D) -> cli (wakes D w) c = cli w c.
Proof.
  induction D as [|d D IH]; intros N; [reflexivity|]. rewrite wakes_cons. cbn [map In] in N. unfold wake. rewrite cli_setc_other by (intros ->; tauto). apply IH. tauto.
Qed.
Lemma resume_twice cl : resume (resume cl) = resume cl.
Proof. unfold resume at 2. destruct (c_pc cl) eqn:E; unfold resume; rewrite ?E; reflexivity. Qed.
Lemma cli_wakes_in D w c : In c (map fst D) -> (c < length (w_cl w))%nat -> cli (wakes D w) c = resume (cli w c).
Proof.
  intros I L. assert (LW : forall D, length (w_cl (wakes D w)) = length (w_cl w)).
  { clear. intros D. induction D as [|d D IH]; [reflexivity|]. rewrite wakes_cons. unfold wake, setc. cbn [w_cl set]. etransitivity; [apply zlen_set_nat|exact IH]. }
  induction D as [|d D IH]; [elim I|]. rewrite wakes_cons. cbn [map In] in I. unfold wake. destruct (Nat.eq_dec c (fst d)) as [->|N].
  - rewrite cli_setc_same by (change (fst d < length (w_cl (wakes D w)))%nat; rewrite LW; exact L).
    destruct (in_dec Nat.eq_dec (fst d) (map fst D)) as [Y|Y]; [rewrite IH by exact Y; apply resume_twice|].
    rewrite cli_wakes by exact Y. reflexivity.
  - rewrite cli_setc_other by exact N. apply IH. destruct I as [I|I]; [congruence|exact I].
Qed.

(** The statement is executed with the queues as they are now, or as they would
    be had nobody received anything: with the same effect. *)
Lemma inert_list {A} (f : shm -> outcome (shm * prog shm A)) D m m' p' :
  (forall d, In d D -> inert sh_ks kputs (snd d) f /\ (snd d < length (sh_ks m))%nat) ->
  (forall m1, f m = Ok (m1, p') -> forall d, In d D -> (snd d < length (sh_ks m1))%nat) ->
  f (recvs D m) = Ok (m', p') -> exists m1, f m = Ok (m1, p') /\ m' = recvs D m1.
Proof.
  revert m'. induction D as [|[c s] D IH]; intros m' HI HL E; [exists m'; auto|].
  rewrite recvs_cons in E. cbn [snd] in E.
  destruct (HI (c, s) (or_introl eq_refl)) as [N L]. cbn [snd] in N, L.
  assert (Ls : (s < length (sh_ks (recvs D m)))%nat) by (rewrite recvs_len; exact L).
  rewrite recv_setp, (N _ _ Ls) in E. destruct (f (recvs D m)) as [[m2 p2]| | |] eqn:Ef; try discriminate E. injection E as <- ->.
  destruct (IH m2 (fun d I => HI d (or_intror I)) (fun m1 F d I => HL m1 F d (or_intror I)) eq_refl) as (m1 & F & ->).
  exists m1. split; [exact F|]. assert (L1 : (s < length (sh_ks (recvs D m1)))%nat) by (rewrite recvs_len; exact (HL m1 F (c, s) (or_introl eq_refl))).
  rewrite recvs_cons. cbn [snd]. rewrite recv_setp. pose proof (inert_pend sh_ks kputs kgps kpgs s f _ _ _ N Ls L1 Ef) as Pe. rewrite Pe. reflexivity.
Qed.
(** ... and if it can be executed in one case it can in the other *)
Lemma inert_total {A} (f : shm -> outcome (shm * prog shm A)) D m m1 p' :
  (forall d, In d D -> inert sh_ks kputs (snd d) f /\ (snd d < length (sh_ks m))%nat) ->
  f m = Ok (m1, p') -> exists m', f (recvs D m) = Ok (m', p').
Proof.
  intros HI E. induction D as [|[c s] D IH]; [eauto|]. rewrite recvs_cons. cbn [snd].
  destruct (HI (c, s) (or_introl eq_refl)) as [N L]. cbn [snd] in N, L.
  destruct IH as [m' F]; [intros d I; apply HI; right; exact I|].
  rewrite recv_setp, (N _ _ ltac:(rewrite recvs_len; exact L)), F. eauto.
Qed.
