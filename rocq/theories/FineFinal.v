(** * Every interleaving of statements: results. *)
From Verif Require Import BaseFacts MicroFacts KillExec KillFacts KillInv KillFinal BwInv KillBwInv LockFacts WorldFacts StepInv SysFacts KillSpec KillBwFinal Final.
From Verif Require Export FineSim4.

Lemma fixd_call r r' fl x : fixd r r' -> call_ok r fl x -> call_ok r' fl x.
Proof. intros [E1 E2]. destruct x; cbn [call_ok]; auto. unfold app_args_ok. rewrite E2. auto. Qed.
Lemma pends_in ks ks' k' : pends ks ks' -> In k' ks' -> exists k, In k ks /\ nopend k = nopend k'.
Proof.
  intros E I. apply (in_map nopend) in I. rewrite E in I. apply in_map_iff in I. destruct I as (k & E1 & I). eauto.
Qed.
Lemma contract_call w w' c x : cli w' c = cli w c -> fixd (w_ring w) (w_ring w') -> contract w (ACall c x) -> contract w' (ACall c x).
Proof. cbn [contract]. intros -> F H L P. apply (fixd_call (w_ring w)); auto. Qed.
Lemma names_pends w w' a : (match a with AOpen _ _ _ | ARun _ _ => True | _ => False end) -> pends (w_ks w) (w_ks w') -> new_names w a -> new_names w' a.
Proof.
  intros _ E H. destruct a; cbn [new_names] in *; auto; intros k I; destruct (pends_in _ _ _ E I) as (k0 & I0 & Ek); pose proof (H k0 I0); apply (f_equal k_name) in Ek; cbn in Ek; congruence.
Qed.
Lemma alive_pends ks ks' pid name : pends ks ks' -> (exists k, In k ks' /\ k_open k = true /\ k_pid k = pid /\ k_name k = name) ->
  exists k, In k ks /\ k_open k = true /\ k_pid k = pid /\ k_name k = name.
Proof.
  intros E (k & I & H1 & H2 & H3). destruct (pends_in _ _ _ E I) as (k0 & I0 & Ek). exists k0. split; [exact I0|].
  pose proof (f_equal k_open Ek) as G1. pose proof (f_equal k_pid Ek) as G2. pose proof (f_equal k_name Ek) as G3. cbn in G1, G2, G3. repeat split; congruence.
Qed.
Lemma honest_pends ks ks' e : pends ks ks' -> honest_sockets ks e -> honest_sockets ks' e.
Proof.
  intros E [H1 H2]. constructor; [exact H1|]. intros pid name. rewrite H2. split; intros H X; apply H; [apply (alive_pends ks ks'); assumption|apply (alive_pends ks' ks); [apply pends_sym, E|exact X]].
Qed.
Lemma good_pends ks ks' e : pends ks ks' -> good_sockets ks e -> good_sockets ks' e.
Proof.
  intros E [H1 H2 H3 H4 H5]. constructor; [exact H1|exact H2|exact H3|exact H4|]. intros pid name. rewrite H5. split; intros H X; apply H; [apply (alive_pends ks ks'); assumption|apply (alive_pends ks' ks); [apply pends_sym, E|exact X]].
Qed.
Lemma contract_run w w' a : (match a with AOpen _ _ _ | ARun _ _ => True | _ => False end) -> contract w a -> contract w' a.
Proof. destruct a; cbn; tauto. Qed.
Lemma local_named : local well_named.
Proof.
  constructor; unfold well_named.
  - tauto.
  - tauto.
  - cbn. auto.
  - cbn. auto.
  - intros w w' a. destruct a; cbn; tauto.
  - intros w w' c x E Fx [H _]. split; [eapply contract_call; eassumption|exact I].
  - intros w w' a Ka E [H N]. split; [eapply contract_run; eassumption|eapply names_pends; eassumption].
Qed.
Lemma local_flaky : local flaky.
Proof.
  constructor; unfold flaky.
  - tauto.
  - tauto.
  - cbn. auto.
  - cbn. auto.
  - intros w w' a. destruct a; cbn; tauto.
  - intros w w' c x E Fx [H _]. split; [eapply contract_call; eassumption|cbn; auto].
  - intros w w' a Ka E (H & G & N). split; [eapply contract_run; eassumption|]. split; [|eapply names_pends; eassumption].
    destruct a; try contradiction; eapply honest_pends; eassumption.
Qed.
Lemma local_steady : local steady.
Proof.
  constructor; unfold steady, reliable, good_env.
  - tauto.
  - tauto.
  - cbn. auto.
  - cbn. auto.
  - intros w w' a. destruct a; cbn; tauto.
  - intros w w' c x E Fx [[H _] _]. split; [split; [eapply contract_call; eassumption|exact I]|exact I].
  - intros w w' a Ka E ((H & G) & N). split; [|eapply names_pends; eassumption]. split; [eapply contract_run; eassumption|].
    destruct a; try contradiction; eapply good_pends; eassumption.
Qed.
Lemma local_orderly : local orderly.
Proof.
  pose proof local_steady as [A1 A2 A3 A4 A5 A6 A7]. constructor; unfold orderly.
  - intros w a [H _]. auto.
  - intros w a [H _]. auto.
  - cbn. auto.
  - cbn. auto.
  - intros w w' a Ka [H G]. split; [eauto|destruct a; cbn in *; tauto].
  - intros w w' c x E Fx [H _]. split; [eauto|exact I].
  - intros w w' a Ka E [H G]. split; [eauto|destruct a; cbn in *; tauto].
Qed.

Lemma fine_free P r w evs : local P -> freach P r (w, None) evs -> kreach P r w evs.
Proof. intros L (fsz & F & X & B). exists fsz. split; [exact F|]. split; [apply (fine_sim P r fsz L F _ _ X B)|exact B]. Qed.
Lemma fine_inside P r w i evs : local P -> freach P r (w, Some i) evs -> exists w0, kreach P r w0 evs.
Proof. intros L (fsz & F & X & B). destruct (fine_sim P r fsz L F _ _ X B) as (w0 & m0 & D & S). exists w0, fsz. split; [exact F|]. split; [apply S|exact B]. Qed.
Lemma fine_finishes P r w i evs : local P -> freach P r (w, Some i) evs -> exists ev w', finishes (w, Some i) ev (w', None).
Proof.
  intros L (fsz & F & X & B). destruct i as [w0 x p]. revert w X. induction p as [y|l f IH] using prog_ind2; intros w X; destruct (fine_goes_on P r fsz L F _ _ _ X B) as [[rr E]|(l' & f' & m & p & E & Ef)]; cbn [in_p] in E; try discriminate E.
  - injection E as ->. destruct (leave w x rr) as [w' ev] eqn:El. exists ev, w'. constructor. exact El.
  - injection E as -> ->. destruct (IH _ _ _ Ef (with_shared w m)) as (ev & w' & R).
    + rewrite <- (app_nil_r evs). eapply fx_step; [exact X|]. constructor. exact Ef.
    + exists ev, w'. econstructor; eassumption.
Qed.
(** the four kinds of executions *)
Lemma fine_atomic r w evs :
  (freach well_named r (w, None) evs -> kreach well_named r w evs) /\ (freach flaky r (w, None) evs -> kreach flaky r w evs)
  /\ (freach steady r (w, None) evs -> kreach steady r w evs) /\ (freach orderly r (w, None) evs -> kreach orderly r w evs).
Proof. repeat split; apply fine_free; auto using local_named, local_flaky, local_steady, local_orderly. Qed.
Lemma fine_midway r w i evs :
  (freach well_named r (w, Some i) evs -> exists w0, kreach well_named r w0 evs) /\ (freach flaky r (w, Some i) evs -> exists w0, kreach flaky r w0 evs)
  /\ (freach steady r (w, Some i) evs -> exists w0, kreach steady r w0 evs) /\ (freach orderly r (w, Some i) evs -> exists w0, kreach orderly r w0 evs).
Proof. repeat split; apply fine_inside; auto using local_named, local_flaky, local_steady, local_orderly. Qed.
Lemma fine_done r w i evs : freach well_named r (w, Some i) evs -> exists ev w', finishes (w, Some i) ev (w', None).
Proof. apply fine_finishes, local_named. Qed.
Lemma fine_next r w i evs : freach well_named r (w, Some i) evs ->
  (exists x, in_p i = Ret (Ok x)) \/ exists line f m p, in_p i = At line f /\ f (shared w) = Ok (m, p).
Proof. intros (fsz & F & X & B). apply (fine_goes_on _ r fsz local_named F _ _ _ X B). Qed.
Lemma fine_fifo r w evs : freach well_named r (w, None) evs -> r_drop r = false -> r_farm r = false ->
  exists taken, subseq (delivered evs) taken /\ committed evs = taken ++ ring_unread (w_ring w) /\ (no_reader_killed evs -> taken = delivered evs).
Proof. intros R. apply k_fifo. apply (kreach_mono well_named); [intros ? ? [H _]; exact H|]. apply fine_free; [apply local_named|exact R]. Qed.

(** ** scripts of statements *)
Inductive scmd :=
| Out (k : cmd)                  (* without the lock, when nobody has it *)
| Meanwhile (k : cmd)            (* while somebody has it *)
| Lock (c : nat) | LockOpen (flags pid : Z)
| Stmts (n : nat)                (* the next [n] statements *)
| Rest                           (* the rest of the section, then unlock *)
| Killed.
Definition who_of (w : world) (k : scmd) : option who :=
  match k with
  | Lock c => Some (InCall c (calm (w_ks w)))
  | LockOpen flags pid => Some (InOpen (calm (w_ks w)) flags pid)
  | _ => None
  end.
Fixpoint stmts (n : nat) (s : fstate) : option fstate :=
  match n, s with
  | O, _ => Some s
  | S n, (w, Some (mkin w0 x (At line f))) => match f (shared w) with Ok (m, p) => stmts n (with_shared w m, Some (mkin w0 x p)) | _ => None end
  | _, _ => None
  end.
Fixpoint rest (p : prog shm fres) (w : world) : option (world * (option client * list event)) :=
  match p with
  | Ret (Ok r) => Some (w, r)
  | Ret _ => None
  | At _ f => match f (shared w) with Ok (m, p) => rest p (with_shared w m) | _ => None end
  end.
Definition holds_b (x : who) (c : nat) : bool := match x with InCall c' _ => (c =? c')%nat | InOpen _ _ _ => false end.
Definition no_sock_b (h : option bwt) : bool := match h with Some (Wait _ _ _) => false | _ => true end.
Definition meanwhile_b (w : world) (x : who) (k : cmd) : bool :=
  match k with
  | Call c _ | Recv c | Intr c | Ready c _ => negb (holds_b x c)
  | Die c => negb (holds_b x c) && no_sock_b (c_w2r (cli w c)) && no_sock_b (c_r2w (cli w c))
  | Open _ _ | Run _ => false
  end.
Definition splay1 (s : fstate) (k : scmd) : option (fstate * list event) :=
  match s, k with
  | (w, None), Out k =>
      if names_b w && ok_b w k && negb (match k with Open _ _ | Run _ => true | _ => false end) then
        match step w (Witness.act w k) with Ok (w', ev) => Some ((w', None), ev) | _ => None end
      else None
  | (w, Some i), Meanwhile k =>
      if names_b w && ok_b w k && meanwhile_b w (in_who i) k then
        match step w (Witness.act w k) with Ok (w', ev) => Some ((w', Some i), ev) | _ => None end
      else None
  | (w, None), Lock c =>
      let x := InCall c (calm (w_ks w)) in
      if names_b w && wants_lock (cli w c) then Some ((w, Some (mkin w x (body w x))), []) else None
  | (w, None), LockOpen flags pid =>
      let x := InOpen (calm (w_ks w)) flags pid in
      if names_b w && ok_b w (Open flags pid) then Some ((w, Some (mkin w x (body w x))), []) else None
  | s, Stmts n => match stmts n s with Some s => Some (s, []) | None => None end
  | (w, Some i), Rest =>
      match rest (in_p i) w with
      | Some (w, r) => let '(w', ev) := leave w (in_who i) r in Some ((w', None), ev)
      | None => None
      end
  | (w, Some i), Killed =>
      match in_p i with
      | At line f => if intact (in_w i) w (in_who i) line then let '(w', ev) := die (in_w i) w (in_who i) line in Some ((w', None), ev) else None
      | Ret _ => None
      end
  | _, _ => None
  end.
Fixpoint splay (s : fstate) (ks : list scmd) : option (fstate * list event) :=
  match ks with
  | [] => Some (s, [])
  | k :: t => match splay1 s k with
              | Some (s1, ev) => match splay s1 t with Some (s2, ev2) => Some (s2, ev ++ ev2) | None => None end
              | None => None
              end
  end.
Lemma stmts_exec w0 : forall n s s' evs, fexec steady w0 s evs -> stmts n s = Some s' -> fexec steady w0 s' evs.
Proof.
  induction n as [|n IH]; intros [w [[w1 x [y|l f]]|]] s' evs X H; cbn [stmts] in H; try discriminate H; try (injection H as <-; exact X).
  destruct (f (shared w)) as [[m p]| | |] eqn:E; try discriminate H. refine (IH _ _ _ _ H). rewrite <- (app_nil_r evs). eapply fx_step; [exact X|constructor; exact E].
Qed.
Lemma rest_exec w0 w1 x : forall p w evs w' r, fexec steady w0 (w, Some (mkin w1 x p)) evs -> rest p w = Some (w', r) -> fexec steady w0 (w', Some (mkin w1 x (Ret (Ok r)))) evs.
Proof.
  induction p as [y|l f IH] using prog_ind2; intros w evs w' r X H; cbn [rest] in H.
  - destruct y; try discriminate H. injection H as <- <-. exact X.
  - destruct (f (shared w)) as [[m p]| | |] eqn:E; try discriminate H. apply (IH _ _ _ E) with (evs := evs) in H; [exact H|]. rewrite <- (app_nil_r evs). eapply fx_step; [exact X|constructor; exact E].
Qed.
Lemma holds_no x c : holds_b x c = false -> ~ holds x c.
Proof. destruct x; cbn; [|auto]. intros H ->. rewrite Nat.eqb_refl in H. discriminate. Qed.
Lemma no_sock_ok h : no_sock_b h = true -> no_sock h. Proof. destruct h as [[|]|]; cbn; auto; discriminate. Qed.
Lemma splay_exec w0 : forall ks s evs s' ev, fexec steady w0 s evs -> splay s ks = Some (s', ev) -> fexec steady w0 s' (evs ++ ev).
Proof.
  induction ks as [|k t IH]; intros s evs s' ev X H; cbn [splay] in H; [injection H as <- <-; rewrite app_nil_r; exact X|].
  destruct (splay1 s k) as [[s1 ev1]|] eqn:E; [|discriminate H]. destruct (splay s1 t) as [[s2 ev2]|] eqn:E2; [|discriminate H]. injection H as <- <-.
  rewrite app_assoc. apply (IH s1); [|exact E2]. clear IH E2. destruct s as [w [i|]]; destruct k as [k|k|c|flags pid|n| |]; cbn [splay1] in E; try discriminate E.
  - destruct (names_b w) eqn:N; [|discriminate E]. destruct (ok_b w k) eqn:Ok; [|discriminate E]. destruct (meanwhile_b w (in_who i) k) eqn:M; [|discriminate E]. cbn [andb] in E.
    destruct (step w (Witness.act w k)) as [[w' ev']| | |] eqn:St; try discriminate E. injection E as <- <-. eapply fx_step; [exact X|]. apply (fs_meanwhile _ _ _ (Witness.act w k)); [|apply act_steady; assumption|exact St].
    destruct k; cbn [meanwhile_b Witness.act meanwhile] in *; try discriminate M; rewrite ?andb_true_iff, ?negb_true_iff in M; [apply holds_no, M..|].
    destruct M as [[M1 M2] M3]. split; [apply holds_no, M1|]. split; apply no_sock_ok; assumption.
  - destruct (stmts n (w, Some i)) as [s|] eqn:Es; [|discriminate E]. injection E as <- <-. rewrite app_nil_r. apply (stmts_exec _ _ _ _ _ X Es).
  - destruct i as [w1 x p]. cbn [in_p in_who] in E. destruct (rest p w) as [[w' r]|] eqn:Er; [|discriminate E]. destruct (leave w' x r) as [w2 ev'] eqn:El. injection E as <- <-.
    eapply fx_step; [apply (rest_exec _ _ _ _ _ _ _ _ X Er)|]. constructor. exact El.
  - destruct i as [w1 x p]. cbn [in_p in_who in_w] in E. destruct p as [|line f]; [discriminate E|]. destruct (intact w1 w x line) eqn:Ei; [|discriminate E].
    destruct (die w1 w x line) as [w2 ev'] eqn:Ed. injection E as <- <-. eapply fx_step; [exact X|]. constructor; assumption.
  - destruct (names_b w) eqn:N; [|discriminate E]. destruct (ok_b w k) eqn:Ok; [|discriminate E]. cbn [andb] in E. destruct (negb _) eqn:Nk; [|discriminate E].
    destruct (step w (Witness.act w k)) as [[w' ev']| | |] eqn:St; try discriminate E. injection E as <- <-. eapply fx_step; [exact X|].
    apply (fs_free _ _ (Witness.act w k)); [destruct k; try exact I; discriminate Nk|apply act_steady; assumption|exact St].
  - destruct (names_b w) eqn:N; [|discriminate E]. destruct (wants_lock (cli w c)) eqn:Wl; [|discriminate E]. injection E as <- <-. eapply fx_step; [exact X|].
    apply fs_lock; [split; [exact Wl|reflexivity]|]. exact (act_steady w (Run c) N eq_refl).
  - destruct (names_b w) eqn:N; [|discriminate E]. destruct (ok_b w (Open flags pid)) eqn:Ok; [|discriminate E]. injection E as <- <-. eapply fx_step; [exact X|].
    apply fs_lock; [reflexivity|]. exact (act_steady w (Open flags pid) N Ok).
  - destruct (stmts n (w, None)) as [s|] eqn:Es; [|discriminate E]. injection E as <- <-. rewrite app_nil_r. apply (stmts_exec _ _ _ _ _ X Es).
Qed.
Lemma freach_steady r fsz ks s evs : fresh r fsz -> splay (world0 r fsz, None) ks = Some (s, evs) -> zlen (committed evs) < W64 -> freach steady r s evs.
Proof. intros F H B. exists fsz. split; [exact F|]. split; [apply (splay_exec _ ks (world0 r fsz, None) []); [constructor|exact H]|]. intros _. exact B. Qed.
