(** * Invariant of the library's executions (proofs about BwApi.v) *)
From Verif Require Import BaseFacts MicroFacts KillExec KillFacts BwInv KillBw KillBwInv KillBwStep KillOcc FineAdv FineOnce FineStep FineHome.
From Verif Require Export BwSpec.

Definition Wt (y : bsys) (c n s : nat) : Prop := exists p, bc_h (bcli y c) = Some (Wait n s p).
Definition Wk (y : bsys) (c : nat) (q : Z) (cs : list conn) : Prop := bc_h (bcli y c) = Some (Wake q cs).
(** the slots and the sockets of the waiters in [X] *)
Definition Wy (y : bsys) (X : nat -> Prop) (n : nat) : Prop := exists c s, X c /\ Wt y c n s.
Definition Ky (y : bsys) (X : nat -> Prop) (s : nat) : Prop := exists c n, X c /\ Wt y c n s.
Definition everyone (c : nat) : Prop := True.
Definition but (c c' : nat) : Prop := c' <> c.
Definition prot (y : bsys) (X Z : nat -> Prop) (s : bks) : Prop := Ib (b_h (y_s y)) (b_ks (y_s y)) (Wy y X) (Ky y X) (Ky y Z) s.

Record BY (home : Z -> bool -> nat -> Prop) (y : bsys) : Prop := mkBY {
  by_k : KI (b_ks (y_s y));
  by_len : length (h_wr (b_h (y_s y))) = BW_WAITMAX;
  by_seq : 0 <= h_seq (b_h (y_s y));
  by_wt : forall c n s, Wt y c n s -> waits_at (b_ks (y_s y)) (b_h (y_s y)) n s /\ k_pid (sk (b_ks (y_s y)) s) = bc_pid (bcli y c);
  by_own : forall c n s c' n', Wt y c n s -> Wt y c' n' s -> c = c';
  by_wk : forall c q cs, Wk y c q cs -> wkr (b_h (y_s y)) (Wy y everyone) q cs (y_s y) /\ hconns home true (b_ks (y_s y)) cs;
  by_open : forall s, k_open (sk (b_ks (y_s y)) s) = true -> exists c n, Wt y c n s;
  by_home : unique home /\ named home (b_ks (y_s y)) /\ hslots home true (b_h (y_s y)) }.

Lemma BY_start : exists home, BY home bsys0.
Proof.
  exists (fun _ _ _ => False). assert (N : forall c, bc_h (bcli bsys0 c) = None) by (intros [|c]; reflexivity).
  assert (NW : forall c n s, ~ Wt bsys0 c n s) by (intros c n s [p H]; rewrite N in H; discriminate).
  constructor.
  - constructor; [intros s s' L; cbn in L; lia| |]; intros [|s]; cbn; lia.
  - reflexivity.
  - cbn. lia.
  - intros c n s H. elim (NW _ _ _ H).
  - intros c n s c' n' H. elim (NW _ _ _ H).
  - intros c q cs H. unfold Wk in H. rewrite N in H. discriminate.
  - intros [|s]; cbn; discriminate.
  - split; [intros nm b i b' i' []|]. split; [intros nm b i []|]. intros i H. elim H. cbn [bsys0 y_s b_h bwh0 h_wr]. rewrite repeat_nth. reflexivity.
Qed.

Lemma Wt_fun y c n s n' s' : Wt y c n s -> Wt y c n' s' -> n = n' /\ s = s'.
Proof. intros [p H] [p' H']. rewrite H in H'. injection H' as -> -> ->. auto. Qed.
Lemma Wt_lt home y c n s : BY home y -> Wt y c n s -> (s < length (b_ks (y_s y)))%nat.
Proof. intros B H. destruct (by_wt _ _ B _ _ _ H) as ((_ & O & _) & _). apply sk_open_lt, O. Qed.
Lemma Ky_lt home y X s : BY home y -> Ky y X s -> (s < length (b_ks (y_s y)))%nat.
Proof. intros B (c & n & _ & H). apply (Wt_lt _ _ _ _ _ B H). Qed.
Lemma same_slot home y c n s c' s' : BY home y -> Wt y c n s -> Wt y c' n s' -> c = c' /\ s = s'.
Proof.
  intros B H H'. destruct (by_wt _ _ B _ _ _ H) as ((_ & O1 & _ & E1) & _). destruct (by_wt _ _ B _ _ _ H') as ((_ & O2 & _ & E2) & _).
  assert (s = s'); [|subst s'; split; [apply (by_own _ _ B _ _ _ _ _ H H')|reflexivity]].
  apply (ki_names _ (by_k _ _ B)); [apply sk_open_lt; exact O1|apply sk_open_lt; exact O2|]. rewrite E1 in E2. congruence.
Qed.
Lemma Ib_mono h ks (W W' K K' L L' : nat -> Prop) s : (forall n, W' n -> W n) -> (forall n, K' n -> K n) -> (forall n, L' n -> L n) -> Ib h ks W K L s -> Ib h ks W' K' L' s.
Proof.
  intros H1 H2 H3 [G [K1 K2 K3 K4 K5]]. split; [apply (grow_mono W' W); assumption|]. constructor; auto.
Qed.
Lemma prot_mono y (X X' Z Z' : nat -> Prop) s : (forall c, X' c -> X c) -> (forall c, Z' c -> Z c) -> prot y X Z s -> prot y X' Z' s.
Proof.
  intros H1 H2. apply Ib_mono; [intros n (c & k & A & B); exists c, k; auto|intros n (c & k & A & B); exists c, k; auto|intros n (c & k & A & B); exists c, k; auto].
Qed.
Lemma prot0 home y X Z : BY home y -> prot y X Z (y_s y).
Proof.
  intros B. split; [apply grow_refl|]. apply kin_refl; [apply (by_k _ _ B)|]. intros s (c & n & _ & H). apply (by_wt _ _ B _ _ _ H).
Qed.
Lemma HW_ok home y e (X : nat -> Prop) : BY home y -> honest y e -> forall n, Wy y X n -> (n < BW_WAITMAX)%nat /\ exists s, reg (b_h (y_s y)) (b_ks (y_s y)) n s /\ Ky y X s
  /\ k_pid (sk (b_ks (y_s y)) s) <> 0 /\ e_probe e (k_pid (sk (b_ks (y_s y)) s)) (k_name (sk (b_ks (y_s y)) s)) <> 0.
Proof.
  intros B [[_ HP] _] n (c & s & Hx & H). destruct (by_wt _ _ B _ _ _ H) as ((A1 & A2 & A3 & A4) & _). split; [exact A1|]. exists s.
  pose proof (sk_open_lt _ _ A2) as L. split; [split; assumption|]. split; [exists c, n; auto|]. split; [exact A3|].
  intros E. apply HP in E. apply E. exists (sk (b_ks (y_s y)) s). split; [apply nth_In; exact L|auto].
Qed.

(** ** no new sockets, none opened *)
Definition RO (s s' : bks) : Prop := length (b_ks s') = length (b_ks s) /\ forall k, k_open (sk (b_ks s') k) = true -> k_open (sk (b_ks s) k) = true.
Lemma RO_refl s : RO s s. Proof. split; auto. Qed.
Lemma RO_trans a b c : RO a b -> RO b c -> RO a c. Proof. intros [A1 A2] [B1 B2]. split; [congruence|auto]. Qed.
Lemma RO_upd s k f : (k_open (f (sk (b_ks s) k)) = true -> k_open (sk (b_ks s) k) = true) -> RO s (s <| b_ks := sk_upd (b_ks s) k f |>).
Proof.
  intros H. split; [cbn; apply sk_upd_len|]. intros j. cbn [b_ks set]. change (b_ks (s <| b_ks := ?x |>)) with x. cbn.
  destruct (Nat.eq_dec j k) as [->|N]; [|rewrite sk_upd_other by exact N; auto].
  destruct (Nat.lt_ge_cases k (length (b_ks s))) as [L|L]; [rewrite sk_upd_same by exact L; exact H|]. rewrite sk_out by (rewrite sk_upd_len; exact L). discriminate.
Qed.
Lemma RO_ks s s' : b_ks s' = b_ks s -> RO s s'. Proof. intros E. split; [congruence|intros k; rewrite E; auto]. Qed.
Ltac rst := apply ea_at; let E := fresh "E" in intros ? ? ? E; cbv zeta in E;
  repeat match type of E with
  | (if ?b then _ else _) = Ok _ => destruct b
  | (match ?x with _ => _ end) = Ok _ => destruct x
  end; try discriminate E; apply ok_pair in E; destruct E as [<- <-];
  (split; [first [apply RO_ks; reflexivity|idtac]|]).
Lemma ro_prune e : forall m n, each RO (prune_p e m n).
Proof. induction m as [|m IH]; intros n; cbn [prune_p]; [constructor|]. rst; [apply IH|]. rst. rst. apply IH. Qed.
Lemma ro_sync e : forall m n cs, each RO (sync_p e m n cs).
Proof. induction m as [|m IH]; intros n cs; cbn [sync_p]; [constructor|]. rst; try (apply IH); try (apply ea_ret); rst; rst; apply IH. Qed.
Lemma ro_bw_sync e q cs : each RO (bw_sync_p e q cs).
Proof. unfold bw_sync_p. rst; [apply ea_ret|]. apply each_bind; [apply ro_sync|]. intros x. destruct (snd x); [|apply ea_ret]. rst. apply ea_ret. Qed.
Lemma ro_wake e : forall m n cs, each RO (wake_p e m n cs).
Proof.
  induction m as [|m IH]; intros n cs; cbn [wake_p]; [constructor|]. rst.
  - destruct (_ <? _); [apply RO_upd; cbn; auto|apply RO_refl].
  - apply IH.
  - rst. rst. apply IH.
  - apply IH.
Qed.
Lemma ro_bw_wake e x : each RO (bw_wake_p e x).
Proof.
  destruct x as [q cs|n s p]; cbn [bw_wake_p]; [|apply ea_at; discriminate]. apply each_bind; [apply ro_bw_sync|]. intros [[q' cs'] ok]. destruct ok; [|apply ea_ret].
  apply each_bind; [apply ro_wake|]. intros x. apply ea_ret.
Qed.
Lemma ro_open_wake e : each RO (bw_open_wake_p e).
Proof.
  unfold bw_open_wake_p. destruct (negb _); [constructor|]. apply each_bind; [apply ro_prune|]. intros _. apply each_bind; [apply ro_bw_sync|]. intros [[q cs] ok]. constructor.
Qed.
Lemma ro_force e x want : each RO (bw_force_p e x want).
Proof.
  destruct x as [q cs|n s p]; cbn [bw_force_p]; [apply ea_at; discriminate|]. destruct (negb _); [constructor|]. apply ea_at. intros t t' p' E. cbv zeta in E.
  apply ok_pair in E. destruct E as [<- <-]. split; [|constructor].
  destruct (_ && _); [apply RO_upd; cbn; auto|]. destruct (_ && _); [apply RO_upd; cbn; auto|apply RO_refl].
Qed.
Lemma ro_close x : each RO (bw_close_p x).
Proof. destruct x as [q cs|n s p]; cbn [bw_close_p]; [constructor|]. rst; [apply RO_upd; cbn; discriminate|]. rst. rst. constructor. Qed.
Lemma ro_ready x : each RO (bw_ready_p x).
Proof. destruct x as [q cs|n s p]; cbn [bw_ready_p]; [apply ea_at; discriminate|]. rst; [apply RO_upd; cbn; auto|constructor]. Qed.
Lemma ro_call e h x : each RO (call_p e h x).
Proof.
  destruct x; cbn [call_p].
  - apply each_bind; [apply ro_bw_wake|]. intros r. constructor.
  - apply each_bind; [apply ro_force|]. intros r. constructor.
  - apply each_bind; [apply ro_ready|]. intros r. constructor.
  - apply each_bind; [|intros r; constructor]. destruct h; cbn [bw_wait_p]; [apply ea_at; discriminate|]. rst. apply ro_ready.
  - apply each_bind; [|intros r; constructor]. destruct h; cbn [bw_other_p]; [apply ea_at; discriminate|]. rst. constructor.
  - destruct (bw_ctl h fd) as [[h' b]| | |]; [constructor| | |]; apply ea_at; discriminate.
  - apply each_bind; [apply ro_close|]. intros r. constructor.
Qed.
(** bw_open in wait mode adds sockets of the caller, which are closed if it fails *)
Definition RN (ks : socks) (pid : Z) (s : bks) : Prop := exists l, b_ks s = ks ++ l /\ Forall (fun k => k_pid k = pid) l.
Definition QN (ks : socks) (pid : Z) (o : option bwt) (s : bks) : Prop := exists l, b_ks s = ks ++ l /\ Forall (fun k => k_pid k = pid) l /\ (o = None -> Forall (fun k => k_open k = false) l).
Lemma same_prune e : forall m n, each (fun s s' => b_ks s' = b_ks s) (prune_p e m n).
Proof.
  induction m as [|m IH]; intros n; cbn [prune_p]; [constructor|]. apply ea_at. intros s s' p' E. destruct (_ || _); apply ok_pair in E; destruct E as [<- <-]; (split; [reflexivity|]); [apply IH|].
  apply ea_at. intros s1 s1' p1' E. apply ok_pair in E; destruct E as [<- <-]. split; [reflexivity|].
  apply ea_at. intros s2 s2' p2' E. apply ok_pair in E; destruct E as [<- <-]. split; [reflexivity|]. apply IH.
Qed.
Lemma ok_each {S A} (R : S -> S -> Prop) (p : prog S A) s : (forall s, R s s) -> (forall a b c, R a b -> R b c -> R a c) -> each R p -> ok p s (R s) (fun _ => R s).
Proof. intros Rr Rt H. apply (big_each R p Rr Rt H s). Qed.
Lemma ok_and {S A} (p : prog S A) s (I I' : S -> Prop) (Q Q' : A -> S -> Prop) : ok p s I Q -> ok p s I' Q' -> ok p s (fun t => I t /\ I' t) (fun x t => Q x t /\ Q' x t).
Proof. intros [A1 A2] [B1 B2]. split; intros; split; eauto. Qed.
Lemma ok_safe {S A} (p : prog S A) s (P I : S -> Prop) (Q : A -> S -> Prop) : safe P I Q p -> P s -> ok p s I Q.
Proof. intros H Hs. exact (H s Hs). Qed.
Lemma ok_new e pid name s : ok (bw_open_wait_p e pid name) s (RN (b_ks s) pid) (QN (b_ks s) pid).
Proof.
  set (ks := b_ks s). assert (R0 : forall t, b_ks t = ks -> RN ks pid t) by (intros t E; exists []; rewrite app_nil_r; auto).
  assert (Q0 : forall o t, b_ks t = ks -> QN ks pid o t) by (intros o t E; exists []; rewrite app_nil_r; auto).
  unfold bw_open_wait_p. destruct (negb _); [apply ok_ret, Q0; reflexivity|].
  eapply ok_bind. { eapply ok_weak; [| |apply (ok_each _ _ s (fun _ => eq_refl) (fun a b c H1 H2 => eq_trans H2 H1) (same_prune e BW_WAITMAX 0))]; [exact R0|intros x t H; exact H]. }
  intros u s1 E1. cbn beta in E1. apply ok_at; [apply R0, E1|]. intros s2 p2 E. destruct (find_free _ _) as [n|]; [|apply ok_pair in E; destruct E as [<- <-]; apply ok_ret, Q0, E1].
  destruct (if e_bind e then _ else _); apply ok_pair in E; destruct E as [<- <-]; [apply ok_ret, Q0, E1|]. set (x := mksock name pid true 0 _).
  assert (R1 : forall t, b_ks t = ks ++ [x] -> RN ks pid t) by (intros t Et; exists [x]; split; [exact Et|constructor; [reflexivity|constructor]]).
  assert (LN : length (b_ks s1) = length ks) by (rewrite E1; reflexivity).
  match goal with |- ok _ ?t _ _ => assert (K1 : b_ks t = ks ++ [x]) by (cbn; rewrite E1; reflexivity); revert K1; generalize t end. intros t1 K1.
  apply ok_at; [apply R1, K1|]. intros t2 p3 E. apply ok_pair in E; destruct E as [<- <-]. apply ok_at; [apply R1, K1|]. intros t2 p3 E. apply ok_pair in E; destruct E as [<- <-].
  apply ok_at; [apply R1, K1|]. intros t2 p3 E. apply ok_pair in E; destruct E as [<- <-]. destruct (e_self e).
  - apply ok_ret. exists [x]. split; [exact K1|]. split; [constructor; [reflexivity|constructor]|discriminate].
  - apply ok_at; [apply R1, K1|]. intros t2 p3 E. apply ok_pair in E; destruct E as [<- <-]. apply ok_at; [apply R1, K1|]. intros t2 p3 E. apply ok_pair in E; destruct E as [<- <-].
    apply ok_ret. exists [x <| k_open := false |>]. split; [|split; [constructor; [reflexivity|constructor]|intros _; constructor; [reflexivity|constructor]]].
    change (b_ks (set_pid (inc_seq (set_pid (set_name t1 n name) n pid)) n 0)) with (b_ks t1). cbn [b_ks set]. 
    match goal with |- ?a = _ => change a with (sk_upd (b_ks t1) (length (b_ks s1)) (fun x => x <| k_open := false |>)) end.
    rewrite K1, LN. unfold sk_upd. rewrite sk_app_last. clear. induction ks as [|k ks IH]; [reflexivity|]. cbn. rewrite IH. reflexivity.
Qed.

(** ** one call *)
Definition keeps_id (y : bsys) (home : Z -> bool -> nat -> Prop) (h : bwt) (o : option bwt) (s : bks) : Prop :=
  match o with
  | None => True
  | Some (Wait n k p') => exists p, h = Wait n k p
  | Some (Wake q cs) => (exists q0 cs0, h = Wake q0 cs0) /\ wkr (b_h (y_s y)) (Wy y everyone) q cs s /\ hconns home true (b_ks s) cs
  end.
Definition MidC (y : bsys) (home : Z -> bool -> nat -> Prop) (c : nat) (s : bks) : Prop := prot y (but c) (but c) s /\ Jb home true (b_ks (y_s y)) s.
Definition EndC (y : bsys) (home : Z -> bool -> nat -> Prop) (c : nat) (h : bwt) (r : option bwt * Z) (s : bks) : Prop :=
  MidC y home c s /\ (fst r <> None -> prot y everyone (but c) s) /\ keeps_id y home h (fst r) s.
Lemma but_all c c' : but c c' -> everyone c'. Proof. intros _. exact I. Qed.
Lemma Jb0 home y : BY home y -> Jb home true (b_ks (y_s y)) (y_s y).
Proof. intros B. split; [apply (by_home _ _ B)|apply kx_refl]. Qed.
Lemma not_L home y c n k p : BY home y -> bc_h (bcli y c) = Some (Wait n k p) -> ~ Ky y (but c) k.
Proof. intros B H (c' & n' & N & H'). apply N. symmetry. apply (by_own _ _ B c n k c' n'); [exists p; exact H|exact H']. Qed.
Lemma not_W home y c n k p : BY home y -> bc_h (bcli y c) = Some (Wait n k p) -> ~ Wy y (but c) n.
Proof. intros B H (c' & k' & N & H'). apply N. symmetry. apply (same_slot _ _ c n k c' k' B); [exists p; exact H|exact H']. Qed.
Lemma prot_all_mid y home c s : prot y everyone (but c) s -> Jb home true (b_ks (y_s y)) s -> MidC y home c s.
Proof. intros H J. split; [|exact J]. apply (prot_mono y everyone (but c) (but c) (but c)); auto. intros; exact I. Qed.

Section Call.
Variables (home : Z -> bool -> nat -> Prop) (y : bsys) (e : env) (c : nat) (h : bwt).
Hypothesis B : BY home y.
Hypothesis H0 : honest y e.
Hypothesis HC : bc_h (bcli y c) = Some h.
Let PA := prot y everyone (but c).
Let J := Jb home true (b_ks (y_s y)).
Lemma waiter_call {A} (p : prog bks A) (f : A -> Z) n k pl : h = Wait n k pl -> ok p (y_s y) PA (fun _ => PA) -> ok p (y_s y) J (fun _ => J) ->
  ok (run! r <- p; Ret (Some h, f r)) (y_s y) (MidC y home c) (EndC y home c h).
Proof.
  intros Eh H1 H2. eapply ok_bind; [eapply ok_weak; [| |apply (ok_and _ _ _ _ _ _ H1 H2)]; [|intros r s HH; exact HH]|].
  - intros s [X1 X2]. apply prot_all_mid; assumption.
  - intros r s [X1 X2]. apply ok_ret. split; [apply prot_all_mid; assumption|]. split; [intros _; exact X1|]. cbn [fst keeps_id]. rewrite Eh. eauto.
Qed.
Lemma wait_prot n k pl v : h = Wait n k pl -> 0 <= v -> forall s, PA s -> PA (s <| b_ks := sk_upd (b_ks s) k (fun x => x <| k_pend := v |>) |>).
Proof.
  intros Eh Hv s [G K]. split; [exact G|]. apply (kin_pend_upd (b_h (y_s y))); [apply (by_len _ _ B)| |exact Hv|exact K].
  rewrite Eh in HC. apply (not_L _ _ _ _ _ _ B HC).
Qed.
Lemma ready_ok : ok (run! v <- bw_ready_p h; Ret (Some h, v)) (y_s y) (MidC y home c) (EndC y home c h).
Proof.
  pose proof wait_prot as WP. destruct h as [q cs|n k pl] eqn:Eh.
  - cbn [bw_ready_p bindp]. apply ok_at; [|discriminate]. apply prot_all_mid; [apply (prot0 home); exact B|apply Jb0, B].
  - cbn [bw_ready_p bindp]. apply ok_at; [apply prot_all_mid; [apply (prot0 home); exact B|apply Jb0, B]|]. intros s p E. apply ok_pair in E; destruct E as [<- <-].
    cbn [bindp]. apply ok_ret.
    assert (PA ((y_s y) <| b_ks := bw_recv (b_ks (y_s y)) k |>)).
    { unfold bw_recv. rewrite (sk_upd_ext _ _ _ (fun x => x <| k_pend := Z.max 0 (k_pend (sk (b_ks (y_s y)) k) - 1) |>)) by reflexivity.
      apply (WP n k pl); [reflexivity|lia|]. apply (prot0 home), B. }
    assert (J ((y_s y) <| b_ks := bw_recv (b_ks (y_s y)) k |>)).
    { apply (Jb_upd home true (b_ks (y_s y)) (y_s y) k); [reflexivity|apply Jb0, B]. }
    split; [apply prot_all_mid; assumption|]. split; [auto|]. cbn. eauto.
Qed.
Lemma start_mid : MidC y home c (y_s y).
Proof. apply prot_all_mid; [apply (prot0 home); exact B|apply Jb0, B]. Qed.
Lemma force_ok want : ok (run! r <- bw_force_p e h want; Ret (Some h, code r)) (y_s y) (MidC y home c) (EndC y home c h).
Proof.
  pose proof start_mid as SM. pose proof (@waiter_call bool) as WC. destruct h as [q cs|n k pl] eqn:Eh.
  - cbn [bw_force_p bindp]. apply ok_at; [exact SM|discriminate].
  - apply (WC (bw_force_p e (Wait n k pl) want) code n k pl); [reflexivity| |].
    + apply (ok_safe _ _ PA PA); [|apply (prot0 home), B]. apply safe_force; [apply (by_len _ _ B)|]. apply (not_L _ _ _ _ _ _ B HC).
    + eapply ok_weak; [| |apply (ok_force e home true (b_ks (y_s y))); apply Jb0, B]; auto.
Qed.
Lemma wait_ok : ok (run! v <- bw_wait_p h; Ret (Some h, v)) (y_s y) (MidC y home c) (EndC y home c h).
Proof.
  pose proof start_mid as SM. pose proof ready_ok as RD. destruct h as [q cs|n k pl] eqn:Eh.
  - cbn [bw_wait_p bindp]. apply ok_at; [exact SM|discriminate].
  - cbn [bw_wait_p bindp]. apply ok_at; [exact SM|]. intros s p E. destruct (_ >? _); [|discriminate]. apply ok_pair in E; destruct E as [<- <-]. exact RD.
Qed.
Lemma other_ok fd : ok (run! v <- bw_other_p h fd; Ret (Some h, v)) (y_s y) (MidC y home c) (EndC y home c h).
Proof.
  pose proof start_mid as SM. destruct h as [q cs|n k pl] eqn:Eh; cbn [bw_other_p bindp]; (apply ok_at; [exact SM|]); [discriminate|].
  intros s p E. destruct (existsb _ _); [|discriminate]. apply ok_pair in E; destruct E as [<- <-]. cbn [bindp]. apply ok_ret. split; [exact SM|]. split; [intros _; apply (prot0 home), B|]. cbn. eauto.
Qed.
Lemma ctl_ok fd : ok (call_p e h (BcCtl fd)) (y_s y) (MidC y home c) (EndC y home c h).
Proof.
  pose proof start_mid as SM. destruct h as [q cs|n k pl] eqn:Eh; cbn [call_p bw_ctl]; [apply ok_at; [exact SM|discriminate]|].
  destruct (existsb _ _); (apply ok_ret; split; [exact SM|]; split; [intros _; apply (prot0 home), B|cbn; eauto]).
Qed.
Lemma close_ok : ok (run! _ <- bw_close_p h; Ret (None, 0)) (y_s y) (MidC y home c) (EndC y home c h).
Proof.
  assert (EN : forall s, MidC y home c s -> EndC y home c h (None, 0) s) by (intros s X; split; [exact X|]; split; [intros N; elim N; reflexivity|exact I]).
  pose proof start_mid as SM. eapply ok_bind; [|intros r s X; apply ok_ret, EN; exact X].
  destruct h as [q cs|n k pl] eqn:Eh; [apply ok_ret; exact SM|].
  apply (ok_and _ _ (prot y (but c) (but c)) J (fun _ => prot y (but c) (but c)) (fun _ => J)).
  - apply (ok_safe _ _ (prot y (but c) (but c)) (prot y (but c) (but c))); [|apply SM]. apply safe_close; [apply (by_len _ _ B)|apply (not_W _ _ _ _ _ _ B HC)|apply (not_L _ _ _ _ _ _ B HC)].
  - apply ok_close. apply Jb0, B.
Qed.
Lemma wake_ok' : ok (run! r <- bw_wake_p e h; Ret (Some (fst r), code (snd r))) (y_s y) (MidC y home c) (EndC y home c h).
Proof.
  pose proof start_mid as SM. destruct h as [q cs|n k pl] eqn:Eh; [|cbn [bw_wake_p bindp]; apply ok_at; [exact SM|discriminate]].
  destruct (by_wk _ _ B _ _ _ HC) as [WK HN].
  assert (S1 : ok (bw_wake_p e (Wake q cs)) (y_s y) PA (fun x s => PA s /\ exists q' cs', fst x = Wake q' cs' /\ wkr (b_h (y_s y)) (Wy y everyone) q' cs' s)).
  { eapply ok_weak; [| |apply (ok_safe _ _ _ _ _ (safe_wake e (b_h (y_s y)) (b_ks (y_s y)) (Wy y everyone) (Ky y everyone) (Ky y (but c)) (by_len _ _ B) (HW_ok _ _ _ _ B H0) (hs_send _ _ (proj1 H0)) q cs))].
    - intros s X. exact X.
    - intros x s (X & q' & cs' & E1 & E2 & _). split; [exact X|]. eauto.
    - split; [apply (prot0 home), B|exact WK]. }
  eapply ok_bind; [eapply ok_weak; [| |apply (ok_and _ _ _ _ _ _ S1 (ok_wake e home true (b_ks (y_s y)) (Wake q cs) (y_s y) (Jb0 _ _ B) HN))]|].
  - intros s [X1 X2]. apply prot_all_mid; assumption.
  - intros x s X. exact X.
  - intros r s ((X & q' & cs' & E1 & E2) & X2 & X3 & _). apply ok_ret. split; [apply prot_all_mid; assumption|]. split; [intros _; exact X|].
    cbn [fst keeps_id]. rewrite E1. split; [eauto|]. split; [exact E2|]. rewrite E1 in X3. exact X3.
Qed.
Theorem call_ok x : ok (call_p e h x) (y_s y) (fun s => MidC y home c s /\ RO (y_s y) s) (fun r s => EndC y home c h r s /\ RO (y_s y) s).
Proof.
  apply ok_and; [|apply ok_each; [apply RO_refl|apply RO_trans|apply ro_call]].
  destruct x; cbn [call_p]; [apply wake_ok'|apply force_ok|apply ready_ok|apply wait_ok|apply other_ok|apply ctl_ok|apply close_ok].
Qed.
End Call.

(** ** bw_open *)
Definition MidO (y : bsys) (home : Z -> bool -> nat -> Prop) (pid : Z) (s : bks) : Prop :=
  prot y everyone everyone s /\ (exists home', hext home home' /\ unique home' /\ named home' (b_ks s) /\ hslots home' true (b_h s)) /\ RN (b_ks (y_s y)) pid s.
Definition EndO (y : bsys) (home : Z -> bool -> nat -> Prop) (e : env) (pid : Z) (o : option bwt) (s : bks) : Prop :=
  MidO y home pid s /\ QN (b_ks (y_s y)) pid o s
  /\ match o with
     | None => True
     | Some (Wait n k p) => opened e (b_h (y_s y)) (b_ks (y_s y)) (Wy y everyone) pid (e_name e) o s
     | Some (Wake q cs) => wkr (b_h (y_s y)) (Wy y everyone) q cs s /\ hconns home true (b_ks s) cs
     end.
Lemma sk_new_name ks name : (forall k, In k ks -> k_name k <> name) -> forall s, (s < length ks)%nat -> k_name (sk ks s) <> name.
Proof. intros H s L. apply H. apply nth_In. exact L. Qed.
Theorem open_ok home y e wait pid : BY home y -> honest y e -> ok (open_p e wait pid) (y_s y) (MidO y home pid) (EndO y home e pid).
Proof.
  intros B H0. pose proof (by_home _ _ B) as (U & N & HS). pose proof (HW_ok _ _ _ everyone B H0) as HW.
  assert (KL : forall s, Ky y everyone s -> (s < length (b_ks (y_s y)))%nat) by (intros s; apply (Ky_lt _ _ _ _ B)).
  assert (SK : forall s, (s < length (b_ks (y_s y)))%nat -> k_name (sk (b_ks (y_s y)) s) <> e_name e) by (apply sk_new_name, (proj2 H0)).
  destruct wait; cbn [open_p].
  - pose proof (ok_safe _ (y_s y) _ _ _ (safe_open_wait e _ _ (Wy y everyone) (Ky y everyone) (Ky y everyone) (by_len _ _ B) HW KL KL pid (e_name e) SK) (conj (prot0 home y everyone everyone B) eq_refl)) as S1.
    assert (JK : Jk home true (b_ks (y_s y)) (y_s y)) by (split; [exact HS|reflexivity]).
    pose proof (ok_open_wait e home true _ pid (e_name e) U N SK (y_s y) JK) as S2.
    eapply ok_weak; [| |apply (ok_and _ _ _ _ _ _ (ok_and _ _ _ _ _ _ S1 S2) (ok_new e pid (e_name e) (y_s y)))].
    + intros s ((X1 & home' & X2 & X3 & X4 & X5 & _) & X6). split; [exact X1|]. split; [exists home'; auto|exact X6].
    + intros o s (((X1 & _ & X2) & (home' & Y2 & Y3 & Y4 & Y5 & _) & Y6) & l & Z1 & Z2 & Z3). split; [split; [exact X1|]; split; [exists home'; auto|exists l; auto]|].
      split; [exists l; auto|]. destruct o as [[q cs|n k p]|]; [|exact X2|exact I]. destruct (Y6 _ eq_refl) as (n & sid & E & _). discriminate.
  - pose proof (ok_safe _ (y_s y) _ _ _ (safe_open_wake e _ _ (Wy y everyone) (Ky y everyone) (Ky y everyone) (by_len _ _ B) HW (b_ks (y_s y)) (by_seq _ _ B)) (conj (prot0 home y everyone everyone B) eq_refl)) as S1.
    assert (JK : Jk home true (b_ks (y_s y)) (y_s y)) by (split; [exact HS|reflexivity]).
    pose proof (ok_open_wake e home true _ _ JK) as S2.
    assert (RR : forall s, b_ks s = b_ks (y_s y) -> RN (b_ks (y_s y)) pid s) by (intros s E; exists []; rewrite app_nil_r; auto).
    eapply ok_weak; [| |apply (ok_and _ _ _ _ _ _ S1 S2)].
    + intros s (X1 & X2 & X3). split; [exact X1|]. split; [|apply RR, X3]. exists home. rewrite X3. unfold hext. auto.
    + intros o s ((X1 & X2 & X3) & (X4 & _) & X5). split; [split; [exact X1|]; split; [exists home; rewrite X2; unfold hext; auto|apply RR, X2]|].
      split; [exists []; rewrite app_nil_r; auto|]. destruct o as [[q cs|n k p]|]; [| |exact I].
      * destruct (X3 _ eq_refl) as (q' & cs' & E & W). injection E as <- <-. split; [exact W|]. rewrite X2. apply (proj1 (X5 _ eq_refl)).
      * destruct (X3 _ eq_refl) as (q' & cs' & E & _). discriminate.
Qed.
