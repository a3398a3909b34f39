(** * Fair executions *)
From Verif Require Export FairSpec Live.

Lemma until (P Q : nat -> Prop) : (forall i, P i -> Q i \/ P (S i)) -> forall n i, P i ->
  (exists k, (i <= k < i + n)%nat /\ Q k) \/ P (i + n)%nat.
Proof.
  intros H. induction n as [|n IH]; intros i Pi; [right; rewrite Nat.add_0_r; exact Pi|].
  destruct (H i Pi) as [Qi|Pi']; [left; exists i; split; [lia|exact Qi]|].
  destruct (IH (S i) Pi') as [(k & Hk & Qk)|Pk]; [left; exists k; split; [lia|exact Qk]|right].
  replace (i + S n)%nat with (S i + n)%nat by lia. exact Pk.
Qed.

Lemma rets_ends c rs evs x : pending c evs = Some x -> ends c (rets c rs) \/ (rs = [] /\ pending c (evs ++ rets c rs) = Some x).
Proof.
  intros Pd. destruct rs as [|y rs]; [right; split; [reflexivity|rewrite app_nil_r; exact Pd]|left; left]. exists y. left. reflexivity.
Qed.
Lemma ends_cons c e ev : ends c ev -> ends c (e :: ev).
Proof. intros [[x H]|H]; [left; exists x; right; exact H|right; right; exact H]. Qed.
(** ** one step, seen from a client inside a call *)
Lemma in_call_WI w0 w evs a w' ev c x : WI w0 w evs -> PI w evs -> contract w a -> step w a = Ok (w', ev) -> pending c evs = Some x ->
  ends c ev
  \/ (pending c (evs ++ ev) = Some x /\
      ((cli w' c = cli w c /\ (actor a = Some c -> w' = w))
       \/ (a = AWake c /\ asleep w c = true /\ cli w' c = resume (cli w c) /\ w_ring w' = w_ring w)
       \/ (exists e, a = ARun c e /\ asleep w c = false)
       \/ (asleep w c = true /\ c_pc (cli w' c) = RunClose))).
Proof.
  intros W HP HC HS Pd.
  pose proof (pend_live _ _ _ _ _ W HP Pd) as L. pose proof (live_bound _ _ L) as LB.
  assert (HA : actor a = Some c \/ actor a <> Some c).
  { destruct (actor a) as [c1|]; [|right; discriminate]. destruct (Nat.eq_dec c1 c) as [->|N]; [left; reflexivity|right; congruence]. }
  destruct HA as [HA|HA].
  2: { right. destruct (step_other _ _ _ _ _ _ _ W HC HS HA LB) as (E & P & _). split; [rewrite P; exact Pd|left; split; [exact E|intros Q; contradiction]]. }
  assert (NI : c_pc (cli w c) <> Idle) by (intros E; specialize (HP c); rewrite E, Pd in HP; discriminate).
  destruct a as [e fl pid|c1 y|c1 e|c1|c1|c1 fd|c1]; cbn [actor] in HA; try discriminate HA; injection HA as ->.
  - cbn [step] in HS. rewrite L in HS. cbn [negb] in HS. right.
    assert (Q : w' = w /\ ev = []) by (destruct (c_pc (cli w c)); try contradiction; inj HS; auto). destruct Q as [-> ->]. rewrite app_nil_r. auto.
  - destruct (asleep w c) eqn:A.
    { right. cbn [step] in HS. rewrite L in HS. unfold run_client in HS. unfold asleep in A. destruct (c_pc (cli w c)); try discriminate A; inj HS; rewrite app_nil_r; auto. }
    apply step_inv in HS. inversion HS; subst; rewrite ?app_nil_r; try (match goal with H : ARun _ _ = _ /\ _ \/ _ |- _ => destruct H as [[? _]|[[? ?] _]]; discriminate end); eauto 8;
      try (left; left; eexists; left; reflexivity).
    + destruct (rets_ends c rs evs x Pd) as [E|[_ E]]; eauto 8.
    + change (ECommit c iov :: rets c rs) with ([ECommit c iov] ++ rets c rs). rewrite app_assoc.
      destruct (rets_ends c rs (evs ++ [ECommit c iov]) x) as [E|[_ E]]; eauto 8.
      * rewrite pending_app. exact Pd.
      * left. apply ends_cons. exact E.
    + destruct (rets_ends c rs evs x Pd) as [E|[_ E]]; eauto 8.
  - right. apply step_inv in HS. inversion HS; subst; rewrite ?app_nil_r; auto; try (match goal with H : _ /\ _ \/ _ |- _ => destruct H as [[? _]|[[? ?] _]]; discriminate end).
    split; [exact Pd|]. right. left. split; [reflexivity|]. split.
    + unfold asleep. unfold wait_sid in H0. destruct (c_pc (cli w c)); try discriminate H0; reflexivity.
    + split; [apply cli_setc_same; exact LB|reflexivity].
  - cbn [step] in HS. unfold wait_failed in HS. destruct (c_pc (cli w c)) as [ |k iov len nb|k iov len nb|? ?|? ?| | |?|g0 s0 z0] eqn:Epc; try (inj HS; rewrite app_nil_r; auto; fail).
    + apply obind_ok in HS. destruct HS as ([cl rs] & E & HS). injection HS as <- <-. destruct k; cbn [end_write Z.leb Z.compare Z.gtb] in E; injection E as <- <-;
        try (left; left; eexists; left; reflexivity). right. rewrite app_nil_r. split; [exact Pd|]. right. right. right. split; [unfold asleep; rewrite Epc; reflexivity|].
      rewrite cli_setc_same by exact LB. reflexivity.
    + inj HS. left. left. eexists. left. reflexivity.
  - cbn [step] in HS. destruct (wait_sid (cli w c)) as [[s p]|]; [|inj HS; rewrite app_nil_r; auto]. destruct (existsb _ p); [|inj HS; rewrite app_nil_r; auto].
    unfold wait_failed in HS. destruct (c_pc (cli w c)) as [ |k iov len nb|k iov len nb|? ?|? ?| | |?|g0 s0 z0] eqn:Epc; try (inj HS; rewrite app_nil_r; auto; fail).
    + apply obind_ok in HS. destruct HS as ([cl rs] & E & HS). injection HS as <- <-. destruct k; cbn [end_write Z.leb Z.compare Z.gtb] in E; injection E as <- <-;
        try (left; left; eexists; left; reflexivity). right. rewrite app_nil_r. split; [exact Pd|]. right. right. right. split; [unfold asleep; rewrite Epc; reflexivity|].
      rewrite cli_setc_same by exact LB. reflexivity.
    + inj HS. left. left. eexists. left. reflexivity.
  - cbn [step] in HS. rewrite L in HS. cbn [negb] in HS. inj HS. left. right. left. reflexivity.
Qed.

Lemma in_call r w evs a w' ev c x : reach contract r w evs -> contract w a -> step w a = Ok (w', ev) -> pending c evs = Some x ->
  ends c ev
  \/ (pending c (evs ++ ev) = Some x /\
      (cli w' c = cli w c
       \/ (a = AWake c /\ asleep w c = true /\ cli w' c = resume (cli w c) /\ w_ring w' = w_ring w)
       \/ (exists e, a = ARun c e /\ asleep w c = false)
       \/ (asleep w c = true /\ c_pc (cli w' c) = RunClose))).
Proof.
  intros R HC HS Pd. destruct (reach_inv _ _ _ _ id_contract R) as (fsz & F & X & B & W & HP & HB & _). destruct (in_call_WI _ _ _ _ _ _ _ _ W HP HC HS Pd) as [E|(P & [[E _]|E])]; auto.
Qed.

Lemma writing_resume w w' c : cli w' c = resume (cli w c) -> adding w' c = adding w c.
Proof. intros E. unfold adding. rewrite E. unfold resume. destruct (c_pc (cli w c)) eqn:H; cbn; rewrite ?H; reflexivity. Qed.
Lemma commit_run w a w' ev c ms : step w a = Ok (w', ev) -> In (ECommit c ms) ev -> exists e k len nb, a = ARun c e /\ c_live (cli w c) = true /\ c_pc (cli w c) = RunW k ms len nb.
Proof.
  intros HS HI. apply step_inv in HS.
  assert (NR : forall c0 rs, ~ In (ECommit c ms) (rets c0 rs)) by (intros c0 rs H; unfold rets in H; apply in_map_iff in H; destruct H as (? & H & _); discriminate).
  inversion HS; subst; try (elim (NR _ _ HI)); try (destruct HI as [HI|HI]; [discriminate|]); try (elim (NR _ _ HI)); try (destruct HI as [HI|[]]; discriminate); try destruct HI as [].
  - match goal with Q : ECommit _ _ = ECommit _ _ |- _ => injection Q as -> -> end. eauto 8.
  - match goal with Q : In _ (rets _ _) |- _ => elim (NR _ _ Q) end.
Qed.

(** ** what stays available, and what room stays *)
Lemma taken_pos r h niov len av : Inv r h -> (exists pre, ring_retained r = pre ++ av) -> take_fit niov len av <> [] -> 0 < nbytes (take_fit niov len av).
Proof.
  intros I [pre E] N. destruct (take_fit niov len av) as [|m t] eqn:T; [contradiction|].
  assert (HI : In m (ring_retained r)).
  { rewrite E. apply in_or_app. right. destruct (take_fit_prefix niov len av) as [rest TL]. rewrite TL, T. left. reflexivity. }
  pose proof (i_inv0 _ _ I) as I0. rewrite (retained_eq _ _ I0) in HI. unfold lastn in HI. assert (HI' : In m h) by (rewrite <- (firstn_skipn (Z.to_nat (zlen h - r_mp r)) h); apply in_or_app; right; exact HI).
  pose proof (w_ne _ _ _ (i_win _ _ I0)) as NE. unfold nonempty in NE. rewrite Forall_forall in NE. specialize (NE _ HI').
  unfold nbytes. cbn [concat]. rewrite zlen_app. pose proof (zlen_nonneg (concat t)). lia.
Qed.
Lemma zlen_retained r h : Inv0 r h -> zlen (ring_retained r) = r_mp r.
Proof. intros I. rewrite (retained_eq _ _ I). apply zlen_lastn. pose proof (w_old _ _ _ (i_win _ _ I)). pose proof (i_m _ _ I). lia. Qed.
Lemma zlen_0_nil {A} (l : list A) : zlen l = 0 -> l = [].
Proof. destruct l; [reflexivity|]. unfold zlen. cbn [length]. lia. Qed.
Lemma avail_keep g r r' h ev q : Inv r h -> Inv r' (h ++ committed ev) -> r_farm r' = r_farm r ->
  (r_farm r = true -> zlen (h ++ committed ev) < W64 /\ 0 <= q <= zlen h) -> effect g r h ev r' -> available r q <> [] ->
  available r' q <> [] \/ (r_farm r = false /\ (exists c v b io, In (ERet c (RetRead v b io)) ev /\ 0 < v) /\ (length (ring_unread r') < length (ring_unread r))%nat).
Proof.
  intros I I' HF HB EF NA. destruct (r_farm r) eqn:Hf.
  - left. intros E. apply NA. destruct (HB eq_refl) as [B1 B2]. rewrite zlen_app in B1. pose proof (zlen_nonneg (committed ev)) as NN.
    apply (avail_end _ _ _ I); [intros _; lia|]. apply (avail_end _ _ _ I') in E; [|intros _; rewrite zlen_app; lia]. rewrite HF in E. rewrite Hf.
    pose proof (i_inv0 _ _ I) as I0. pose proof (i_inv0 _ _ I') as I0'.
    pose proof (zlen_retained _ _ I0) as Z1. pose proof (zlen_retained _ _ I0') as Z2. rewrite zlen_app in E.
    destruct E as [E|E]; [left; lia|]. right. rewrite E in Z2. apply zlen_0_nil in Z2.
    destruct EF as [ev r' D1 D2 D3 U RT _|c v so t r' U RT _ _ _ _|c iov0 rs dropped wok r' D1 D2 D3 D4 D5 D6 U RT _|c v buf iov0 av len niov r' D1 D2 D3 taken D4 D5 D6 U RT _].
    4: rewrite RT in Z2. 1-2: rewrite RT in Z2. 3: rewrite RT in Z2; apply app_eq_nil in Z2; destruct Z2 as [_ ->]; destruct D4 as [D4 _]; contradiction.
    all: rewrite Z2 in Z1; exact (eq_sym Z1).
  - unfold available in NA |- *. rewrite HF, Hf in *.
    destruct EF as [ev r' D1 D2 D3 U RT _|c v so t r' U RT _ _ _ _|c iov0 rs dropped wok r' D1 D2 D3 D4 D5 D6 U RT _|c v buf iov0 av len niov r' D1 D2 D3 taken D4 D5 D6 U RT _].
    + rewrite U. auto.
    + rewrite U. auto.
    + left. rewrite U. intros E. apply app_eq_nil in E. destruct E as [_ ->]. destruct D4 as [D4 _]. contradiction.
    + rewrite U, Hf. destruct taken as [|m t] eqn:T; [left; exact NA|]. right. split; [reflexivity|]. split.
      * exists c, v, buf, iov0. split; [left; reflexivity|]. rewrite D5. subst taken. rewrite <- T. apply (taken_pos _ _ _ _ _ I D2). rewrite T. discriminate.
      * rewrite skipn_length. pose proof (zlen_nonneg t). unfold zlen. cbn [length]. destruct (ring_unread r); [contradiction|]. cbn [length]. lia.
Qed.
Lemma room_keep g r r' h ev iov : Inv r h -> r_n r' = r_n r -> r_mm r' = r_mm r -> effect g r h ev r' ->
  room (r_n r) (r_mm r) iov (ring_unread r) = true -> room (r_n r') (r_mm r') iov (ring_unread r') = true \/ exists c ms, In (ECommit c ms) ev.
Proof.
  intros I -> -> EF H. destruct EF as [ev r' D1 D2 D3 U RT _|c v so t r' U RT _ _ _ _|c iov0 rs dropped wok r' D1 D2 D3 D4 D5 D6 U RT _|c v buf iov0 av len niov r' D1 D2 D3 taken D4 D5 D6 U RT _].
  - rewrite U. auto.
  - rewrite U. auto.
  - right. exists c, iov0. left. reflexivity.
  - left. rewrite U. destruct (r_farm r); [exact H|]. apply room_iff in H. apply room_iff.
    pose proof (f_equal nbytes (firstn_skipn (Z.to_nat (zlen taken)) (ring_unread r))) as E1. rewrite nbytes_app in E1.
    pose proof (f_equal (@zlen _) (firstn_skipn (Z.to_nat (zlen taken)) (ring_unread r))) as E2. rewrite zlen_app in E2.
    assert (0 <= nbytes (firstn (Z.to_nat (zlen taken)) (ring_unread r))) by apply zlen_nonneg. pose proof (zlen_nonneg (firstn (Z.to_nat (zlen taken)) (ring_unread r))). lia.
Qed.

(** ** infinite executions *)
Section Run.
Variables (r : ring) (W : nat -> world) (A : nat -> action) (V : nat -> list event).
Hypothesis FV : forever steady r W A V.

Lemma fv_reach i : reach steady r (W i) (upto V i).
Proof.
  destruct (fv_start _ _ _ _ _ FV) as (fsz & F & E). exists fsz. split; [exact F|]. split; [|apply (fv_bound _ _ _ _ _ FV)].
  induction i as [|i IH]; [rewrite E; constructor|]. cbn [upto]. econstructor; [exact IH|apply (fv_act _ _ _ _ _ FV)|apply (fv_step _ _ _ _ _ FV)].
Qed.
Lemma fv_contract i : reach contract r (W i) (upto V i).
Proof. apply (reach_sub _ _ _ _ _ steady_contract). apply fv_reach. Qed.
Definition II i := Inv (w_ring (W i)) (committed (upto V i)).
Lemma fv_facts i : II i /\ PI (W i) (upto V i) /\ seq_bound (w_ring (W i)) (upto V i) /\ r_farm (w_ring (W i)) = r_farm r
  /\ (forall c, c_live (cli (W i) c) = true -> r_farm r = true -> 0 <= c_q (cli (W i) c) <= zlen (committed (upto V i)))
  /\ r_n (w_ring (W (S i))) = r_n (w_ring (W i)) /\ r_mm (w_ring (W (S i))) = r_mm (w_ring (W i))
  /\ effect (good_env (W i) (A i)) (w_ring (W i)) (committed (upto V i)) (V i) (w_ring (W (S i))).
Proof.
  destruct (reach_inv _ _ _ _ steady_contract (fv_reach i)) as (fsz & F & X & B & WW & HP & HB & EF & ED).
  destruct (reach_inv _ _ _ _ steady_contract (fv_reach (S i))) as (fsz' & F' & X' & B' & WW' & _).
  split; [apply (wi_ring _ _ _ WW)|]. split; [exact HP|]. split; [exact HB|]. split; [exact EF|]. split.
  { intros c L Hf. destruct (wi_cl _ _ _ WW c L) as [ms C]. rewrite <- EF in Hf. apply (CI_qok _ _ _ _ C HB Hf). }
  destruct (wi_dims _ _ _ WW) as (A1 & A2 & A3 & A4 & A5 & A6), (wi_dims _ _ _ WW') as (B1 & B2 & B3 & B4 & B5 & B6). cbn in *.
  split; [congruence|]. split; [congruence|].
  apply (step_effect _ _ _ (A i) _ _ WW); auto.
  - apply steady_contract. apply (fv_act _ _ _ _ _ FV).
  - apply (fv_step _ _ _ _ _ FV).
Qed.
Definition avail i c := available (w_ring (W i)) (c_q (cli (W i) c)).
Definition shrunk i := (length (ring_unread (w_ring (W (S i)))) < length (ring_unread (w_ring (W i))))%nat.
Lemma fv_live i c x : pending c (upto V i) = Some x -> c_live (cli (W i) c) = true.
Proof.
  intros P. destruct (reach_inv _ _ _ _ steady_contract (fv_reach i)) as (fsz & F & X & B & WW & HP & _). apply (pend_live _ _ _ _ _ WW HP P).
Qed.
Lemma fv_avail i c : c_live (cli (W i) c) = true -> c_q (cli (W (S i)) c) = c_q (cli (W i) c) -> avail i c <> [] ->
  avail (S i) c <> [] \/ (r_farm r = false /\ (exists c' v b io, In (ERet c' (RetRead v b io)) (V i) /\ 0 < v) /\ shrunk i).
Proof.
  intros L E NA. unfold avail. rewrite E. destruct (fv_facts i) as (J & HP & HB & EF & HQ & _ & _ & EE). destruct (fv_facts (S i)) as (J' & _ & HB' & EF' & _).
  unfold II in *. cbn [upto] in J', HB'. rewrite committed_app in J'.
  rewrite <- EF in HQ |- *. apply (avail_keep (good_env (W i) (A i)) _ _ _ _ _ J J' (eq_trans EF' (eq_sym EF))); [|exact EE|exact NA].
  intros Hf. split; [|apply (HQ c L Hf)]. rewrite <- committed_app. apply HB'. congruence.
Qed.
Lemma fv_in_call i c x : pending c (upto V i) = Some x ->
  ends c (V i) \/ (pending c (upto V (S i)) = Some x /\
      (cli (W (S i)) c = cli (W i) c
       \/ (A i = AWake c /\ asleep (W i) c = true /\ cli (W (S i)) c = resume (cli (W i) c) /\ w_ring (W (S i)) = w_ring (W i))
       \/ (exists e, A i = ARun c e /\ asleep (W i) c = false)
       \/ (asleep (W i) c = true /\ c_pc (cli (W (S i)) c) = RunClose))).
Proof.
  intros P. apply (in_call r _ _ (A i)); [apply fv_contract|apply steady_contract; apply (fv_act _ _ _ _ _ FV)|apply (fv_step _ _ _ _ _ FV)|exact P].
Qed.

(** *** reading *)
Definition rp c buf niov i := pending c (upto V i) = Some (CRead buf niov) /\ avail i c <> [].
Definition rq c i := ends c (V i) \/ (r_farm r = false /\ taken_by_other c (V i) /\ shrunk i).
Lemma other_takes i c : (r_farm r = false /\ (exists c' v b io, In (ERet c' (RetRead v b io)) (V i) /\ 0 < v) /\ shrunk i) -> rq c i.
Proof.
  intros (Hf & (c' & v & b & io & HI & Hv) & SH). destruct (Nat.eq_dec c' c) as [->|N]; [left; left; eauto|]. right. split; [exact Hf|]. split; [exists c', v, b, io; auto|exact SH].
Qed.
Lemma rp_step c buf niov i : rp c buf niov i -> rq c i \/
  (rp c buf niov (S i) /\ (asleep (W i) c = false -> asleep (W (S i)) c = false /\ forall e, A i <> ARun c e)
    /\ (A i = AWake c -> asleep (W (S i)) c = false)).
Proof.
  intros [Pd NA]. pose proof (fv_live _ _ _ Pd) as L.
  destruct (fv_in_call i c _ Pd) as [E|(Pd' & D)]; [left; left; exact E|].
  assert (RUN : forall e, A i = ARun c e -> asleep (W i) c = false -> rq c i).
  { intros e Ea As. left. destruct (reach_inv _ _ _ _ steady_contract (fv_reach i)) as (fsz & F & X & B & WW & HP & HB & EF & _).
    pose proof (fv_step _ _ _ _ _ FV i) as HS. rewrite Ea in HS. destruct (e_lock e) eqn:He.
    - destruct (read_step _ _ _ _ _ _ _ _ _ WW HP HB Pd As HS He) as (_ & _ & _ & _ & _ & _ & [(EA & _)|(_ & _ & _ & ->)]); [contradiction|].
      left. eexists. left. reflexivity.
    - pose proof (run_pc _ _ _ _ _ HP Pd As) as Hpc. cbn [step] in HS. rewrite L in HS. unfold run_client, crit_read in HS. rewrite Hpc, He in HS. cbn in HS. injection HS as _ <-.
      left. eexists. left. reflexivity. }
  assert (AW : A i = AWake c -> asleep (W (S i)) c = false).
  { intros Ea. destruct (asleep (W i) c) eqn:As.
    - destruct (f_reader_wakes _ _ _ _ _ _ (fv_reach i) Pd As NA) as (w1 & S1 & S2 & _). pose proof (fv_step _ _ _ _ _ FV i) as HS. rewrite Ea in HS. rewrite HS in S1. injection S1 as <- _. exact S2.
    - destruct D as [E|[(_ & E & _)|[(e & E & _)|(E & _)]]]; try congruence. unfold asleep. rewrite E. exact As. }
  destruct D as [E|[(Ea & As & E & Er)|[(e & Ea & As)|(As & E)]]].
  - assert (EQ : c_q (cli (W (S i)) c) = c_q (cli (W i) c)) by (rewrite E; reflexivity). destruct (fv_avail i c L EQ NA) as [Q|Q]; [|left; apply other_takes; exact Q].
    destruct (asleep (W i) c) eqn:As.
    + right. split; [split; assumption|]. split; [discriminate|exact AW].
    + destruct (A i) as [| |c1 e1| | | |] eqn:Ea;
        try (right; split; [split; assumption|]; split; [intros _; split; [unfold asleep in *; rewrite E; exact As|discriminate]|exact AW]).
      destruct (Nat.eq_dec c1 c) as [->|N]; [left; apply (RUN e1); reflexivity|].
      right. split; [split; assumption|]. split; [intros _; split; [unfold asleep in *; rewrite E; exact As|congruence]|exact AW].
  - right. split; [split; [exact Pd'|]|split; [congruence|exact AW]]. unfold avail. rewrite Er, E. unfold resume. destruct (c_pc (cli (W i) c)); exact NA.
  - left. apply (RUN e); assumption.
  - exfalso. destruct (fv_facts (S i)) as (_ & HP & _). specialize (HP c). rewrite E, Pd' in HP. cbn in HP. discriminate.
Qed.

Lemma l_awake c buf niov i : fair W A V c -> rp c buf niov i -> asleep (W i) c = false ->
  exists j, (i <= j)%nat /\ rp c buf niov j /\ asleep (W j) c = false /\ rq c j.
Proof.
  intros [F1 F2] R As. destruct (F1 i) as (j & Hj & D).
  destruct (until (fun k => rp c buf niov k /\ asleep (W k) c = false) (fun k => rp c buf niov k /\ asleep (W k) c = false /\ rq c k)) with (n := (j - i)%nat) (i := i) as [(k & Hk & Q)|[Rj Aj]].
  - intros k [Rk Ak]. destruct (rp_step _ _ _ _ Rk) as [Q|(R' & A' & _)]; [left; auto|right]. split; [exact R'|apply A'; exact Ak].
  - split; assumption.
  - exists k. split; [lia|exact Q].
  - replace (i + (j - i))%nat with j in * by lia. destruct D as [D|[D|(e & D & _)]].
    + destruct Rj as [Rj _]. congruence.
    + congruence.
    + destruct (rp_step _ _ _ _ Rj) as [Q|(_ & A' & _)]; [exists j; auto|]. destruct (A' Aj) as [_ Q]. elim (Q e D).
Qed.
Lemma l_read c buf niov i : fair W A V c -> rp c buf niov i -> exists j, (i <= j)%nat /\ rp c buf niov j /\ rq c j.
Proof.
  intros F R. destruct (asleep (W i) c) eqn:As.
  2: { destruct (l_awake _ _ _ _ F R As) as (j & H1 & H2 & _ & H3). eauto. }
  pose proof F as [F1 F2]. destruct (F2 i) as (j & Hj & D).
  assert (AWAKE : forall k, (i <= k)%nat -> rp c buf niov k -> asleep (W k) c = false -> exists j, (i <= j)%nat /\ rp c buf niov j /\ rq c j).
  { intros k Hk Rk Ak. destruct (l_awake _ _ _ _ F Rk Ak) as (j' & H1 & H2 & _ & H3). exists j'. split; [lia|auto]. }
  destruct (until (fun k => rp c buf niov k /\ asleep (W k) c = true) (fun k => (rp c buf niov k /\ rq c k) \/ (rp c buf niov (S k) /\ asleep (W (S k)) c = false))) with (n := (j - i)%nat) (i := i) as [(k & Hk & [Q|[Q1 Q2]])|[Rj Aj]].
  - intros k [Rk Ak]. destruct (rp_step _ _ _ _ Rk) as [Q|(R' & _ & _)]; [left; left; auto|]. destruct (asleep (W (S k)) c) eqn:As'; [right; auto|left; right; auto].
  - split; assumption.
  - exists k. split; [lia|exact Q].
  - apply (AWAKE (S k)); [lia|assumption|assumption].
  - replace (i + (j - i))%nat with j in * by lia. destruct D as [D|[D|D]]; [congruence| |].
    + exfalso. destruct Rj as [Pj NAj]. destruct (f_reader_wakes _ _ _ _ _ _ (fv_reach j) Pj Aj NAj) as (w1 & S1 & S2 & _).
      cbn [step] in S1. destruct (wait_sid (cli (W j) c)) as [[s p]|] eqn:Ws.
      * specialize (D s p eq_refl). unfold readable in D. destruct (Z.gtb_spec (k_pend (sk (w_ks (W j)) s)) 0); [apply D; lia|]. injection S1 as <-. congruence.
      * injection S1 as <-. congruence.
    + destruct (rp_step _ _ _ _ Rj) as [Q|(R' & _ & AW)]; [exists j; auto|]. apply (AWAKE (S j)); [lia|exact R'|exact (AW D)].
Qed.
Lemma l_reader c buf niov i : fair W A V c -> pending c (upto V i) = Some (CRead buf niov) -> available (w_ring (W i)) (c_q (cli (W i) c)) <> [] ->
  exists j, (i <= j)%nat /\ (ends c (V j) \/ (r_farm r = false /\ taken_by_other c (V j))).
Proof.
  intros F Pd NA. destruct (l_read c buf niov i F (conj Pd NA)) as (j & Hj & _ & [Q|(Q1 & Q2 & _)]); exists j; auto.
Qed.

(** *** turns *)
Lemma l_turn c x i : fair W A V c -> pending c (upto V i) = Some x -> asleep (W i) c = false ->
  exists j, (i <= j)%nat /\ (ends c (V j) \/ (pending c (upto V j) = Some x /\ cli (W j) c = cli (W i) c /\ exists e, A j = ARun c e)).
Proof.
  intros [F1 _] Pd As. destruct (F1 i) as (j & Hj & D).
  set (Q k := ends c (V k) \/ (pending c (upto V k) = Some x /\ cli (W k) c = cli (W i) c /\ exists e, A k = ARun c e)).
  destruct (until (fun k => pending c (upto V k) = Some x /\ cli (W k) c = cli (W i) c) Q) with (n := (j - i)%nat) (i := i) as [(k & Hk & q)|[Pj Ej]].
  - intros k [Pk Ek]. unfold Q. assert (Ak : asleep (W k) c = false) by (unfold asleep in *; rewrite Ek; exact As).
    destruct (fv_in_call k c x Pk) as [E|(P' & [E|[(_ & E & _)|[(e & E & _)|(E & _)]]])]; try congruence; [left; left; exact E|right; split; [exact P'|congruence]|left; right; eauto].
  - split; [exact Pd|reflexivity].
  - exists k. split; [lia|exact q].
  - replace (i + (j - i))%nat with j in * by lia. exists j. split; [lia|]. right. split; [exact Pj|]. split; [exact Ej|].
    assert (Ak : asleep (W j) c = false) by (unfold asleep in *; rewrite Ej; exact As). destruct D as [D|[D|(e & D & _)]]; [congruence|congruence|eauto].
Qed.
Lemma l_close c i : fair W A V c -> pending c (upto V i) <> None -> c_pc (cli (W i) c) = RunClose -> exists j, (i <= j)%nat /\ ends c (V j).
Proof.
  intros F Pd Hpc. destruct (pending c (upto V i)) as [x|] eqn:P; [|contradiction]. assert (As : asleep (W i) c = false) by (unfold asleep; rewrite Hpc; reflexivity).
  destruct (l_turn c x i F P As) as (j & Hj & [E|(Pj & Ej & e & Ea)]); [exists j; auto|]. exists j. split; [exact Hj|].
  pose proof (fv_step _ _ _ _ _ FV j) as HS. rewrite Ea in HS. cbn [step] in HS. rewrite (fv_live _ _ _ Pj) in HS. unfold run_client in HS. rewrite Ej, Hpc in HS. injection HS as _ <-.
  left. eexists. left. reflexivity.
Qed.

(** *** writing *)
Definition fits i iov := r_drop (w_ring (W i)) = true \/ room (r_n (w_ring (W i))) (r_mm (w_ring (W i))) iov (ring_unread (w_ring (W i))) = true.
Lemma fv_drop i : r_drop (w_ring (W i)) = r_drop r.
Proof. destruct (reach_inv _ _ _ _ steady_contract (fv_reach i)) as (? & _ & _ & _ & _ & _ & _ & _ & E). exact E. Qed.
Lemma fits_keep i c iov : fits i iov -> (exists ms, In (ECommit c ms) (V i)) \/ written_by_other c (V i) \/ fits (S i) iov.
Proof.
  intros [D|R]; [right; right; left; rewrite fv_drop in *; exact D|].
  destruct (fv_facts i) as (J & HP & HB & EF & HQ & E1 & E2 & EE). destruct (room_keep _ _ _ _ _ iov J E1 E2 EE R) as [R'|(c' & ms & HI)]; [right; right; right; exact R'|].
  destruct (Nat.eq_dec c' c) as [->|N]; [left; eauto|right; left; exists c', ms; auto].
Qed.
Lemma w_pend i c : adding (W i) c <> [] -> exists x, pending c (upto V i) = Some x.
Proof.
  intros NE. destruct (fv_facts i) as (_ & HP & _). specialize (HP c). unfold adding in NE.
  destruct (c_pc (cli (W i) c)) as [ |[| | |] ? ? ?|[| | |] ? ? ?|? ?|? ?| | |?|g0 s0 z0]; cbn [pc_for] in HP; try contradiction;
    try (destruct HP as [-> _]; eauto); destruct HP as (wt & -> & _); eauto.
Qed.
Lemma w_run k c e : A k = ARun c e -> adding (W k) c <> [] -> asleep (W k) c = false -> fits k (adding (W k) c) ->
  In (ECommit c (adding (W k) c)) (V k) \/ ends c (V k) \/ (pending c (upto V (S k)) <> None /\ c_pc (cli (W (S k)) c) = RunClose).
Proof.
  intros Ea NE As FT. destruct (w_pend k c NE) as [x Px]. pose proof (fv_live _ _ _ Px) as L.
  destruct (reach_inv _ _ _ _ steady_contract (fv_reach k)) as (fsz & F & X & B & WW & HP & HB & EF & _).
  pose proof (fv_step _ _ _ _ _ FV k) as HS. rewrite Ea in HS. unfold adding in *. destruct (c_pc (cli (W k) c)) as [ |kk iov len nb|kk iov len nb|? ?|? ?| | |?|g0 s0 z0] eqn:Hpc; try contradiction.
  2: { unfold asleep in As. rewrite Hpc in As. discriminate. }
  destruct (e_lock e) eqn:He.
  - destruct (write_crit _ _ _ _ _ _ _ _ _ _ _ WW L Hpc HS He) as (_ & _ & [(D1 & D2 & _)|(_ & _ & _ & hw' & cl' & rs & v & _ & -> & _)]); [|left; left; reflexivity].
    destruct FT as [FT|FT]; congruence.
  - pose proof HS as HS0. cbn [step] in HS. rewrite L in HS. unfold run_client, crit_write in HS. rewrite Hpc, He in HS. cbn [negb obind] in HS. apply obind_ok in HS. destruct HS as ([cl' rs] & E & HS).
    injection HS as EW EV. cbn [app] in EV. destruct kk; cbn [end_write Z.leb Z.compare Z.gtb] in E; injection E as <- <-; try (right; left; left; rewrite <- EV; eexists; left; reflexivity).
    right. right. split.
    + cbn [upto]. rewrite <- EV. cbn [rets map]. rewrite app_nil_r. congruence.
    + rewrite <- EW. rewrite cli_setc_same by (apply live_bound; exact L). reflexivity.
Qed.
Lemma w_blocked k c : adding (W k) c <> [] -> asleep (W k) c = true -> fits k (adding (W k) c) ->
  exists w1, step (W k) (AWake c) = Ok (w1, []) /\ asleep w1 c = false.
Proof.
  intros NE As FT. pose proof (exec_sleepW r _ _ c (fv_contract k)) as SW. unfold sleepW in SW.
  assert (BE : adding (W k) c = blocked_msgs (W k) c).
  { unfold adding, blocked_msgs, asleep in *. destruct (c_pc (cli (W k) c)); try contradiction; try discriminate As; reflexivity. }
  assert (ND : r_drop (w_ring (W k)) = false).
  { unfold adding, asleep in *. destruct (c_pc (cli (W k) c)); try contradiction; try discriminate As. apply SW. }
  destruct FT as [FT|FT]; [congruence|]. rewrite BE in *. apply room_iff in FT.
  destruct (f_writer_wakes _ _ _ c (fv_reach k) NE (proj1 FT) (proj2 FT)) as (w1 & S1 & S2 & _). eauto.
Qed.
Lemma w_woken k c : A k = AWake c -> adding (W k) c <> [] -> asleep (W k) c = true -> fits k (adding (W k) c) -> asleep (W (S k)) c = false.
Proof.
  intros Ea NE As FT. destruct (w_blocked k c NE As FT) as (w1 & S1 & S2). pose proof (fv_step _ _ _ _ _ FV k) as HS. rewrite Ea, S1 in HS. injection HS as <- _. exact S2.
Qed.
Lemma w_readable k c : adding (W k) c <> [] -> asleep (W k) c = true -> fits k (adding (W k) c) ->
  ~ (forall s p, wait_sid (cli (W k) c) = Some (s, p) -> ~ readable (W k) s).
Proof.
  intros NE As FT D. destruct (w_blocked k c NE As FT) as (w1 & S1 & S2). cbn [step] in S1. destruct (wait_sid (cli (W k) c)) as [[s p]|] eqn:Ws.
  - specialize (D s p eq_refl). unfold readable in D. destruct (Z.gtb_spec (k_pend (sk (w_ks (W k)) s)) 0); [apply D; lia|]. injection S1 as <-. congruence.
  - injection S1 as <-. congruence.
Qed.
Lemma l_writer c i : fair W A V c -> let iov := adding (W i) c in iov <> [] -> fits i iov ->
  exists j, (i <= j)%nat /\ (In (ECommit c iov) (V j) \/ ends c (V j) \/ written_by_other c (V j)).
Proof.
  intros F iov NE FT.
  pose proof (fun i => w_pend i c) as PX.
  set (Q k := In (ECommit c iov) (V k) \/ ends c (V k) \/ written_by_other c (V k)).
  assert (CM : forall k, adding (W k) c = iov -> (exists ms, In (ECommit c ms) (V k)) -> Q k).
  { intros k Wk (ms & HI). left. destruct (commit_run _ _ _ _ _ _ (fv_step _ _ _ _ _ FV k) HI) as (e & kk & len & nb & _ & _ & Hpc). unfold adding in Wk. rewrite Hpc in Wk. congruence. }
  assert (AR : forall k e, adding (W k) c = iov -> A k = ARun c e -> asleep (W k) c = false -> fits k iov -> forall i0, (i0 <= k)%nat -> exists j, (i0 <= j)%nat /\ Q j).
  { intros k e Wk Ea Ak Fk i0 Hi. destruct (w_run k c e Ea) as [q|[q|[Hp Hc]]]; [congruence|exact Ak|rewrite Wk; exact Fk|exists k; split; [exact Hi|left; rewrite <- Wk; exact q]|exists k; split; [exact Hi|right; left; exact q]|].
    destruct (l_close c (S k) F Hp Hc) as (j' & Hj' & q). exists j'. split; [lia|right; left; exact q]. }
  assert (AWAKE : forall i, adding (W i) c = iov -> fits i iov -> asleep (W i) c = false -> exists j, (i <= j)%nat /\ Q j).
  { intros i0 Wi FT0 As. assert (NE0 : adding (W i0) c <> []) by congruence. destruct (PX i0 NE0) as [x Px]. pose proof F as [F1 _].
    destruct (F1 i0) as (j & Hj & D).
    destruct (until (fun k => pending c (upto V k) = Some x /\ cli (W k) c = cli (W i0) c /\ fits k iov) (fun k => Q k \/ (exists e, A k = ARun c e /\ pending c (upto V k) = Some x /\ cli (W k) c = cli (W i0) c /\ fits k iov))) with (n := (j - i0)%nat) (i := i0) as [(k & Hk & [q|(e & Ea & Pk & Ek & Fk)])|(Pj & Ej & Fj)].
    - intros k (Pk & Ek & Fk). assert (Wk : adding (W k) c = iov) by (unfold adding in *; rewrite Ek; exact Wi).
      assert (Ak : asleep (W k) c = false) by (unfold asleep in *; rewrite Ek; exact As).
      destruct (fits_keep k c iov Fk) as [q|[q|Fk']]; [left; left; apply CM; assumption|left; left; right; right; exact q|].
      destruct (fv_in_call k c x Pk) as [E|(P' & [E|[(_ & E & _)|[(e & E & _)|(E & _)]]])]; try congruence; [left; left; right; left; exact E|right; split; [exact P'|split; [congruence|exact Fk']]|left; right; eauto 6].
    - auto.
    - exists k. split; [lia|exact q].
    - apply (AR k e); [|exact Ea| |exact Fk|lia]; unfold adding, asleep in *; rewrite Ek; assumption.
    - replace (i0 + (j - i0))%nat with j in * by lia. assert (Aj : asleep (W j) c = false) by (unfold asleep in *; rewrite Ej; exact As).
      destruct D as [D|[D|(e & D & _)]]; [congruence|congruence|]. apply (AR j e); [|exact D|exact Aj|exact Fj|lia]. unfold adding in *. rewrite Ej. exact Wi. }
  destruct (asleep (W i) c) eqn:As; [|apply AWAKE; [reflexivity|exact FT|exact As]].
  destruct (PX i NE) as [x Px]. pose proof F as [_ F2]. destruct (F2 i) as (j & Hj & D).
  set (G k := pending c (upto V k) = Some x /\ cli (W k) c = cli (W i) c /\ fits k iov).
  assert (GW : forall k, G k -> adding (W k) c = iov /\ asleep (W k) c = true).
  { intros k (_ & Ek & _). unfold iov, adding, asleep in *. rewrite Ek. auto. }
  assert (GS : forall k, G k -> (exists j, (k <= j)%nat /\ Q j) \/ (G (S k) /\ A k <> AWake c)).
  { intros k Gk. destruct (GW k Gk) as [Wk Ak]. destruct Gk as (Pk & Ek & Fk).
    destruct (fits_keep k c iov Fk) as [q|[q|Fk']]; [left; exists k; split; [lia|apply CM; assumption]|left; exists k; split; [lia|right; right; exact q]|].
    assert (WK : A k = AWake c -> asleep (W (S k)) c = false).
    { intros Ea. apply (w_woken k c); [exact Ea|congruence|exact Ak|rewrite Wk; exact Fk]. }
    destruct (fv_in_call k c x Pk) as [E|(P' & [E|[(Ea & _ & E & _)|[(e & Ea & E)|(_ & E)]]])].
    - left. exists k. split; [lia|right; left; exact E].
    - right. split; [split; [exact P'|split; [congruence|exact Fk']]|]. intros Ea. specialize (WK Ea). unfold asleep in WK, Ak. rewrite E in WK. congruence.
    - left. destruct (AWAKE (S k)) as (j' & Hj' & q); [|exact Fk'|exact (WK Ea)|exists j'; split; [lia|exact q]].
      rewrite (writing_resume (W k)) by exact E. exact Wk.
    - congruence.
    - left. destruct (l_close c (S k) F) as (j' & Hj' & q); [congruence|exact E|]. exists j'. split; [lia|right; left; exact q]. }
  destruct (until G (fun k => exists j, (k <= j)%nat /\ Q j)) with (n := (j - i)%nat) (i := i) as [(k & Hk & j' & Hj' & q)|Gj].
  - intros k Gk. destruct (GS k Gk) as [q|[Gk' _]]; auto.
  - split; [exact Px|]. split; [reflexivity|exact FT].
  - exists j'. split; [lia|exact q].
  - replace (i + (j - i))%nat with j in * by lia. destruct (GW j Gj) as [Wj Aj]. destruct D as [D|[D|D]].
    + congruence.
    + exfalso. apply (w_readable j c); [congruence|exact Aj|rewrite Wj; apply Gj|exact D].
    + destruct (GS j Gj) as [(j' & Hj' & q)|[_ N]]; [exists j'; split; [lia|exact q]|contradiction].
Qed.
End Run.
