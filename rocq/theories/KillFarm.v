(** * After the last kill: a reader of a FARM ring that reads on (for C95) *)
From Verif Require Import Effects Final Pending Trace StepInv ReadCall Calls WriteCall KillBwFinal Farm FairFarm.
From Verif Require Export KillPipe.

Lemma cut {X} (l l' : list X) a b c : 0 <= a -> a <= b -> b <= c -> c <= zlen l ->
  firstn (Z.to_nat (b - a)) (skipn (Z.to_nat a) l) ++ firstn (Z.to_nat (c - b)) (skipn (Z.to_nat b) l) = firstn (Z.to_nat (c - a)) (skipn (Z.to_nat a) (l ++ l')).
Proof.
  intros H1 H2 H3 H4. unfold zlen in H4. rewrite skipn_app, firstn_app, skipn_length.
  replace (Z.to_nat (c - a) - (length l - Z.to_nat a))%nat with O by lia. cbn [firstn]. rewrite app_nil_r.
  replace (skipn (Z.to_nat b) l) with (skipn (Z.to_nat (b - a)) (skipn (Z.to_nat a) l)) by (rewrite skipn_skipn; f_equal; lia).
  set (m := skipn (Z.to_nat a) l). replace (Z.to_nat (c - a)) with (Z.to_nat (b - a) + Z.to_nat (c - b))%nat by lia.
  rewrite <- (firstn_skipn (Z.to_nat (b - a)) (firstn (Z.to_nat (b - a) + Z.to_nat (c - b)) m)).
  rewrite firstn_firstn, Nat.min_l by lia. f_equal. rewrite skipn_firstn_comm. f_equal. lia.
Qed.

(** only a client's own steps within its calls move its reading position *)
Lemma step_q_same w0 w evs a w' ev c : WI w0 w evs -> contract w a -> step w a = Ok (w', ev) ->
  c_live (cli w c) = true -> c_live (cli w' c) = true -> (forall e, a <> ARun c e) -> c_q (cli w' c) = c_q (cli w c).
Proof.
  intros W HC HS L0 L1 NR. pose proof (wi_ring _ _ _ W) as I. apply step_inv in HS. pose proof (live_bound _ _ L0) as LB.
  assert (GO : forall w1 c1 cl1, w_cl w1 = w_cl w -> (c = c1 -> c_q cl1 = c_q (cli w c1)) -> c_q (cli (setc w1 c1 cl1) c) = c_q (cli w c)).
  { intros w1 c1 cl1 E H. destruct (Nat.eq_dec c c1) as [->|N].
    - rewrite cli_setc_same by (rewrite E; exact LB). apply H. reflexivity.
    - rewrite cli_setc_other by exact N. unfold cli. rewrite E. reflexivity. }
  destruct HS as
   [ a
   | e flags pid w' E
   | e flags pid w' cl E
   | c1 x cl' rs Hl Hpc E
   | c1 e k iov len nb v cl' rs Hl Hpc Hv E
   | c1 e k iov len n s p Hl Hpc He E Er
   | c1 e k iov len nb r1 hw ks bh hw' wok r2 rv cl' rs Hl Hpc He E Ew Eb E2 Ev Ee
   | c1 e buf niov Hl Hpc He
   | c1 e buf niov q md h ks ok Hl Hpc He Hnb E Eh Ef
   | c1 e buf niov q md n s p Hl Hpc He Hnb E Eh
   | c1 e buf niov q md x cur' hr r2w' ks1 bh1 ks2 ok h Hl Hpc He E Eh Er Hn0 Hn1 Ef
   | c1 e w' Hl Hpc Hw'
   | c1 e ks h b cl' rs Hl Hpc He E Ee
   | c1 e Hl Hpc
   | c1 e reset r x Hl Hpc E
   | c1 e get st sz r x Hl Hpc E
   | c1 sid polls Hs Hp
   | a c1 sc k iov len nb cl' rs Ha Hpc E
   | a c1 sc buf niov Ha Hpc
   | c1 Hl ].
  - reflexivity.
  - destruct (do_open_ok e w flags pid _ I HC) as (w1 & o & E' & E1 & E2 & E3 & _).
    rewrite E in E'. injection E' as <- <-. unfold cli. rewrite E2. reflexivity.
  - destruct (do_open_ok e w flags pid _ I HC) as (w1 & o & E' & E1 & E2 & E3 & Ho).
    rewrite E in E'. injection E' as <- <-. unfold cli; cbn [w_cl set]; rewrite E2, app_nth1 by exact LB; reflexivity.
  - apply GO; [reflexivity|]. intros ->. destruct (start_call_id _ _ _ _ E) as [[_ _ _ Q _ _ _ _] _]. exact Q.
  - apply GO; [reflexivity|]. intros ->. elim (NR e eq_refl).
  - apply GO; [reflexivity|]. intros ->. elim (NR e eq_refl).
  - apply GO; [reflexivity|]. intros ->. elim (NR e eq_refl).
  - apply GO; [reflexivity|]. intros ->. elim (NR e eq_refl).
  - apply GO; [reflexivity|]. intros ->. elim (NR e eq_refl).
  - apply GO; [reflexivity|]. intros ->. elim (NR e eq_refl).
  - apply GO; [reflexivity|]. intros ->. elim (NR e eq_refl).
  - apply GO; [|intros ->; elim (NR e eq_refl)]. destruct Hw' as [->|(ks & h & _ & _ & ->)]; reflexivity.
  - apply GO; [reflexivity|]. intros ->. elim (NR e eq_refl).
  - apply GO; [|intros ->; elim (NR e eq_refl)]. destruct (e_lock e); [apply close_handles_cl|reflexivity].
  - apply GO; [reflexivity|]. intros ->. elim (NR e eq_refl).
  - apply GO; [reflexivity|]. intros ->. elim (NR e eq_refl).
  - apply GO; [reflexivity|]. intros ->. unfold resume. destruct (c_pc (cli w c1)); reflexivity.
  - apply GO; [reflexivity|]. intros ->. destruct (end_write_id _ _ _ _ _ _ E) as [[_ _ _ Q _ _ _ _] _]. exact Q.
  - apply GO; [reflexivity|]. intros ->. reflexivity.
  - destruct (Nat.eq_dec c c1) as [->|N]; [rewrite cli_setc_same in L1 by exact LB; discriminate|]. rewrite cli_setc_other by exact N. reflexivity.
Qed.

Section Run.
Variables (r : ring) (W : nat -> world) (D : nat -> deed) (V : nat -> list event) (i0 d : nat).
Hypothesis FV : kforever steady r W D V.
Hypothesis NK : no_kills D i0.
Hypothesis Hf : r_farm r = true.
Hypothesis K : reads_on r W D V d i0.
Notation q j := (c_q (cli (W j) d)). Notation md j := (c_md (cli (W j) d)). Notation h j := (committed (upto V j)).
Notation kav j := (kavail W j d). Notation ready := (ready W).

Lemma g_live j : (i0 <= j)%nat -> c_live (cli (W j) d) = true.
Proof. intros H. apply (ro_live _ _ _ _ _ _ K j H). Qed.
Lemma g_bound j : zlen (h j) < W64.
Proof. apply (kf_bound _ _ _ _ _ FV j Hf). Qed.
Lemma g_mono j : (i0 <= j)%nat -> q j <= q (S j).
Proof.
  intros H. destruct (nk r W D V i0 FV NK j H) as (a & Ea & Ha & HS). destruct (kf_facts _ _ _ _ FV j) as (fsz & F & WW & HP & HB & _ & EF & _).
  apply (q_mono _ _ _ _ _ _ _ WW (steady_contract _ _ Ha) HS); [congruence|apply g_bound|apply g_live; lia|apply g_live; lia].
Qed.
Lemma g_next j : (i0 <= j)%nat -> kav j = skipn (Z.to_nat (Z.max (q j) (eldest (upto V j) (w_ring (W j))))) (h j) /\ 0 <= q j <= zlen (h j).
Proof.
  intros H. destruct (kf_facts _ _ _ _ FV j) as (fsz & F & WW & HP & HB & _ & EF & _ & _ & _ & _ & HQ). specialize (HQ d (g_live j H) Hf). split; [|exact HQ].
  unfold KillFair.kavail. rewrite (available_eq _ _ _ (i_inv0 _ _ (wi_ring _ _ _ WW))).
  - unfold rpos. rewrite EF, Hf, (eldest_mp _ _ _ WW). reflexivity.
  - intros _. split; [apply g_bound|exact HQ].
Qed.
Lemma g_kept j : ring_retained (w_ring (W j)) <> [] -> (i0 <= j)%nat -> ring_retained (w_ring (W (S j))) <> [].
Proof.
  intros N H. destruct (nk_effect r W D V i0 FV NK j H) as [g EE]. revert N.
  destruct EE as [ev r' D1 D2 D3 U RT _|c v so t r' U RT _ _ _ _|c iov0 rs dropped wok r' D1 D2 D3 D4 D5 D6 U RT _|c v buf iov0 av ln niov r' D1 D2 D3 taken D4 D5 D6 U RT _]; intros N; rewrite RT; try exact N.
  intros Q. apply app_eq_nil in Q. destruct Q as [_ Q]. destruct D4 as [D4 _]. contradiction.
Qed.
Lemma g_grown j : (i0 <= j)%nat -> kav j = [] -> kav (S j) <> [] -> exists c ms, In (ECommit c ms) (V j).
Proof.
  intros H E N. destruct (g_next j H) as [E1 Q1]. destruct (g_next (S j) ltac:(lia)) as [E2 Q2]. pose proof (g_mono j H) as M.
  destruct (nk_effect r W D V i0 FV NK j H) as [g EE]. rewrite E1 in E. rewrite E2 in N. clear E1 E2.
  assert (SAME : committed (V j) = [] -> ring_retained (w_ring (W (S j))) = ring_retained (w_ring (W j)) -> False).
  { intros C R. apply N. assert (EH : h (S j) = h j) by (cbn [upto]; rewrite committed_app, C; apply app_nil_r).
    assert (EE' : eldest (upto V (S j)) (w_ring (W (S j))) = eldest (upto V j) (w_ring (W j))) by (unfold eldest; rewrite EH, R; reflexivity).
    rewrite EH, EE'. apply (f_equal (@length _)) in E. rewrite skipn_length in E. cbn in E. apply skipn_all2. lia. }
  revert SAME.
  destruct EE as [ev r' D1 D2 D3 U RT _|c v so t r' U RT _ _ _ _|c iov0 rs dropped wok r' D1 D2 D3 D4 D5 D6 U RT _|c v buf iov0 av ln niov r' D1 D2 D3 taken D4 D5 D6 U RT _]; intros SAME.
  - elim (SAME D1 RT).
  - elim (SAME eq_refl RT).
  - exists c, iov0. left. reflexivity.
  - elim (SAME eq_refl RT).
Qed.
Lemma g_stay j : (i0 <= j)%nat -> kav j <> [] -> q j < q (S j) \/ kav (S j) <> [].
Proof.
  intros H NE. pose proof (g_mono j H) as M. destruct (Z.eq_dec (q (S j)) (q j)) as [E|N]; [right|left; lia].
  destruct (nk r W D V i0 FV NK j H) as (a & Ea & Ha & HS). destruct (nk_effect r W D V i0 FV NK j H) as [g EE].
  assert (SAME : committed (V j) = [] -> ring_retained (w_ring (W (S j))) = ring_retained (w_ring (W j)) -> kav (S j) <> []).
  { intros C R. destruct (g_next j H) as [E1 Q1]. destruct (g_next (S j) ltac:(lia)) as [E2 Q2].
    assert (EH : h (S j) = h j) by (cbn [upto]; rewrite committed_app, C; apply app_nil_r).
    assert (EE' : eldest (upto V (S j)) (w_ring (W (S j))) = eldest (upto V j) (w_ring (W j))) by (unfold eldest; rewrite EH, R; reflexivity).
    rewrite E2, EH, EE', E, <- E1. exact NE. }
  pose proof (commit_avail _ _ _ _ FV j d a Ea (g_live j H) E) as CA. revert SAME CA.
  destruct EE as [ev r' D1 D2 D3 U RT _|c v so t r' U RT _ _ _ _|c iov0 rs dropped wok r' D1 D2 D3 D4 D5 D6 U RT _|c v buf iov0 av ln niov r' D1 D2 D3 taken D4 D5 D6 U RT _]; intros SAME CA.
  - apply SAME; assumption.
  - apply SAME; [reflexivity|assumption].
  - apply CA. exists c, iov0. left. reflexivity.
  - apply SAME; [reflexivity|assumption].
Qed.
Lemma g_room j : (i0 <= j)%nat -> kav j <> [] -> 0 < r_n r /\ exists m t, kav j = m :: t /\ zlen m <= r_n r.
Proof.
  intros H NA. destruct (kf_facts _ _ _ _ FV j) as (fsz & F & WW & HP & HB & _ & EF & _). pose proof (wi_ring _ _ _ WW) as J.
  destruct (wi_dims _ _ _ WW) as (_ & E2 & _). cbn in E2. destruct (i_farm _ _ J) as [EM _]; [congruence|].
  assert (UR : ring_unread (w_ring (W j)) = ring_retained (w_ring (W j))) by (rewrite (unread_eq _ _ (i_inv0 _ _ J)), (retained_eq _ _ (i_inv0 _ _ J)), EM; reflexivity).
  unfold KillFair.kavail, available in *. rewrite EF, Hf in *. rewrite <- UR in *.
  destruct (skipn _ (ring_unread (w_ring (W j)))) as [|m t] eqn:ES; [contradiction|].
  assert (IU : In m (ring_unread (w_ring (W j)))).
  { rewrite <- (firstn_skipn (Z.to_nat (q j - r_q (w_ring (W j)))) (ring_unread (w_ring (W j)))), ES. apply in_or_app. right. left. reflexivity. }
  assert (BM : zlen m <= r_n (w_ring (W j))).
  { pose proof (unread_bounds _ _ (i_inv0 _ _ J)) as [UB _]. apply in_split in IU. destruct IU as (l1 & l2 & IU). rewrite IU in UB. unfold nbytes in UB.
    rewrite concat_app, zlen_app in UB. cbn [concat] in UB. rewrite zlen_app in UB. pose proof (zlen_nonneg (concat l1)). pose proof (zlen_nonneg (concat l2)). lia. }
  assert (0 < zlen m).
  { assert (HI : In m (h j)).
    { rewrite (unread_eq _ _ (i_inv0 _ _ J)) in IU. unfold lastn in IU. rewrite <- (firstn_skipn (Z.to_nat (zlen (h j) - r_m (w_ring (W j)))) (h j)). apply in_or_app. right. exact IU. }
    pose proof (w_ne _ _ _ (i_win _ _ (i_inv0 _ _ J))) as NN. unfold nonempty in NN. rewrite Forall_forall in NN. apply (NN _ HI). }
  split; [lia|]. exists m, t. split; [reflexivity|lia].
Qed.

(** *** the reader is not left asleep *)
Lemma g_run_ends j buf niov e : pending d (upto V j) = Some (CRead buf niov) -> D j = Acts (ARun d e) -> asleep (W j) d = false -> kav j <> [] -> ends d (V j).
Proof.
  intros Pd Ea As NA. destruct (kf_facts _ _ _ _ FV j) as (fsz & F & WW & HP & HB & _).
  pose proof (kf_does _ _ _ _ _ FV j) as H. rewrite Ea in H. destruct H as [H1 HS]. destruct (e_lock e) eqn:He.
  - destruct (read_step _ _ _ _ _ _ _ _ _ WW HP HB Pd As HS He) as (_ & _ & _ & _ & _ & _ & [(EA & _)|(_ & _ & _ & ->)]); [|left; eexists; left; reflexivity].
    elim NA. exact EA.
  - pose proof (run_pc _ _ _ _ _ HP Pd As) as Hpc. cbn [step] in HS. rewrite (pend_live _ _ _ _ _ WW HP Pd) in HS. unfold run_client, crit_read in HS. rewrite Hpc, He in HS. cbn in HS. injection HS as _ <-.
    left. eexists. left. reflexivity.
Qed.
Lemma g_ready j : (i0 <= j)%nat -> pending d (upto V j) <> None -> kav j <> [] -> ready j d.
Proof.
  assert (CR : forall j x, (i0 <= j)%nat -> pending d (upto V j) = Some x -> exists buf niov, x = CRead buf niov).
  { intros k x Hk P. destruct (ro_calls _ _ _ _ _ _ K k x Hk P) as (b & n & E & _). eauto. }
  pose proof (ro_rest _ _ _ _ _ _ K) as P0.
  induction 1 as [|j H IH]; [congruence|]. intros Pd NA As.
  destruct (pending d (upto V (S j))) as [x|] eqn:Px; [|contradiction]. destruct (CR (S j) x ltac:(lia) Px) as (buf & niov & ->).
  destruct (read_asleep r W D V FV _ _ _ _ Px As) as (n & s & p & Ew & Ws). pose proof (kf_live _ _ _ _ FV _ _ _ Px) as L'.
  destruct (nk r W D V i0 FV NK j H) as (a & Ea & Ha & HS).
  destruct (pending d (upto V j)) as [y|] eqn:Py.
  2: { destruct (idle_next _ _ _ _ _ d HS Py) as [Q|Q]; [cbn [upto] in Px; congruence|congruence]. }
  destruct (kav j) eqn:EU.
  - exists s, p. split; [exact Ws|]. destruct (g_grown j H EU NA) as (c' & ms & HI).
    apply (k_wake_readers r _ (upto V j) a _ (V j) c' ms (steady_reach_flaky _ _ _ (kf_reach _ _ _ _ FV j)) (steady_flaky _ _ Ha) HS HI) with (c' := d); [left; apply Ha|].
    unfold data_sock. rewrite L', Ew. reflexivity.
  - destruct (CR j y H Py) as (b0 & n0 & ->).
    assert (R0 : ready j d) by (apply IH; discriminate).
    assert (NU : kav j <> []) by (rewrite EU; discriminate).
    destruct (kf_in_call _ _ _ _ FV j d _ Py) as [E|(P' & [(E & R1 & _)|[(_ & As0 & E & _)|[(e & E & As0)|(_ & E)]]])].
    + pose proof (ends_none _ _ _ _ (upto V j) _ HS E) as Q. cbn [upto] in Px. congruence.
    + apply R1; assumption.
    + rewrite (resume_awake _ _ _ As0 E) in As. discriminate.
    + pose proof (g_run_ends _ _ _ _ Py E As0 NU) as Q. pose proof (ends_none _ _ _ _ (upto V j) _ HS Q) as Q'. cbn [upto] in Px. congruence.
    + unfold asleep in As. rewrite E in As. discriminate.
Qed.
Definition grp buf niov j := (i0 <= j)%nat /\ pending d (upto V j) = Some (CRead buf niov) /\ kav j <> [].
Definition grq j := ends d (V j) \/ q j < q (S j).
Lemma grp_step buf niov i : grp buf niov i -> grq i \/
  (grp buf niov (S i) /\ (asleep (W i) d = false -> asleep (W (S i)) d = false /\ forall e, D i <> Acts (ARun d e))
    /\ (D i = Acts (AWake d) -> asleep (W (S i)) d = false)).
Proof.
  intros (Hi & Pd & NA). destruct (g_stay i Hi NA) as [Q|NA']; [left; right; exact Q|].
  assert (RD : ready i d) by (apply g_ready; [exact Hi|congruence|exact NA]).
  destruct (kf_in_call _ _ _ _ FV i d _ Pd) as [E|(Pd' & HD)]; [left; left; exact E|].
  destruct HD as [(E & R1 & R2 & R3)|[(Ea & As & E & Er)|[(e & Ea & As)|(As & E)]]].
  - assert (EA : asleep (W (S i)) d = asleep (W i) d) by (unfold asleep; rewrite E; reflexivity).
    right. split; [split; [lia|split; assumption]|]. split.
    + intros As. split; [congruence|]. intros e Q'. rewrite R2 in As by eauto. discriminate.
    + intros Ea. rewrite EA. destruct (asleep (W i) d) eqn:As; [|reflexivity]. elim (R3 Ea eq_refl RD).
  - right. pose proof (resume_awake _ _ _ As E) as NS. split; [split; [lia|split; assumption]|]. split; [congruence|auto].
  - left. left. apply (g_run_ends i buf niov e); assumption.
  - exfalso. destruct (kf_facts _ _ _ _ FV (S i)) as (_ & _ & _ & HP & _). specialize (HP d). rewrite E, Pd' in HP. cbn in HP. discriminate.
Qed.
Lemma g_awake buf niov i : grp buf niov i -> asleep (W i) d = false -> exists j, (i <= j)%nat /\ grp buf niov j /\ asleep (W j) d = false /\ grq j.
Proof.
  intros R As. destruct (ro_fair _ _ _ _ _ _ K) as [F1 _]. destruct (F1 i) as (j & Hj & H).
  destruct (until (fun k => grp buf niov k /\ asleep (W k) d = false) (fun k => grp buf niov k /\ asleep (W k) d = false /\ grq k)) with (n := (j - i)%nat) (i := i) as [(k & Hk & Q)|[Rj Aj]].
  - intros k [Rk Ak]. destruct (grp_step _ _ _ Rk) as [Q|(R' & A' & _)]; [left; auto|right]. split; [exact R'|apply A'; exact Ak].
  - split; assumption.
  - exists k. split; [lia|exact Q].
  - replace (i + (j - i))%nat with j in * by lia. destruct H as [H|[H|(e & H & _)]].
    + destruct Rj as (_ & Rj & _). congruence.
    + congruence.
    + destruct (grp_step _ _ _ Rj) as [Q|(_ & A' & _)]; [exists j; auto|]. destruct (A' Aj) as [_ Q]. elim (Q e H).
Qed.
Lemma g_read buf niov i : grp buf niov i -> exists j, (i <= j)%nat /\ grp buf niov j /\ grq j.
Proof.
  intros R. destruct (asleep (W i) d) eqn:As.
  2: { destruct (g_awake _ _ _ R As) as (j & H1 & H2 & _ & H3). eauto. }
  destruct (ro_fair _ _ _ _ _ _ K) as [_ F2]. destruct (F2 i) as (j & Hj & H).
  assert (AWAKE : forall k, (i <= k)%nat -> grp buf niov k -> asleep (W k) d = false -> exists j, (i <= j)%nat /\ grp buf niov j /\ grq j).
  { intros k Hk Rk Ak. destruct (g_awake _ _ _ Rk Ak) as (j' & H1 & H2 & _ & H3). exists j'. split; [lia|auto]. }
  destruct (until (fun k => grp buf niov k /\ asleep (W k) d = true) (fun k => (grp buf niov k /\ grq k) \/ (grp buf niov (S k) /\ asleep (W (S k)) d = false))) with (n := (j - i)%nat) (i := i) as [(k & Hk & [Q|[Q1 Q2]])|[Rj Aj]].
  - intros k [Rk Ak]. destruct (grp_step _ _ _ Rk) as [Q|(R' & _ & _)]; [left; left; auto|]. destruct (asleep (W (S k)) d) eqn:As'; [right; auto|left; right; auto].
  - split; assumption.
  - exists k. split; [lia|exact Q].
  - apply (AWAKE (S k)); [lia|assumption|assumption].
  - replace (i + (j - i))%nat with j in * by lia. destruct H as [H|[H|H]]; [congruence| |].
    + exfalso. destruct Rj as (Hj0 & Pj & NAj). destruct (g_ready j Hj0) as (s & p & Ws & Rd); [congruence|exact NAj|exact Aj|]. exact (H s p Ws Rd).
    + destruct (grp_step _ _ _ Rj) as [Q|(R' & _ & AW)]; [exists j; auto|]. apply (AWAKE (S j)); [lia|exact R'|exact (AW H)].
Qed.
Lemma g_end buf niov j : grp buf niov j -> ends d (V j) -> q j < q (S j) \/ (asleep (W j) d = true /\ pending d (upto V (S j)) = None).
Proof.
  intros (Hj & Pd & NA) HE. destruct (nk r W D V i0 FV NK j Hj) as (a & Ea & Ha & HS). pose proof (ends_actor _ _ _ _ _ HS HE) as AC.
  destruct (ro_live _ _ _ _ _ _ K j Hj) as [L _]. destruct (ro_live _ _ _ _ _ _ K (S j) ltac:(lia)) as [L' _].
  destruct (ro_calls _ _ _ _ _ _ K j _ Hj Pd) as (b0 & n0 & E & Hb & Hn). injection E as <- <-.
  destruct (kf_facts _ _ _ _ FV j) as (fsz & F & WW & HP & HB & _).
  assert (NI : c_pc (cli (W j) d) <> Idle) by (intros E; specialize (HP d); rewrite E, Pd in HP; discriminate).
  destruct a as [e fl pid|c1 y|c1 e|c1|c1|c1 fd|c1]; cbn [actor] in AC; try discriminate AC; injection AC as ->.
  - cbn [step] in HS. rewrite L in HS. cbn [negb] in HS. exfalso. destruct (c_pc (cli (W j) d)); try contradiction; injection HS as _ EV; rewrite <- EV in HE; destruct HE as [[x []]|[]].
  - destruct (asleep (W j) d) eqn:As.
    { exfalso. cbn [step] in HS. rewrite L in HS. unfold run_client in HS. unfold asleep in As. destruct (c_pc (cli (W j) d)); try discriminate As; injection HS as _ EV; rewrite <- EV in HE; destruct HE as [[x []]|[]]. }
    left. pose proof (ro_lock _ _ _ _ _ _ K j e Hj Ea) as He.
    destruct (read_step _ _ _ _ _ _ _ _ _ WW HP HB Pd As HS He) as (_ & _ & RT & _ & _ & _ & [(EA & _)|(_ & EA & _ & EV)]); [contradiction|].
    destruct (g_room j Hj NA) as (_ & m & t & EM & Hm).
    destruct (g_next j Hj) as [N1 _]. destruct (g_next (S j) ltac:(lia)) as [N2 _].
    change (kav (S j) = skipn (length (take_fit (Z.to_nat niov) (usable buf) (kav j))) (kav j)) in EA. rewrite EA in N2. clear EA.
    assert (EC : h (S j) = h j) by (cbn [upto]; rewrite EV, committed_app; cbn; apply app_nil_r).
    assert (EE : eldest (upto V (S j)) (w_ring (W (S j))) = eldest (upto V j) (w_ring (W j))) by (unfold eldest; rewrite EC, RT; reflexivity).
    rewrite EC, EE in N2. set (hh := h j) in *. set (old := eldest (upto V j) (w_ring (W j))) in *.
    destruct (Z.lt_ge_cases (q j) (q (S j))) as [|GE]; [assumption|exfalso].
    assert (LT : (0 < length (take_fit (Z.to_nat niov) (usable buf) (kav j)))%nat).
    { rewrite EM. replace (Z.to_nat niov) with (S (Z.to_nat (niov - 1))) by lia. cbn [take_fit]. assert (LE : zlen m <=? usable buf = true) by (apply Z.leb_le; lia). rewrite LE. cbn. lia. }
    apply (f_equal (@length _)) in N2. rewrite skipn_length in N2.
    assert (LK : (0 < length (kav j))%nat) by (rewrite EM; cbn; lia).
    apply (f_equal (@length _)) in N1. rewrite skipn_length in N1. rewrite skipn_length in N2. lia.
  - exfalso. apply step_inv in HS. inversion HS; subst;
      try (match goal with H : AWake _ = _ /\ _ \/ _ |- _ => destruct H as [[? _]|[[? ?] _]]; discriminate end);
      match goal with H : [] = V j |- _ => rewrite <- H in HE; destruct HE as [[x []]|[]] end.
  - right. cbn [step] in HS. unfold wait_failed in HS. specialize (HP d). unfold asleep. destruct (c_pc (cli (W j) d)) as [ |k iov len nb|k iov len nb|? ?|? ?| | |?|g0 s0 z0] eqn:Epc;
      try (exfalso; injection HS as _ EV; rewrite <- EV in HE; destruct HE as [[x []]|[]]; fail).
    + exfalso. cbn [pc_for] in HP. rewrite Pd in HP. destruct k; destruct HP as [? HQ]; try discriminate. destruct HQ; discriminate.
    + split; [reflexivity|]. injection HS as _ EV. cbn [upto]. rewrite <- EV, pending_app. cbn [fold_left]. rewrite is_refl. reflexivity.
  - right. cbn [step] in HS. destruct (wait_sid (cli (W j) d)) as [[s p]|]; [|exfalso; injection HS as _ EV; rewrite <- EV in HE; destruct HE as [[x []]|[]]].
    destruct (existsb _ p); [|exfalso; injection HS as _ EV; rewrite <- EV in HE; destruct HE as [[x []]|[]]].
    unfold wait_failed in HS. specialize (HP d). unfold asleep. destruct (c_pc (cli (W j) d)) as [ |k iov len nb|k iov len nb|? ?|? ?| | |?|g0 s0 z0] eqn:Epc;
      try (exfalso; injection HS as _ EV; rewrite <- EV in HE; destruct HE as [[x []]|[]]; fail).
    + exfalso. cbn [pc_for] in HP. rewrite Pd in HP. destruct k; destruct HP as [? HQ]; try discriminate. destruct HQ; discriminate.
    + split; [reflexivity|]. injection HS as _ EV. cbn [upto]. rewrite <- EV, pending_app. cbn [fold_left]. rewrite is_refl. reflexivity.
  - exfalso. cbn [step] in HS. rewrite L in HS. cbn [negb] in HS. injection HS as EW _. rewrite <- EW in L'. rewrite cli_setc_same in L' by (apply live_bound; exact L). discriminate.
Qed.

Lemma g_drain j : (i0 <= j)%nat -> kav j <> [] -> exists k, (j <= k)%nat /\ q k < q (S k).
Proof.
  revert j.
  assert (B2 : forall j, (i0 <= j)%nat -> kav j <> [] -> pending d (upto V j) <> None -> asleep (W j) d = false -> exists k, (j <= k)%nat /\ q k < q (S k)).
  { intros j Hj NE Pd As. destruct (pending d (upto V j)) as [x|] eqn:Px; [|contradiction]. destruct (ro_calls _ _ _ _ _ _ K j x Hj Px) as (buf & niov & -> & _).
    destruct (g_awake buf niov j) as (k & Hk & Rk & Ak & [Q|Q]); [split; [exact Hj|split; [exact Px|exact NE]]|exact As| |exists k; auto].
    destruct (g_end buf niov k Rk Q) as [Q'|[Q' _]]; [exists k; auto|congruence]. }
  assert (B1 : forall j, (i0 <= j)%nat -> kav j <> [] -> pending d (upto V j) = None -> exists k, (j <= k)%nat /\ q k < q (S k)).
  { intros j Hj NE Pd. destruct (ro_again _ _ _ _ _ _ K j) as (k & Hk & D0).
    assert (ST : forall n, (i0 <= n)%nat -> kav n <> [] -> pending d (upto V n) = None -> (exists k, (n <= k)%nat /\ q k < q (S k)) \/ (kav (S n) <> [] /\ pending d (upto V (S n)) = None)).
    { intros n Hn NEn Pn. destruct (g_stay n Hn NEn) as [Q|NE']; [left; exists n; auto|].
      destruct (pending d (upto V (S n))) as [x|] eqn:Px; [left|right; auto].
      destruct (nk r W D V i0 FV NK n Hn) as (a0 & _ & _ & HS0). destruct (idle_next _ _ _ _ _ d HS0 Pn) as [Q|Q]; [cbn [upto] in Px; congruence|].
      destruct (B2 (S n)) as (k' & Hk' & Q'); [lia|exact NE'|congruence|exact Q|exists k'; split; [lia|exact Q']]. }
    destruct (until (fun n => (i0 <= n)%nat /\ kav n <> [] /\ pending d (upto V n) = None) (fun n => exists k, (n <= k)%nat /\ q k < q (S k))) with (n := (k - j)%nat) (i := j) as [(n & Hn & k' & Hk' & Q)|(Hn & NEk & Pk)].
    - intros n (Hn & NEn & Pn). destruct (ST n Hn NEn Pn) as [Q|Q]; [left; exact Q|right; split; [lia|exact Q]].
    - auto.
    - exists k'. split; [lia|exact Q].
    - replace (j + (k - j))%nat with k in * by lia. destruct D0 as [D0|[(a & Da & buf & niov & Ea & Hb & Hn')|D0]]; [contradiction| |elim NEk; exact D0].
      destruct (ST k Hn NEk Pk) as [(k' & Hk' & Q)|[NE' P']]; [exists k'; split; [lia|exact Q]|]. exfalso.
      destruct (ro_live _ _ _ _ _ _ K k Hn) as [L RD]. pose proof (kf_does _ _ _ _ _ FV k) as HS. rewrite Da, Ea in HS. destruct HS as [_ HS]. cbn [step] in HS. rewrite L in HS. cbn [negb] in HS.
      destruct (kf_facts _ _ _ _ FV k) as (fsz & F & WW & HP & _). specialize (HP d). rewrite Pk in HP.
      destruct (c_pc (cli (W k) d)) as [ |[| | |] ? ? ?|[| | |] ? ? ?|? ?|? ?| | |?|g0 s0 z0] eqn:Hpc; cbn [pc_for] in HP; try discriminate; try (destruct HP as [? ?]; discriminate); try (destruct HP as (? & ? & ?); discriminate).
      cbn [start_call] in HS. rewrite RD in HS. destruct (g_room k Hn NEk) as (RN & _).
      assert (ZB : (zlen buf =? 0) || (niov =? 0) = false).
      { apply orb_false_intro; apply Z.eqb_neq; [unfold usable in Hb|]; lia. }
      rewrite ZB in HS. cbn [obind] in HS. injection HS as _ EV. cbn [upto] in P'. rewrite <- EV, pending_app in P'. cbn [fold_left rets map] in P'. rewrite is_refl in P'. discriminate. }
  intros j Hj NE. destruct (pending d (upto V j)) as [x|] eqn:Px; [|apply B1; assumption].
  destruct (ro_calls _ _ _ _ _ _ K j x Hj Px) as (buf & niov & -> & _).
  destruct (g_read buf niov j) as (k & Hk & Rk & [Q|Q]); [split; [exact Hj|split; [exact Px|exact NE]]| |exists k; auto].
  destruct (g_end buf niov k Rk Q) as [Q'|[_ Q']]; [exists k; auto|].
  destruct (g_stay k) as [Q2|Q2]; [apply Rk|apply Rk|exists k; auto|].
  destruct (B1 (S k)) as (k' & Hk' & Q3); [lia|exact Q2|exact Q'|exists k'; split; [lia|exact Q3]].
Qed.

(** *** it gets past every message written *)
Lemma g_past0 i : (i0 <= i)%nat -> ring_retained (w_ring (W i)) <> [] -> exists j, (i <= j)%nat /\ zlen (h i) <= q j.
Proof.
  intros Hi RN. set (N := zlen (h i)).
  assert (R0 : forall j, (i <= j)%nat -> ring_retained (w_ring (W j)) <> []) by (induction 1 as [|j Hj IH]; [exact RN|apply g_kept; [exact IH|lia]]).
  assert (UP : forall j k, (i0 <= j)%nat -> (j <= k)%nat -> q j <= q k).
  { intros j k Hj Hk. induction Hk as [|k Hk IH]; [lia|]. pose proof (g_mono k ltac:(lia)). lia. }
  assert (MAIN : forall n j, (i <= j)%nat -> N <= q j + Z.of_nat n -> exists k, (j <= k)%nat /\ N <= q k).
  { induction n as [|n IH]; intros j Hj HL; [exists j; split; lia|].
    destruct (kav j) eqn:EA.
    - exists j. split; [lia|]. destruct (g_next j ltac:(lia)) as [N1 Q1]. rewrite EA in N1.
      destruct (upto_app V i j Hj) as (l & EL). apply (f_equal (@length _)) in N1. rewrite skipn_length in N1. cbn [length] in N1.
      assert (LN : N <= zlen (h j)) by (rewrite EL, committed_app, zlen_app; pose proof (zlen_nonneg (committed l)); subst N; lia).
      pose proof (R0 j Hj) as RR. assert (0 < zlen (ring_retained (w_ring (W j)))) by (destruct (ring_retained (w_ring (W j))); [contradiction|unfold zlen; cbn [length]; lia]).
      unfold eldest, zlen in *. lia.
    - destruct (g_drain j ltac:(lia)) as (k & Hk & SH); [congruence|].
      pose proof (UP j k ltac:(lia) Hk). destruct (IH (S k)) as (k' & Hk' & Q); [lia|lia|]. exists k'. split; [lia|exact Q]. }
  destruct (MAIN (Z.to_nat (N - q i)) i) as (k & Hk & Q); [lia|lia|]. exists k. split; [lia|exact Q].
Qed.
Lemma g_past i c ms : (i0 <= i)%nat -> In (ECommit c ms) (V i) -> exists j, (i < j)%nat /\ zlen (h (S i)) <= q j.
Proof.
  intros Hi HI.
  assert (NE : committed (V i) <> []).
  { destruct (nk r W D V i0 FV NK i Hi) as (a & Ea & Ha & HS). destruct (commit_run _ _ _ _ _ _ HS HI) as (e & k & len & nb & _ & L' & Hpc).
    destruct (kf_facts _ _ _ _ FV i) as (fsz & F & WW & _). destruct (wi_cl _ _ _ WW c L') as [m C]. pose proof (ci_pc _ _ _ _ C) as P. unfold pc_ok in P. rewrite Hpc in P.
    destruct P as (_ & P & _). intros D1. assert (ms = []); [|subst; destruct P as [P _]; contradiction].
    clear - HI D1. induction (V i) as [|x t IH]; [destruct HI|]. cbn in D1. apply app_eq_nil in D1. destruct D1 as [C1 C2]. destruct HI as [->|HI]; [exact C1|apply IH; assumption]. }
  destruct (g_past0 (S i)) as (j & Hj & Q); [lia| |exists j; split; [lia|exact Q]].
  destruct (nk_effect r W D V i0 FV NK i Hi) as [g EE]. revert NE.
  destruct EE as [ev r' D1 D2 D3 U RT _|c0 v so t r' U RT _ _ _ _|c0 iov0 rs dropped wok r' D1 D2 D3 D4 D5 D6 U RT _|c0 v buf iov0 av ln niov r' D1 D2 D3 taken D4 D5 D6 U RT _]; intros NE.
  - contradiction.
  - elim NE. reflexivity.
  - rewrite RT. intros Q. apply app_eq_nil in Q. destruct Q as [_ Q]. destruct D4 as [D4 _]. contradiction.
  - elim NE. reflexivity.
Qed.

(** *** what it is handed *)
(** a step of [d]'s own, in which [x] messages that were overwritten before it
    read them are added to its count *)
Definition skipped j := exists e x, D j = Acts (ARun d e) /\ x = eldest (upto V j) (w_ring (W j)) - q j /\ 0 < x < W64 /\ md (S j) = u64 (md j + x).
Lemma g_takes j : (i0 <= j)%nat -> skipped j \/ delivered_to d (V j) = firstn (Z.to_nat (q (S j) - q j)) (skipn (Z.to_nat (q j)) (h j)) /\ q (S j) <= zlen (h j).
Proof.
  intros H. destruct (g_next j H) as [_ QJ]. destruct (nk r W D V i0 FV NK j H) as (a & Ea & Ha & HS). destruct (kf_facts _ _ _ _ FV j) as (fsz & F & WW & HP & HB & _ & EF & _).
  pose proof (g_bound j) as GB.
  destruct (step_qstep _ _ _ _ _ _ d WW (steady_contract _ _ Ha) HS (g_live (S j) ltac:(lia))) as
        [flags A1 A2 A3 A4|A1 A2 A3 A4 A5 A6|A1 A2 A3 A4 A5 A6|buf niov q' md' res A1 A2 B1 B2 A3 A4 A5 A6 A7].
  - exfalso. pose proof (live_bound _ _ (g_live j H)). lia.
  - right. rewrite A3, A5, Z.sub_diag. split; [reflexivity|apply QJ].
  - right. rewrite A3, A5, Z.sub_diag. split; [reflexivity|apply QJ].
  - destruct (wi_cl _ _ _ WW d A2) as [ms C].
    assert (Hq : qok (w_ring (W j)) (h j) (q j)) by (apply (CI_qok _ _ _ _ C); exact HB).
    destruct (ring_read_ok _ _ _ (md j) buf niov (wi_ring _ _ _ WW) Hq B1 B2) as [Q1 Q2].
    assert (SF : r_farm (w_ring (W j)) = true) by congruence.
    destruct (Hq SF) as [Hq1 Hq2]. unfold rpos in Q1, Q2. rewrite SF in Q1, Q2. cbn [andb] in Q1, Q2.
    set (hh := h j) in *. set (q0 := q j) in *. set (old := zlen hh - r_mp (w_ring (W j))) in *. set (k := Z.max q0 old) in *. set (md0 := md j) in *.
    pose proof (w_old _ _ _ (i_win _ _ (i_inv0 _ _ (wi_ring _ _ _ WW)))) as Ho. fold hh old in Ho.
    pose proof (i_m _ _ (i_inv0 _ _ (wi_ring _ _ _ WW))) as Hm.
    assert (MD : md' = (if q0 <? old then u64 (md0 + (k - q0)) else md0) /\
                     exists tk rest, skipn (Z.to_nat k) hh = tk ++ rest /\ q' = k + zlen tk /\ delivered_to d (V j) = tk).
    { destruct (list_eq_dec (list_eq_dec Z.eq_dec) (skipn (Z.to_nat k) hh) []) as [Ee|Ne].
      - rewrite (Q1 Ee) in A3. injection A3 as Aq Am Ar. rewrite <- Ar in A7. split; [symmetry; exact Am|].
        exists [], []. rewrite zlen_nil. split; [exact Ee|]. split; [lia|exact A7].
      - destruct (Q2 Ne) as (x & cur' & Er & _ & _ & _ & _ & _ & _ & Bf & Io & _ & _ & _).
        rewrite Er in A3. injection A3 as Aq Am Ar. rewrite <- Ar in A7. split; [symmetry; exact Am|].
        destruct (take_fit_prefix (Z.to_nat niov) (clamp (zlen buf)) (skipn (Z.to_nat k) hh)) as [rest ER].
        eexists _, rest. split; [exact ER|]. split; [symmetry; exact Aq|]. rewrite A7, Bf, Io.
        apply read_msgs_taken. rewrite clamp_usable. unfold usable.
        pose proof (nbytes_take_fit (Z.to_nat niov) (Z.min (zlen buf) SSIZE_MAX) (skipn (Z.to_nat k) hh) ltac:(lia)). lia. }
    destruct MD as [MD (tk & rest & T1 & T2 & T3)].
    destruct (Z.ltb_spec q0 old) as [LT|GE].
    + left.
      assert (RUN : exists e, a = ARun d e).
      { assert (Dec : (exists e, a = ARun d e) \/ forall e, a <> ARun d e).
        { destruct a as [| |c1 e1| | | |]; try (right; intros; discriminate). destruct (Nat.eq_dec c1 d) as [->|N]; [left; eauto|right; congruence]. }
        destruct Dec as [Dec|Dec]; [exact Dec|exfalso].
        pose proof (step_q_same _ _ _ _ _ _ d WW (steady_contract _ _ Ha) HS (g_live j H) (g_live (S j) ltac:(lia)) Dec) as SQ.
        rewrite A4 in SQ. pose proof (zlen_nonneg tk). fold q0 in SQ. lia. }
      destruct RUN as [e ->]. exists e, (k - q0). split; [exact Ea|]. split; [rewrite (eldest_mp _ _ _ WW); subst k old hh q0; lia|]. split; [subst k old; lia|]. rewrite A5. exact MD.
    + right. pose proof (f_equal (@length _) T1) as TL. rewrite skipn_length, app_length in TL. assert (k = q0) by (subst k; lia). rewrite A4, T2, T3. split; [|unfold zlen in *; lia]. replace (k + zlen tk - q0) with (zlen tk) by lia. rewrite H0 in T1. rewrite T1.
      unfold zlen. rewrite Nat2Z.id, firstn_app, Nat.sub_diag, firstn_all. cbn [firstn]. rewrite app_nil_r. reflexivity.
Qed.
Lemma g_given i j : (i0 <= i)%nat -> (i <= j)%nat -> (exists k, (i <= k < j)%nat /\ skipped k) \/
  delivered_to d (upto V j) = delivered_to d (upto V i) ++ firstn (Z.to_nat (q j - q i)) (skipn (Z.to_nat (q i)) (h j)) /\ q i <= q j.
Proof.
  intros Hi Hj. induction Hj as [|j Hj IH]; [right; rewrite Z.sub_diag; cbn; rewrite app_nil_r; split; [reflexivity|lia]|].
  destruct IH as [(k & Hk & Q)|[IH LE]]; [left; exists k; split; [lia|exact Q]|].
  destruct (g_takes j ltac:(lia)) as [Q|[Q Q3]]; [left; exists j; split; [lia|exact Q]|right].
  pose proof (g_mono j ltac:(lia)) as M. destruct (g_next i Hi) as [_ Q0]. split; [|lia].
  cbn [upto]. rewrite delivered_to_app, committed_app, IH, Q, <- app_assoc. f_equal. apply cut; lia.
Qed.

Theorem g_farm i c ms : (i0 <= i)%nat -> In (ECommit c ms) (V i) -> exists j, (i < j)%nat /\ ((exists k, (i <= k < j)%nat /\ skipped k) \/ exists pre post, delivered_to d (upto V j) = delivered_to d (upto V i) ++ pre ++ ms ++ post).
Proof.
  intros Hi HI. destruct (g_past i c ms Hi HI) as (j & Hj & Q). exists j. split; [exact Hj|].
  destruct (g_given i j Hi ltac:(lia)) as [S|[E LE]]; [left; exact S|right].
  destruct (g_next i Hi) as [_ Q0]. destruct (upto_app V (S i) j Hj) as (l & EL). rewrite EL in E. cbn [upto] in E, Q. rewrite !committed_app in E. rewrite committed_app in Q.
  apply in_split in HI. destruct HI as (l1 & l2 & EV).
  assert (EC : committed (V i) = committed l1 ++ ms ++ committed l2) by (rewrite EV, committed_app; reflexivity).
  rewrite EL. cbn [upto]. rewrite E. rewrite skipn_app, firstn_app. rewrite firstn_all2.
  - rewrite skipn_app in *. replace (Z.to_nat (q i) - length (h i ++ committed (V i)))%nat with O by (rewrite app_length; unfold zlen in *; lia).
    replace (Z.to_nat (q i) - length (h i))%nat with O by (unfold zlen in *; lia). cbn [skipn]. rewrite EC.
    eexists (skipn (Z.to_nat (q i)) (h i) ++ committed l1), (committed l2 ++ _). rewrite <- !app_assoc. reflexivity.
  - rewrite skipn_length. rewrite zlen_app in Q. rewrite app_length. unfold zlen in *. lia.
Qed.
(** what was left for it *)
Theorem g_left i : (i0 <= i)%nat -> available (w_ring (W i)) (q i) <> [] -> exists j, (i < j)%nat /\
  ((exists k, (i <= k < j)%nat /\ skipped k) \/ exists pre post, delivered_to d (upto V j) = delivered_to d (upto V i) ++ pre ++ available (w_ring (W i)) (q i) ++ post).
Proof.
  intros Hi NA. change (available (w_ring (W i)) (q i)) with (kav i) in *. destruct (g_next i Hi) as [EA Q0].
  assert (RN : ring_retained (w_ring (W i)) <> []).
  { intros RE. apply NA. rewrite EA. apply skipn_all2. unfold eldest. rewrite RE. unfold zlen. cbn [length]. lia. }
  assert (LT : q i < zlen (h i)).
  { destruct (Z.lt_ge_cases (q i) (zlen (h i))) as [|GE]; [assumption|elim NA]. rewrite EA. apply skipn_all2. unfold zlen in GE. lia. }
  destruct (g_past0 i Hi RN) as (j & Hj & Q). assert (HJ : (i < j)%nat) by (destruct (Nat.eq_dec i j) as [<-|]; [lia|lia]). exists j. split; [exact HJ|].
  destruct (g_given i j Hi Hj) as [S|[E LE]]; [left; exact S|right].
  destruct (upto_app V i j Hj) as (l & EL). rewrite EL in E at 2. rewrite committed_app, skipn_app, firstn_app in E. rewrite firstn_all2 in E by (rewrite skipn_length; unfold zlen in *; lia).
  rewrite E, EA. set (e := eldest (upto V i) (w_ring (W i))) in *.
  exists (firstn (Z.to_nat (Z.max (q i) e) - Z.to_nat (q i)) (skipn (Z.to_nat (q i)) (h i))). eexists. f_equal. rewrite app_assoc. f_equal.
  replace (skipn (Z.to_nat (Z.max (q i) e)) (h i)) with (skipn (Z.to_nat (Z.max (q i) e) - Z.to_nat (q i)) (skipn (Z.to_nat (q i)) (h i))) by (rewrite skipn_skipn; f_equal; lia).
  symmetry. apply firstn_skipn.
Qed.
End Run.
