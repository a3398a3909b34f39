(** * After the last kill: a non-blocking reader driven by its descriptor (for C96) *)
From Verif Require Import Effects Final Pending Trace StepInv ReadCall Calls WriteCall KillBwFinal Farm FairFarm.
From Verif Require FairPoll.
From Verif Require Export KillFarm.

Lemma read_own2 w0 w evs c e n s buf niov w' ev : WI w0 w evs -> seq_bound (w_ring w) evs -> BI2 w -> good_sockets (w_ks w) e -> e_lock e = true ->
  has (c_flags (cli w c)) SHR_NONBLOCK = true ->
  wt true w c n s -> c_pc (cli w c) = RunR buf niov -> step w (ARun c e) = Ok (w', ev) ->
  (available (w_ring w') (c_q (cli w' c)) = [] \/ 0 < k_pend (sk (w_ks w') s))
  /\ c_w2r (cli w' c) = c_w2r (cli w c) /\ c_live (cli w' c) = true /\ c_pc (cli w' c) = Idle.
Proof.
  intros W HB B G He NB Hwt Hpc HS. pose proof Hwt as [Hl [pl Ewr]]. cbn [hnd] in Ewr.
  destruct (b2_wt _ B true c n s) as (_ & HO & _); [exact Hwt|]. pose proof (sk_open_lt _ _ HO) as LS.
  destruct (wi_cl _ _ _ W c Hl) as [ms C]. pose proof (ci_pc _ _ _ _ C) as P. unfold pc_ok in P. rewrite Hpc in P.
  destruct P as (Hr & Hb & Hn). pose proof (CI_qok _ _ _ _ C HB) as Hq. pose proof (wi_ring _ _ _ W) as I.
  pose proof (i_inv0 _ _ I) as I0.
  destruct (ring_read_ok _ _ _ (c_md (cli w c)) buf niov I Hq Hb Hn) as [Q1 Q2].
  set (k := Z.max (rpos (w_ring w) (committed evs) (c_q (cli w c))) (zlen (committed evs) - r_mp (w_ring w))) in *.
  assert (EA : skipn (Z.to_nat k) (committed evs) = available (w_ring w) (c_q (cli w c))) by (symmetry; apply available_eq; [exact I0|exact Hq]).
  set (av := available (w_ring w) (c_q (cli w c))) in *.
  rewrite !EA in Q1, Q2. rewrite clamp_usable in Q2. set (taken := take_fit (Z.to_nat niov) (usable buf) av) in *.
  pose proof (live_bound _ _ Hl) as LB.
  assert (SAME : forall w1 cl1, w_cl w1 = w_cl w -> cli (setc w1 c cl1) c = cl1).
  { intros w1 cl1 E. apply cli_setc_same. rewrite E. exact LB. }
  assert (KB : 0 <= k <= zlen (committed evs)).
  { pose proof (w_old _ _ _ (i_win _ _ I0)). pose proof (i_m _ _ I0). unfold k, rpos. destruct (r_farm (w_ring w)) eqn:Hf; [destruct (Hq Hf)|]; lia. }
  cbn [step] in HS. rewrite Hl in HS. unfold run_client in HS. rewrite Hpc in HS. unfold crit_read in HS.
  rewrite He in HS. cbn [negb] in HS. destruct (ci_rd _ _ _ _ C Hr) as [_ (sq & cs & Erw)].
  destruct (list_eq_dec (list_eq_dec Z.eq_dec) av []) as [Eav|Nav].
  - rewrite (Q1 Eav) in HS. cbn [obind c_w2r c_flags set] in HS. rewrite Ewr, NB in HS.
    assert (AV : forall q', q' = (if r_farm (w_ring w) then k else c_q (cli w c)) -> available (w_ring w) q' = []).
    { intros q' ->. destruct (r_farm (w_ring w)) eqn:Hf; [|exact Eav]. rewrite Eav in EA. rewrite skipn_is_nil in EA. destruct (Hq Hf) as [Hq1 _].
      apply (avail_end _ _ _ I); [intros _; split; [exact Hq1|lia]|]. rewrite Hf. left. unfold zlen in *. lia. }
    apply obind_ok in HS. destruct HS as (res & E1 & HS). apply obind_ok in E1. destruct E1 as ([ks ok] & Ef & E1).
    injection E1 as <-. injection HS as <- <-. rewrite (SAME (w <| w_ks := ks |>)) by reflexivity. cbn [w_ring w_ks setc set c_q c_pc c_w2r c_live].
    split; [left; apply AV; reflexivity|auto].
  - destruct (Q2 Nav) as (x & cur' & E & I' & S' & U & RT & Emp & ST & Bf & Io & Nr & Zi & CUR).
    rewrite E in HS. cbn [obind c_w2r c_r2w c_flags set] in HS. rewrite Erw in HS.
    assert (HF : r_farm (rd_ring x) = r_farm (w_ring w)) by (apply same_dims_farm, same_fixed_dims, S').
    assert (TK : zlen taken <= zlen (committed evs) - k).
    { destruct (take_fit_prefix (Z.to_nat niov) (usable buf) av) as [rest TL]. fold taken in TL. rewrite <- EA in TL.
      apply (f_equal (@length _)) in TL. rewrite skipn_length, app_length in TL. unfold zlen in *. lia. }
    assert (AV : forall q', q' = (if r_farm (w_ring w) then k + zlen taken else c_q (cli w c)) -> (available (rd_ring x) q' = [] <-> cur' = None)).
    { intros q' ->. rewrite CUR. pose proof (i_inv0 _ _ I') as I0'. pose proof (w_old _ _ _ (i_win _ _ I0)). pose proof (i_m _ _ I0). pose proof (zlen_nonneg taken) as TN.
      destruct (r_farm (w_ring w)) eqn:Hf.
      - destruct (Hq Hf) as [Hq1 Hq2]. rewrite (avail_end _ _ _ I') by (intros _; split; [exact Hq1|lia]). rewrite HF, Emp.
        assert (r_mp (w_ring w) <> 0); [|lia]. intros Z0. apply Nav. rewrite <- EA, skipn_is_nil. unfold k. rewrite Z0. unfold zlen. lia.
      - unfold available. rewrite HF, U. rewrite skipn_is_nil. rewrite (unread_eq _ _ I0). unfold lastn. rewrite skipn_length. unfold k, rpos in *. rewrite Hf in *. unfold zlen in *.
      clear - TK H H0 TN. rewrite Nat2Z.id. split; lia. }
    apply obind_ok in HS. destruct HS as (res & E1 & HS). apply obind_ok in E1. destruct E1 as ([w1 cl1] & E1 & E2).
    assert (HE : honest_sockets (w_ks w) e) by (destruct G; constructor; assumption).
    assert (W1 : w_ring w1 = rd_ring x /\ w_cl w1 = w_cl w /\ c_w2r cl1 = Some (Wait n s pl) /\ c_live cl1 = true
      /\ c_q cl1 = (if r_farm (w_ring w) then k + zlen taken else c_q (cli w c)) /\ KI (w_ks w1) /\ (length (w_ks w) <= length (w_ks w1))%nat).
    { destruct (rd_nr x >? 0).
      - apply obind_ok in E1. destruct E1 as ([[[ks bh] hh] ok] & Eb & E1). injection E1 as <- <-.
        cbn [w_ks w_r2w set] in Eb.
        destruct (wake_comp w c false sq cs e ks bh hh ok B HE Hl Erw Eb) as (KN & _).
        split; [reflexivity|]. split; [reflexivity|]. split; [exact Ewr|]. split; [exact Hl|]. split; [reflexivity|]. split; [apply (kn_ki _ _ _ _ KN)|apply (kn_len _ _ _ _ KN)].
      - injection E1 as <- <-. split; [reflexivity|]. split; [reflexivity|]. split; [exact Ewr|]. split; [exact Hl|]. split; [reflexivity|]. split; [apply (b2_k _ B)|reflexivity]. }
    destruct W1 as (W1 & W2 & W3 & WL & W4 & W5 & W6). rewrite W3 in E2. apply obind_ok in E2. destruct E2 as ([ks2 ok2] & Ef & E2).
    injection E2 as <-. injection HS as <- <-. rewrite (SAME (w1 <| w_ks := ks2 |>)) by exact W2. cbn [w_ring w_ks setc set c_q c_pc c_w2r c_live]. rewrite W1.
    destruct (force_spec _ _ _ _ _ _ W5 (gs_force _ _ G) Ef) as (n1 & s1 & p1 & Q & -> & S & F2 & F3). injection Q as <- <- <-.
    assert (LS1 : (s < length (w_ks w1))%nat) by lia. specialize (F3 LS1).
    rewrite (AV _ W4). split; [|rewrite W3, WL, Ewr; auto]. destruct cur'; [right; exact F3|left; reflexivity].
Qed.

Section Loop.
Variables (r : ring) (W : nat -> world) (D : nat -> deed) (V : nat -> list event) (i0 d : nat).
Hypothesis FV : kforever steady r W D V.
Hypothesis NK : no_kills D i0.
Hypothesis K : kevent_loop r W D V d i0.
Notation q j := (c_q (cli (W j) d)). Notation h j := (committed (upto V j)).
Notation kav j := (available (w_ring (W j)) (c_q (cli (W j) d))).

Lemma l_live j : (i0 <= j)%nat -> c_live (cli (W j) d) = true.
Proof. intros H. apply (kl_live _ _ _ _ _ _ K j H). Qed.
Lemma l_calls j : (i0 <= j)%nat -> forall x, pending d (upto V j) = Some x -> exists buf niov, x = CRead buf niov /\ r_n r <= usable buf /\ 0 < niov.
Proof.
  induction 1 as [|j Hj IH]; intros x Px; [rewrite (kl_rest _ _ _ _ _ _ K) in Px; discriminate|].
  cbn [upto] in Px. apply FairPoll.pending_from in Px. destruct Px as [Px|Px]; [apply IH; exact Px|].
  destruct (nk r W D V i0 FV NK j Hj) as (a & Ea & Ha & HS).
  apply (FairPoll.call_step _ _ _ _ _ _ HS) in Px. subst a. destruct (kl_calls _ _ _ _ _ _ K j x Hj Ea) as ((buf & niov & Ec & B1 & B2) & _). injection Ec as ->. eauto.
Qed.
Lemma l_grown j : (i0 <= j)%nat -> kav j = [] -> kav (S j) <> [] -> exists c ms, In (ECommit c ms) (V j).
Proof.
  intros H E N. destruct (r_farm r) eqn:Hf.
  2: { apply (grown r W D V i0 FV NK j H).
    - rewrite <- (na_avail r W D V FV j d Hf). exact E.
    - rewrite <- (na_avail r W D V FV (S j) d Hf). exact N. }
  assert (GN : forall j, (i0 <= j)%nat -> kav j = skipn (Z.to_nat (Z.max (q j) (eldest (upto V j) (w_ring (W j))))) (h j) /\ 0 <= q j <= zlen (h j)).
  { clear j H E N. intros j H. destruct (kf_facts _ _ _ _ FV j) as (fsz & F & WW & HP & HB & _ & EF & _ & _ & _ & _ & HQ). specialize (HQ d (l_live j H) Hf). split; [|exact HQ].
    rewrite (available_eq _ _ _ (i_inv0 _ _ (wi_ring _ _ _ WW))).
    - unfold rpos. rewrite EF, Hf, (eldest_mp _ _ _ WW). reflexivity.
    - intros _. split; [apply (kf_bound _ _ _ _ _ FV j Hf)|exact HQ]. }
  assert (M : q j <= q (S j)).
  { destruct (nk r W D V i0 FV NK j H) as (a & Ea & Ha & HS). destruct (kf_facts _ _ _ _ FV j) as (fsz & F & WW & HP & HB & _ & EF & _).
    apply (q_mono _ _ _ _ _ _ _ WW (steady_contract _ _ Ha) HS); [congruence|apply (kf_bound _ _ _ _ _ FV j Hf)|apply l_live; lia|apply l_live; lia]. }
  destruct (GN j H) as [E1 Q1]. destruct (GN (S j) ltac:(lia)) as [E2 Q2].
  destruct (nk_effect r W D V i0 FV NK j H) as [g EE]. rewrite E1 in E. rewrite E2 in N. clear E1 E2.
  assert (SAME : committed (V j) = [] -> ring_retained (w_ring (W (S j))) = ring_retained (w_ring (W j)) -> False).
  { intros C R. apply N. assert (EH : h (S j) = h j) by (cbn [upto]; rewrite committed_app, C; apply app_nil_r).
    assert (EE' : eldest (upto V (S j)) (w_ring (W (S j))) = eldest (upto V j) (w_ring (W j))) by (unfold eldest; rewrite EH, R; reflexivity).
    rewrite EH, EE'. apply (f_equal (@length _)) in E. rewrite skipn_length in E. cbn in E. apply skipn_all2. lia. }
  revert SAME.
  destruct EE as [ev r' D1 D2 D3 U RT _|c v so t r' U RT _ _ _ _|c iov0 rs dropped wok r' D1 D2 D3 D4 D5 D6 U RT _|c v buf iov0 av ln niov r' D1 D2 D3 taken D4 D5 D6 U RT _]; intros SAME.
  - elim (SAME D1 RT).
  - elim (SAME eq_refl RT).
  - exists c, iov0. left. reflexivity.
  - elim (SAME eq_refl RT).
Qed.
Definition kbell j := asleep (W j) d = false /\ (kav j <> [] -> exists s, data_sock (W j) d = Some s /\ readable (W j) s).
Lemma l_bell j : (i0 <= j)%nat -> kbell j.
Proof.
  induction 1 as [|j Hj [As IH]].
  - split.
    + destruct (kf_facts _ _ _ _ FV i0) as (fsz & F & WW & HP & _). specialize (HP d). rewrite (kl_rest _ _ _ _ _ _ K) in HP. unfold asleep.
      destruct (c_pc (cli (W i0) d)) as [ |[| | |] ? ? ?|[| | |] ? ? ?|? ?|? ?| | |?|g0 s0 z0]; try reflexivity; cbn [pc_for] in HP; try discriminate; try (destruct HP as [? ?]; discriminate). destruct HP as (? & ? & ?); discriminate.
    + intros N. destruct (kl_first _ _ _ _ _ _ K) as [Q|Q]; [contradiction|exact Q].
  - destruct (nk r W D V i0 FV NK j Hj) as (a & Ea & Ha & HS).
    destruct (kf_facts _ _ _ _ FV j) as (fsz & F & WW & HP & HB & _).
    destruct (kl_live _ _ _ _ _ _ K j Hj) as (L & RD & NB). destruct (kl_live _ _ _ _ _ _ K (S j) ltac:(lia)) as (L' & RD' & NB').
    pose proof (steady_reach_flaky _ _ _ (kf_reach _ _ _ _ FV j)) as R.
    assert (DS : exists n s p, c_w2r (cli (W j) d) = Some (Wait n s p)).
    { destruct (wi_cl _ _ _ WW d L) as [m C]. apply (ci_rd _ _ _ _ C RD). }
    destruct DS as (n & s & p & Ew). assert (Ed : data_sock (W j) d = Some s) by (unfold data_sock; rewrite L, Ew; reflexivity).
    destruct (kreach_BI2 _ _ _ R) as (w0' & W0 & _ & PD & B2).
    assert (KEEP : forall cl1 w1, W (S j) = setc w1 d cl1 -> w_cl w1 = w_cl (W j) -> w_ring w1 = w_ring (W j) -> w_ks w1 = w_ks (W j) -> c_q cl1 = q j -> c_w2r cl1 = c_w2r (cli (W j) d) ->
        match c_pc cl1 with WaitR _ _ | WaitW _ _ _ _ => False | _ => True end -> kbell (S j)).
    { intros cl1 w1 EW EC ER EK EQ EH EP. assert (EL : cli (W (S j)) d = cl1) by (rewrite EW; apply cli_setc_same; rewrite EC; apply live_bound; exact L).
      split; [unfold asleep; rewrite EL; destruct (c_pc cl1); auto; contradiction|].
      intros N. unfold data_sock. rewrite L', EL, EH, Ew. exists s. split; [reflexivity|].
      destruct IH as (s0 & E0 & R0); [|rewrite Ed in E0; injection E0 as <-].
      - rewrite EL, EW, EQ in N. cbn [w_ring setc set] in N. rewrite ER in N. exact N.
      - unfold readable. rewrite EW. cbn [w_ks setc set]. rewrite EK. exact R0. }
    assert (SAME : W (S j) = W j -> kbell (S j)).
    { intros E. unfold kbell. rewrite E. split; [exact As|exact IH]. }
    destruct (who _ _ _ _ _ _ d WW (steady_contract _ _ Ha) HS L') as [HA|[(HA & EC)|(e & fl & pid & -> & -> & _)]].
    + destruct a as [e fl pid|c1 x|c1 e|c1|c1|c1 fd|c1]; cbn [actor] in HA; try discriminate HA; injection HA as ->.
      * destruct (kl_calls _ _ _ _ _ _ K j x Hj Ea) as ((buf & niov & Ex & B1 & B3) & _). injection Ex as ->.
        cbn [step] in HS. rewrite L in HS. cbn [negb] in HS. destruct (c_pc (cli (W j) d)) eqn:Hpc; try (injection HS as EW _; apply SAME; congruence).
        cbn [start_call] in HS. rewrite RD in HS. cbn [negb obind] in HS. destruct ((zlen buf =? 0) || (niov =? 0)); cbn [obind] in HS; injection HS as EW _.
        -- apply (KEEP (cli (W j) d) (W j)); auto. rewrite Hpc. exact Logic.I.
        -- apply (KEEP ((cli (W j) d) <| c_pc := RunR buf niov |>) (W j)); auto. exact Logic.I.
      * pose proof (kl_lock _ _ _ _ _ _ K j e Hj Ea) as He. destruct (pending d (upto V j)) as [x|] eqn:Px.
        -- destruct (l_calls j Hj x Px) as (buf & niov & -> & _). pose proof (run_pc _ _ _ _ _ HP Px As) as Hpc.
           destruct Ha as [[_ G] _]. destruct (read_own2 _ _ _ _ _ n s _ _ _ _ WW HB B2 G He NB (conj L (ex_intro _ p Ew)) Hpc HS) as (Q1 & Q2 & Q3 & Q4).
           split; [unfold asleep; rewrite Q4; reflexivity|]. intros N. exists s. split; [unfold data_sock; rewrite L', Q2, Ew; reflexivity|]. destruct Q1; [contradiction|assumption].
        -- apply SAME. cbn [step] in HS. rewrite L in HS. specialize (HP d). rewrite Px in HP. unfold run_client in HS.
           destruct (c_pc (cli (W j) d)) as [ |[| | |] ? ? ?|[| | |] ? ? ?|? ?|? ?| | |?|g0 s0 z0]; cbn [pc_for] in HP; try discriminate; try (destruct HP as [? ?]; discriminate); try (destruct HP as (? & ? & ?); discriminate).
           injection HS as EW _. congruence.
      * apply SAME. cbn [step] in HS. unfold wait_sid in HS. unfold asleep in As. destruct (c_pc (cli (W j) d)); try discriminate As; injection HS as EW _; congruence.
      * apply SAME. cbn [step] in HS. unfold wait_failed in HS. unfold asleep in As. destruct (c_pc (cli (W j) d)); try discriminate As; injection HS as EW _; congruence.
      * apply SAME. cbn [step] in HS. unfold wait_sid, wait_failed in HS. unfold asleep in As. destruct (c_pc (cli (W j) d)); try discriminate As; injection HS as EW _; congruence.
      * exfalso. cbn [step] in HS. rewrite L in HS. cbn [negb] in HS. injection HS as EW _. rewrite <- EW in L'. rewrite cli_setc_same in L' by (apply live_bound; exact L). discriminate.
    + split; [unfold asleep in *; rewrite EC; exact As|]. intros N. destruct (k_wake_kept _ _ _ _ _ _ d s R (steady_flaky _ _ Ha) HS HA) as [KP _]. destruct (KP Ed) as [Ed' RK].
      exists s. split; [exact Ed'|]. destruct (kav j) eqn:EA.
      * destruct (l_grown j Hj EA N) as (c' & ms & HI).
        apply (k_wake_readers r _ (upto V j) a _ (V j) c' ms R (steady_flaky _ _ Ha) HS HI) with (c' := d); [left; apply Ha|exact Ed'].
      * destruct IH as (s0 & E0 & R0); [discriminate|]. rewrite Ed in E0. injection E0 as <-. apply RK, R0.
    + exfalso. apply live_bound in L. lia.
Qed.
(** whenever there is something for it, its descriptor says so *)
Theorem l_ready j : (i0 <= j)%nat -> kav j <> [] -> exists s, data_sock (W j) d = Some s /\ readable (W j) s.
Proof. intros H. apply (l_bell j H). Qed.
Lemma l_reads : reads_on r W D V d i0.
Proof.
  constructor.
  - apply K.
  - intros j Hj. destruct (kl_live _ _ _ _ _ _ K j Hj) as (A1 & A2 & _). auto.
  - apply K.
  - intros j x Hj Px. apply (l_calls j Hj x Px).
  - intros j. destruct (kl_again _ _ _ _ _ _ K (Nat.max j i0)) as (k & Hk & [Q|[_ Q]]); exists k; (split; [lia|]); [auto|].
    right. right. destruct (kav k) eqn:E; [reflexivity|]. destruct (l_ready k) as (s & Es & Rs); [lia|rewrite E; discriminate|]. elim (Q s Es Rs).
  - apply K.
Qed.
End Loop.

Theorem l_delivery r W D V i0 : kforever steady r W D V -> no_kills D i0 ->
  forall d, kevent_loop r W D V d i0 -> r_drop r = false -> forall i, (i0 <= i)%nat ->
  exists j more, (i <= j)%nat /\ delivered (upto V j) = delivered (upto V i) ++ ring_unread (w_ring (W i)) ++ more.
Proof. intros FV NK d K. exact (n_delivery r W D V i0 FV NK d (l_reads r W D V i0 d FV NK K)). Qed.
Theorem l_pipe r W D V i0 : kforever steady r W D V -> no_kills D i0 ->
  forall c d, kevent_loop r W D V d i0 -> kfair W D V c -> pending c (upto V i0) = None -> (forall j, (i0 <= j)%nat -> ~ written_by_other c (V j)) ->
  forall x i, (forall buf niov, x <> CRead buf niov) -> (i0 <= i)%nat -> pending c (upto V i) = Some x -> exists j, (i <= j)%nat /\ ends c (V j).
Proof. intros FV NK c d K. exact (n_pipe r W D V i0 FV NK c d (l_reads r W D V i0 d FV NK K)). Qed.
Theorem l_farm r W D V i0 d : kforever steady r W D V -> no_kills D i0 -> r_farm r = true -> kevent_loop r W D V d i0 ->
  forall i c ms, (i0 <= i)%nat -> In (ECommit c ms) (V i) -> exists j, (i < j)%nat /\
  ((exists k, (i <= k < j)%nat /\ exists e x, D k = Acts (ARun d e) /\ x = eldest (upto V k) (w_ring (W k)) - c_q (cli (W k) d)
      /\ 0 < x < W64 /\ c_md (cli (W (S k)) d) = u64 (c_md (cli (W k) d) + x))
   \/ exists pre post, delivered_to d (upto V j) = delivered_to d (upto V i) ++ pre ++ ms ++ post).
Proof. intros FV NK Hf K. exact (g_farm r W D V i0 d FV NK Hf (l_reads r W D V i0 d FV NK K)). Qed.
