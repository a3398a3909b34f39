(** * Power failures: wake-ups go on working (C85) *)
From Verif Require Import MicroFacts Crash Effects Final Pending PollFacts StepInv WorldFacts BwFinal Calls.
From Verif Require Export RebootFinal.

Record WK (w : world) : Prop := mkWK { wk_p : PIDS w; wk_b : BI w; wk_s : forall c, sleepW w c; wk_n : NAP w }.
Lemma WK_start r fsz : WK (world0 r fsz).
Proof.
  constructor; [intros c; rewrite world0_cli; discriminate|apply BI_start|intros c; unfold sleepW; rewrite world0_cli; exact Logic.I|].
  split; intros c; intros; rewrite world0_cli in *; discriminate.
Qed.
Lemma WK_off w x : okim x -> WK (off w x).
Proof.
  intros (A1 & A2 & A3 & A4). assert (DL : forall c, c_live (cli (off w x) c) = true -> False) by (intros c; rewrite cli_off; discriminate). constructor.
  - intros c H. destruct (DL _ H).
  - constructor.
    + constructor; cbn [off w_ks]; intros; [cbn in *; lia|rewrite sk_out by (cbn; lia); cbn; lia|rewrite sk_out by (cbn; lia); cbn; lia].
    + intros []; assumption.
    + intros []; assumption.
    + intros b c n s [H _]. destruct (DL _ H).
    + intros b c q cs [H _]. destruct (DL _ H).
    + intros b c n s b' c' n' [H _]. destruct (DL _ H).
  - intros c. unfold sleepW. rewrite cli_off. exact Logic.I.
  - split; intros c; intros; rewrite cli_off in *; discriminate.
Qed.
Section Wake.
Variables (mid : bool) (P : world -> action -> Prop) (r : ring) (fsz : Z).
Hypothesis HP : forall w a, P w a -> faultless w a /\ steady w a.
Hypothesis F : fresh r fsz.
Hypothesis SY : has (r_gflags r) SHR_SYNC = true.
Lemma rexec_WK w evs u : rexec mid P (world0 r fsz) w evs u -> seq_bound r evs -> WK w.
Proof.
  pose proof (fun w a h => proj1 (HP w a h)) as HF. intros X. induction X as [|w evs u a w' ev m u' X IH Pa S D|w evs u x X IH Op S|w evs u c e x line m M X IH Op Pa Hl Fx D U E|w evs u e flags pid x line m M X IH Op Pa Fx D E|w evs u a x w' ev M X IH Op Pa Fx S E]; intros B.
  - apply WK_start.
  - pose proof (seq_bound_app _ _ _ B) as B1. destruct (IH B1) as [P1 P2 P3 P4]. pose proof (rexec_inv mid P r fsz HF F SY _ _ _ X B1) as R.
    pose proof (ri_wi _ _ _ _ _ _ R) as W. destruct (HP _ _ Pa) as [_ ST]. pose proof (steady_contract _ _ ST) as C.
    assert (W' : WI (world0 r fsz) w' (evs ++ ev)) by (apply (step_WI _ w _ a); auto; apply (wi_bound _ _ _ _ _ W B1)). constructor.
    + apply (step_PIDS _ _ _ _ _ _ W P1 C S).
    + apply (ws_bi _ _ _ _ (step_WS _ _ _ _ _ _ W P1 P2 ST S)).
    + exact (step_sleepW _ _ _ _ _ _ W W' C (step_inv _ _ _ _ S) P3).
    + exact (step_NAP _ _ _ _ _ _ W (ri_pi _ _ _ _ _ _ R) W' (wi_bound _ _ _ _ _ W B) ST S P1 P2 P3 P4).
  - pose proof (rexec_inv mid P r fsz HF F SY _ _ _ X (seq_bound_app _ _ _ B)) as R. apply WK_off.
    pose proof (ri_op _ _ _ _ _ _ R Op) as N. destruct u as [l|]; [|congruence]. exact (okst_survives _ _ (ri_st _ _ _ _ _ _ R) S).
  - rewrite app_assoc in B. pose proof (rexec_inv mid P r fsz HF F SY _ _ _ X (seq_bound_app _ _ _ (seq_bound_app _ _ _ B))) as R. apply WK_off. exact (ri_fails _ _ _ _ _ _ _ _ R Op Fx).
  - pose proof (rexec_inv mid P r fsz HF F SY _ _ _ X (seq_bound_app _ _ _ B)) as R. apply WK_off. exact (ri_fails _ _ _ _ _ _ _ _ R Op Fx).
  - rewrite app_assoc in B. pose proof (rexec_inv mid P r fsz HF F SY _ _ _ X (seq_bound_app _ _ _ (seq_bound_app _ _ _ B))) as R. apply WK_off. exact (ri_fails _ _ _ _ _ _ _ _ R Op Fx).
Qed.
End Wake.

(** a sleeping client has a socket *)
Lemma sleeper w0 w evs c : WI w0 w evs -> sleepW w c -> asleep w c = true -> c_live (cli w c) = true /\ exists s, wait_sid (cli w c) = Some (s, mon (cli w c)).
Proof.
  intros W SW H.
  assert (Hl : c_live (cli w c) = true).
  { destruct (c_live (cli w c)) eqn:E; [reflexivity|]. pose proof (wi_dead _ _ _ W c E) as D. unfold asleep in H. rewrite D in H. discriminate. }
  split; [exact Hl|]. destruct (wi_cl _ _ _ W c Hl) as [ms C]. pose proof (ci_pc _ _ _ _ C) as P. unfold pc_ok, asleep, sleepW, wait_sid, mon in *.
  destruct (c_pc (cli w c)) as [ |k iov len nb|k iov len nb|buf niov|buf niov| | | |]; try discriminate.
  - destruct P as (Hw & _). destruct SW as (_ & _ & n & s & p & E). rewrite (ci_role _ _ _ _ C), Hw, E. cbn [negb hp]. eauto.
  - destruct P as (Hr & _). destruct (ci_rd _ _ _ _ C Hr) as [(n & s & p & E) _]. rewrite Hr, E. cbn [hp]. eauto.
Qed.
Lemma wakes w c s p : asleep w c = true -> wait_sid (cli w c) = Some (s, p) -> 0 < k_pend (sk (w_ks w) s) ->
  exists w1, step w (AWake c) = Ok (w1, []) /\ cli w1 c = resume (cli w c) /\ w_ring w1 = w_ring w /\ asleep w1 c = false.
Proof.
  intros A Hs Hp. exists (setc (w <| w_ks := bw_recv (w_ks w) s |>) c (resume (cli w c))).
  assert (LB : (c < length (w_cl w))%nat).
  { apply pc_bound. unfold asleep in A. intros E. rewrite E in A. discriminate. }
  assert (ME : cli (setc (w <| w_ks := bw_recv (w_ks w) s |>) c (resume (cli w c))) c = resume (cli w c)) by (apply cli_setc_same; exact LB).
  split; [|split; [exact ME|split; [reflexivity|]]].
  - cbn [step]. rewrite Hs. replace (k_pend (sk (w_ks w) s) >? 0) with true by (symmetry; apply Z.gtb_lt; lia). reflexivity.
  - unfold asleep. rewrite ME. unfold resume. unfold asleep in A. destruct (c_pc (cli w c)) as [ |? ? ? ?|? ? ? ?|? ?|? ?| | |?|g0 s0 z0]; try discriminate A; reflexivity.
Qed.

Lemma wake_inv mid r w evs u : rreach mid (fun w a => faultless w a /\ steady w a) r w evs u -> has (r_gflags r) SHR_SYNC = true ->
  exists fsz, fresh r fsz /\ RI mid r fsz w evs u /\ seq_bound r evs /\ WK w.
Proof.
  intros (fsz & F & D & B) SY. exists fsz. split; [exact F|]. split; [|split; [exact B|]].
  - apply (rexec_inv mid (fun w a => faultless w a /\ steady w a) r fsz); auto. tauto.
  - apply (rexec_WK mid (fun w a => faultless w a /\ steady w a) r fsz (fun w a h => h) F SY w evs u D B).
Qed.
Lemma wake_WI r fsz mid w evs u c w1 : RI mid r fsz w evs u -> WK w -> seq_bound r evs -> step w (AWake c) = Ok (w1, []) ->
  WI (world0 r fsz) w1 evs /\ PI w1 evs /\ seq_bound (w_ring w1) evs.
Proof.
  intros R K B S. pose proof (ri_wi _ _ _ _ _ _ R) as W. pose proof (wi_bound _ _ _ _ _ W B) as BW. pose proof (steady_contract _ _ (steady_wake w c)) as C.
  assert (W1 : WI (world0 r fsz) w1 (evs ++ [])) by (apply (step_WI _ w _ (AWake c)); auto).
  pose proof (step_PI _ _ _ _ _ _ W (ri_pi _ _ _ _ _ _ R) C S) as P1. rewrite app_nil_r in *. split; [exact W1|]. split; [exact P1|]. exact (wi_bound _ _ _ _ _ W1 B).
Qed.

Theorem rb_reader_wakes mid r w evs u c buf niov : rreach mid (fun w a => faultless w a /\ steady w a) r w evs u -> has (r_gflags r) SHR_SYNC = true ->
  pending c evs = Some (CRead buf niov) -> asleep w c = true -> available (w_ring w) (c_q (cli w c)) <> [] ->
  exists w1, step w (AWake c) = Ok (w1, []) /\ asleep w1 c = false /\ w_ring w1 = w_ring w
    /\ forall e w2 ev, e_lock e = true -> step w1 (ARun c e) = Ok (w2, ev) ->
       asleep w2 c = false /\ exists v b i, ev = [ERet c (RetRead v b i)] /\ (0 < v \/ v = -2).
Proof.
  intros D SY Pd A Hav. destruct (wake_inv _ _ _ _ _ D SY) as (fsz & F & RR & B & K). pose proof (ri_wi _ _ _ _ _ _ RR) as W. pose proof (ri_pi _ _ _ _ _ _ RR) as HP.
  pose proof (wi_bound _ _ _ _ _ W B) as HB. destruct (wk_n _ K) as [QR _].
  assert (Hpc : c_pc (cli w c) = WaitR buf niov).
  { pose proof (HP c) as Q. rewrite Pd in Q. unfold asleep in A.
    destruct (c_pc (cli w c)) as [ |[| | |] ? ? ?|[| | |] ? ? ?|? ?|? ?| | |?|g0 s0 z0]; cbn [pc_for] in Q; try discriminate A;
      try (destruct Q as (? & Q & ?); discriminate); try (destruct Q as [Q ?]; discriminate).
    injection Q as -> ->. reflexivity. }
  destruct (sleeper _ _ _ _ W (wk_s _ K c) A) as [L [s Hs]].
  assert (Hw : exists n, wt true w c n s).
  { unfold wait_sid in Hs. rewrite Hpc in Hs. destruct (c_w2r (cli w c)) as [[|n s0 p]|] eqn:E; try discriminate. injection Hs as -> _. exists n. split; [exact L|]. exists p. exact E. }
  destruct Hw as [n Hw]. pose proof (QR _ _ _ _ _ Hpc Hw Hav) as Hp.
  destruct (wakes _ _ _ _ A Hs Hp) as (w1 & S1 & E1 & ER & A1). exists w1.
  split; [exact S1|]. split; [exact A1|]. split; [exact ER|]. intros e w2 ev He S2.
  destruct (wake_WI _ _ _ _ _ _ _ _ RR K B S1) as (W1 & HP1 & HB1).
  assert (EQ : c_q (cli w1 c) = c_q (cli w c)) by (rewrite E1; unfold resume; rewrite Hpc; reflexivity).
  destruct (read_step _ _ _ _ _ _ _ _ _ W1 HP1 HB1 Pd A1 S2 He) as (_ & Hn & _ & _ & _ & _ & [(EA & _)|(_ & _ & AS & ->)]).
  - rewrite ER, EQ in EA. contradiction.
  - split; [exact AS|]. eexists _, _, _. split; [reflexivity|]. rewrite ER, EQ.
    set (tk := take_fit (Z.to_nat niov) (usable buf) (available (w_ring w) (c_q (cli w c)))).
    destruct tk as [|m t] eqn:E; [right; reflexivity|left].
    assert (HI : In m (committed evs)).
    { destruct (take_fit_prefix (Z.to_nat niov) (usable buf) (available (w_ring w) (c_q (cli w c)))) as [rest TL]. fold tk in TL. rewrite E in TL.
      assert (Hin : In m (available (w_ring w) (c_q (cli w c)))) by (rewrite TL; left; reflexivity).
      pose proof (wi_ring _ _ _ W) as I. destruct (wi_cl _ _ _ W c L) as [ms C].
      rewrite (available_eq _ _ _ (i_inv0 _ _ I) (CI_qok _ _ _ _ C HB)) in Hin.
      rewrite <- (firstn_skipn (Z.to_nat (Z.max (rpos (w_ring w) (committed evs) (c_q (cli w c))) (zlen (committed evs) - r_mp (w_ring w)))) (committed evs)).
      apply in_or_app. right. exact Hin. }
    pose proof (w_ne _ _ _ (i_win _ _ (i_inv0 _ _ (wi_ring _ _ _ W)))) as NE. unfold nonempty in NE. rewrite Forall_forall in NE. specialize (NE _ HI).
    unfold nbytes. cbn [concat]. rewrite zlen_app. pose proof (zlen_nonneg (concat t)). lia.
Qed.

Theorem rb_writer_wakes mid r w evs u c : rreach mid (fun w a => faultless w a /\ steady w a) r w evs u -> has (r_gflags r) SHR_SYNC = true -> blocked_msgs w c <> [] ->
  nbytes (ring_unread (w_ring w)) + nbytes (blocked_msgs w c) <= r_n (w_ring w) ->
  zlen (ring_unread (w_ring w)) + zlen (blocked_msgs w c) <= r_mm (w_ring w) ->
  exists w1, step w (AWake c) = Ok (w1, []) /\ asleep w1 c = false /\ w_ring w1 = w_ring w
    /\ forall e w2 ev, e_lock e = true -> step w1 (ARun c e) = Ok (w2, ev) ->
       In (ECommit c (blocked_msgs w c)) ev /\ asleep w2 c = false.
Proof.
  intros D SY HB0 R1 R2. destruct (wake_inv _ _ _ _ _ D SY) as (fsz & F & RR & B & K). pose proof (ri_wi _ _ _ _ _ _ RR) as W. destruct (wk_n _ K) as [_ QW].
  unfold blocked_msgs in *. destruct (c_pc (cli w c)) as [ |? ? ? ?|k iov len nb|? ?|? ?| | |?|g0 s0 z0] eqn:Hpc; try contradiction.
  assert (A : asleep w c = true) by (unfold asleep; rewrite Hpc; reflexivity).
  destruct (sleeper _ _ _ _ W (wk_s _ K c) A) as [L [s Hs]].
  assert (Hw : exists n, wt false w c n s).
  { unfold wait_sid in Hs. rewrite Hpc in Hs. destruct (c_r2w (cli w c)) as [[|n s0 p]|] eqn:E; try discriminate. injection Hs as -> _. exists n. split; [exact L|]. exists p. exact E. }
  destruct Hw as [n Hw]. assert (RM : room (r_n (w_ring w)) (r_mm (w_ring w)) iov (ring_unread (w_ring w)) = true) by (apply room_iff; auto).
  pose proof (QW _ _ _ _ _ _ _ Hpc Hw RM) as Hp.
  destruct (wakes _ _ _ _ A Hs Hp) as (w1 & S1 & E1 & ER & A1). exists w1.
  split; [exact S1|]. split; [exact A1|]. split; [exact ER|]. intros e w2 ev He S2.
  destruct (wake_WI _ _ _ _ _ _ _ _ RR K B S1) as (W1 & _ & _).
  assert (P1 : c_pc (cli w1 c) = RunW k iov len nb) by (rewrite E1; unfold resume; rewrite Hpc; reflexivity).
  assert (L1 : c_live (cli w1 c) = true) by (rewrite E1; unfold resume; rewrite Hpc; exact L).
  destruct (write_crit _ _ _ _ _ _ _ _ _ _ _ W1 L1 P1 S2 He) as (_ & _ & [(D1 & D2 & D3 & D4)|(DD & U & RT & hw' & cl' & rs & v & E & -> & E0 & V1 & V2)]).
  - rewrite ER in D2. congruence.
  - split; [left; reflexivity|]. unfold asleep. rewrite E0. pose proof (end_write_notSl _ _ _ _ _ _ E) as NS. destruct (c_pc cl'); try reflexivity; destruct NS.
Qed.
