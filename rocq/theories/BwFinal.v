(** * Wake-ups, in the words of the specification (C19-C22). *)
From Verif Require Export BwLive.

Lemma data_sock_wt w c s : data_sock w c = Some s <-> exists n, wt true w c n s.
Proof.
  unfold data_sock, wt, wsock. cbn [hnd]. split.
  - destruct (c_live (cli w c)); [|discriminate]. destruct (c_w2r (cli w c)) as [[|n s0 p]|]; try discriminate. intros H. injection H as ->. eauto.
  - intros (n & L & p & E). rewrite L, E. reflexivity.
Qed.
Lemma space_sock_wt w c s : space_sock w c = Some s <-> exists n, wt false w c n s.
Proof.
  unfold space_sock, wt, wsock. cbn [hnd]. split.
  - destruct (c_live (cli w c)); [|discriminate]. destruct (c_r2w (cli w c)) as [[|n s0 p]|]; try discriminate. intros H. injection H as ->. eauto.
  - intros (n & L & p & E). rewrite L, E. reflexivity.
Qed.

Lemma steady_wake w c : steady w (AWake c).
Proof. repeat split. Qed.
Lemma reach_step (P : world -> action -> Prop) r w evs a w' ev : reach P r w evs -> P w a -> step w a = Ok (w', ev) ->
  (r_farm r = true -> zlen (committed (evs ++ ev)) < W64) -> reach P r w' (evs ++ ev).
Proof. intros (fsz & F & X & B) Pa S HB. exists fsz. split; [exact F|]. split; [econstructor; eassumption|exact HB]. Qed.
Lemma reach_bound (P : world -> action -> Prop) r w evs : reach P r w evs -> seq_bound r evs.
Proof. intros (fsz & F & X & B). exact B. Qed.

(** a sleeping client with a queued wake-up *)
Lemma wake_up r w evs c s p : reach steady r w evs -> asleep w c = true -> wait_sid (cli w c) = Some (s, p) -> 0 < k_pend (sk (w_ks w) s) ->
  exists w1, step w (AWake c) = Ok (w1, []) /\ cli w1 c = resume (cli w c) /\ w_ring w1 = w_ring w /\ asleep w1 c = false /\ reach steady r w1 evs.
Proof.
  intros R A Hs Hp. exists (setc (w <| w_ks := bw_recv (w_ks w) s |>) c (resume (cli w c))).
  assert (S : step w (AWake c) = Ok (setc (w <| w_ks := bw_recv (w_ks w) s |>) c (resume (cli w c)), [])).
  { cbn [step]. rewrite Hs. replace (k_pend (sk (w_ks w) s) >? 0) with true by (symmetry; apply Z.gtb_lt; lia). reflexivity. }
  assert (LB : (c < length (w_cl w))%nat).
  { apply pc_bound. unfold asleep in A. intros E. rewrite E in A. discriminate. }
  assert (ME : cli (setc (w <| w_ks := bw_recv (w_ks w) s |>) c (resume (cli w c))) c = resume (cli w c)) by (apply cli_setc_same; exact LB).
  split; [exact S|]. split; [exact ME|]. split; [reflexivity|]. split.
  - unfold asleep. rewrite ME. unfold resume. unfold asleep in A. destruct (c_pc (cli w c)) as [ |? ? ? ?|? ? ? ?|? ?|? ?| | |?|g0 s0 z0]; try discriminate A; reflexivity.
  - rewrite <- (app_nil_r evs). apply (reach_step _ _ _ _ _ _ _ R (steady_wake w c) S). rewrite app_nil_r. apply (reach_bound _ _ _ _ R).
Qed.

Theorem f_reader_wakes r w evs c buf niov : reach steady r w evs ->
  pending c evs = Some (CRead buf niov) -> asleep w c = true -> available (w_ring w) (c_q (cli w c)) <> [] ->
  exists w1, step w (AWake c) = Ok (w1, []) /\ asleep w1 c = false /\ w_ring w1 = w_ring w
    /\ forall e w2 ev, e_lock e = true -> step w1 (ARun c e) = Ok (w2, ev) ->
       asleep w2 c = false /\ exists v b i, ev = [ERet c (RetRead v b i)] /\ (0 < v \/ v = -2).
Proof.
  intros R Pd A Hav. pose proof (reach_sub _ _ _ _ _ steady_contract R) as RC.
  destruct (reach_inv _ _ _ _ id_contract RC) as (fsz & F & X & B & W & HP & HB & _).
  destruct (reach_BI _ _ _ R) as [_ BB]. destruct (reach_NAP _ _ _ R) as [QR _].
  assert (Hpc : c_pc (cli w c) = WaitR buf niov).
  { pose proof (HP c) as Q. rewrite Pd in Q. unfold asleep in A.
    destruct (c_pc (cli w c)) as [ |[| | |] ? ? ?|[| | |] ? ? ?|? ?|? ?| | |?|g0 s0 z0]; cbn [pc_for] in Q; try discriminate A;
      try (destruct Q as (? & Q & ?); discriminate); try (destruct Q as [Q ?]; discriminate).
    injection Q as -> ->. reflexivity. }
  destruct (asleep_sid _ _ _ _ RC A) as [L [s Hs]].
  assert (Hw : exists n, wt true w c n s).
  { unfold wait_sid in Hs. rewrite Hpc in Hs. destruct (c_w2r (cli w c)) as [[|n s0 p]|] eqn:E; try discriminate. injection Hs as -> _. exists n. split; [exact L|]. exists p. exact E. }
  destruct Hw as [n Hw]. pose proof (QR _ _ _ _ _ Hpc Hw Hav) as Hp.
  destruct (wake_up _ _ _ _ _ _ R A Hs Hp) as (w1 & S1 & E1 & ER & A1 & R1). exists w1.
  split; [exact S1|]. split; [exact A1|]. split; [exact ER|]. intros e w2 ev He S2.
  destruct (reach_inv _ _ _ _ steady_contract R1) as (fsz1 & F1 & X1 & B1 & W1 & HP1 & HB1 & _).
  assert (EQ : c_q (cli w1 c) = c_q (cli w c)) by (rewrite E1; unfold resume; rewrite Hpc; reflexivity).
  destruct (read_step _ _ _ _ _ _ _ _ _ W1 HP1 HB1 Pd A1 S2 He) as (_ & Hn & _ & _ & _ & _ & [(EA & _)|(_ & _ & AS & ->)]).
  - rewrite ER, EQ in EA. contradiction.
  - split; [exact AS|]. eexists _, _, _. split; [reflexivity|]. rewrite ER, EQ.
    set (tk := take_fit (Z.to_nat niov) (usable buf) (available (w_ring w) (c_q (cli w c)))).
    destruct tk as [|m t] eqn:E; [right; reflexivity|left].
    assert (HI : In m (committed evs)).
    { destruct (take_fit_prefix (Z.to_nat niov) (usable buf) (available (w_ring w) (c_q (cli w c)))) as [rest TL]. fold tk in TL. rewrite E in TL.
      assert (Hin : In m (available (w_ring w) (c_q (cli w c)))) by (rewrite TL; left; reflexivity).
      pose proof (wi_ring _ _ _ W) as I. destruct (wi_cl _ _ _ W c L) as [ms C].
      rewrite (available_eq _ _ _ (i_inv0 _ _ I) (CI_qok _ _ _ _ C HB)) in Hin.
      rewrite <- (firstn_skipn (Z.to_nat (Z.max (rpos (w_ring w) (committed evs) (c_q (cli w c))) (zlen (committed evs) - r_mp (w_ring w)))) (committed evs)).
      apply in_or_app. right. exact Hin. }
    pose proof (w_ne _ _ _ (i_win _ _ (i_inv0 _ _ (wi_ring _ _ _ W)))) as NE. unfold nonempty in NE. rewrite Forall_forall in NE. specialize (NE _ HI).
    unfold nbytes. cbn [concat]. rewrite zlen_app. pose proof (zlen_nonneg (concat t)). lia.
Qed.

Theorem f_writer_wakes r w evs c : reach steady r w evs -> blocked_msgs w c <> [] ->
  nbytes (ring_unread (w_ring w)) + nbytes (blocked_msgs w c) <= r_n (w_ring w) ->
  zlen (ring_unread (w_ring w)) + zlen (blocked_msgs w c) <= r_mm (w_ring w) ->
  exists w1, step w (AWake c) = Ok (w1, []) /\ asleep w1 c = false /\ w_ring w1 = w_ring w
    /\ forall e w2 ev, e_lock e = true -> step w1 (ARun c e) = Ok (w2, ev) ->
       In (ECommit c (blocked_msgs w c)) ev /\ asleep w2 c = false.
Proof.
  intros R HB0 R1 R2. pose proof (reach_sub _ _ _ _ _ steady_contract R) as RC.
  destruct (reach_inv _ _ _ _ id_contract RC) as (fsz & F & X & B & W & HP & HB & _).
  destruct (reach_BI _ _ _ R) as [_ BB]. destruct (reach_NAP _ _ _ R) as [_ QW].
  unfold blocked_msgs in *. destruct (c_pc (cli w c)) as [ |? ? ? ?|k iov len nb|? ?|? ?| | |?|g0 s0 z0] eqn:Hpc; try contradiction.
  assert (A : asleep w c = true) by (unfold asleep; rewrite Hpc; reflexivity).
  destruct (asleep_sid _ _ _ _ RC A) as [L [s Hs]].
  assert (Hw : exists n, wt false w c n s).
  { unfold wait_sid in Hs. rewrite Hpc in Hs. destruct (c_r2w (cli w c)) as [[|n s0 p]|] eqn:E; try discriminate. injection Hs as -> _. exists n. split; [exact L|]. exists p. exact E. }
  destruct Hw as [n Hw]. assert (RM : room (r_n (w_ring w)) (r_mm (w_ring w)) iov (ring_unread (w_ring w)) = true) by (apply room_iff; auto).
  pose proof (QW _ _ _ _ _ _ _ Hpc Hw RM) as Hp.
  destruct (wake_up _ _ _ _ _ _ R A Hs Hp) as (w1 & S1 & E1 & ER & A1 & RR). exists w1.
  split; [exact S1|]. split; [exact A1|]. split; [exact ER|]. intros e w2 ev He S2.
  destruct (reach_inv _ _ _ _ steady_contract RR) as (fsz1 & F1 & X1 & B1 & W1 & HP1 & HB1 & _).
  assert (P1 : c_pc (cli w1 c) = RunW k iov len nb) by (rewrite E1; unfold resume; rewrite Hpc; reflexivity).
  assert (L1 : c_live (cli w1 c) = true) by (rewrite E1; unfold resume; rewrite Hpc; exact L).
  destruct (write_crit _ _ _ _ _ _ _ _ _ _ _ W1 L1 P1 S2 He) as (_ & _ & [(D1 & D2 & D3 & D4)|(D & U & RT & hw' & cl' & rs & v & E & -> & E0 & V1 & V2)]).
  - rewrite ER in D2. congruence.
  - split; [left; reflexivity|]. unfold asleep. rewrite E0. pose proof (end_write_notSl _ _ _ _ _ _ E) as NS. destruct (c_pc cl'); try reflexivity; destruct NS.
Qed.

(** every commit reaches every reader, every successful read every writer *)
Theorem f_wake_readers r w evs a w' ev c ms : reach steady r w evs -> steady w a -> step w a = Ok (w', ev) -> In (ECommit c ms) ev ->
  forall c' s, data_sock w' c' = Some s -> readable w' s.
Proof.
  intros R Ha HS HI c' s Hd. destruct (reach_inv _ _ _ _ steady_contract R) as (fsz & F & X & B & W & _). destruct (reach_BI _ _ _ R) as [PD BB].
  apply data_sock_wt in Hd. destruct Hd as [n Hd].
  apply (ws_commit _ _ _ _ (step_WS _ _ _ _ _ _ W PD BB Ha HS)) with (c := c') (n := n); [eauto|exact Hd].
Qed.
Theorem f_wake_writers r w evs a w' ev c v b i : reach steady r w evs -> steady w a -> step w a = Ok (w', ev) -> In (ERet c (RetRead v b i)) ev -> 0 < v ->
  forall c' s, space_sock w' c' = Some s -> readable w' s.
Proof.
  intros R Ha HS HI Hv c' s Hd. destruct (reach_inv _ _ _ _ steady_contract R) as (fsz & F & X & B & W & _). destruct (reach_BI _ _ _ R) as [PD BB].
  apply space_sock_wt in Hd. destruct Hd as [n Hd].
  apply (ws_read _ _ _ _ (step_WS _ _ _ _ _ _ W PD BB Ha HS)) with (c := c') (n := n); [eauto 8|exact Hd].
Qed.
(** queued wake-ups are only consumed by the client concerned *)
Theorem f_wake_kept r w evs a w' ev c s : reach steady r w evs -> steady w a -> step w a = Ok (w', ev) -> actor a <> Some c ->
  (data_sock w c = Some s -> data_sock w' c = Some s /\ (readable w s -> readable w' s))
  /\ (space_sock w c = Some s -> space_sock w' c = Some s /\ (readable w s -> readable w' s)).
Proof.
  intros R Ha HS HA. destruct (reach_inv _ _ _ _ steady_contract R) as (fsz & F & X & B & W & _). destruct (reach_BI _ _ _ R) as [PD BB].
  pose proof (step_WS _ _ _ _ _ _ W PD BB Ha HS) as WSS. rewrite !data_sock_wt, !space_sock_wt. unfold readable. split.
  - intros [n Hd]. destruct (ws_other _ _ _ _ WSS _ _ _ _ Hd HA) as [H LE]. split; [eauto|lia].
  - intros [n Hd]. destruct (ws_other _ _ _ _ WSS _ _ _ _ Hd HA) as [H LE]. split; [eauto|lia].
Qed.

(** who is registered, and where *)
Lemma reader_registered r w evs c : reach contract r w evs -> c_live (cli w c) = true -> has (c_flags (cli w c)) SHR_RDONLY = true ->
  exists s, data_sock w c = Some s.
Proof.
  intros R L H. destruct (reach_inv _ _ _ _ id_contract R) as (fsz & F & X & B & W & _). destruct (wi_cl _ _ _ W c L) as [ms C].
  destruct (ci_rd _ _ _ _ C H) as [(n & s & p & E) _]. exists s. unfold data_sock. rewrite L, E. reflexivity.
Qed.
Lemma writer_registered r w evs c : reach contract r w evs -> c_live (cli w c) = true -> has (c_flags (cli w c)) SHR_WRONLY = true ->
  has (c_flags (cli w c)) SHR_NONBLOCK = false -> r_drop (w_ring w) = false -> exists s, space_sock w c = Some s.
Proof.
  intros R L H H1 H2. destruct (reach_inv _ _ _ _ id_contract R) as (fsz & F & X & B & W & _). destruct (wi_cl _ _ _ W c L) as [ms C].
  destruct (ci_wb _ _ _ _ C H H1 H2) as (n & s & p & E). exists s. unfold space_sock. rewrite L, E. reflexivity.
Qed.
Theorem f_registered r w evs : reach steady r w evs ->
  (forall c s, data_sock w c = Some s -> exists n, (n < BW_WAITMAX)%nat /\ k_open (sk (w_ks w) s) = true
      /\ ws_pid (slot_of (w_w2r w) n) = k_pid (sk (w_ks w) s) /\ ws_name (slot_of (w_w2r w) n) = k_name (sk (w_ks w) s) /\ k_pid (sk (w_ks w) s) <> 0)
  /\ (forall c s, space_sock w c = Some s -> exists n, (n < BW_WAITMAX)%nat /\ k_open (sk (w_ks w) s) = true
      /\ ws_pid (slot_of (w_r2w w) n) = k_pid (sk (w_ks w) s) /\ ws_name (slot_of (w_r2w w) n) = k_name (sk (w_ks w) s) /\ k_pid (sk (w_ks w) s) <> 0)
  /\ (forall c c' s, data_sock w c = Some s -> data_sock w c' = Some s -> c = c')
  /\ (forall c c' s, space_sock w c = Some s -> space_sock w c' = Some s -> c = c')
  /\ (forall c c' s, data_sock w c = Some s -> space_sock w c' = Some s -> False).
Proof.
  intros R. destruct (reach_BI _ _ _ R) as [_ BB]. split; [|split; [|split; [|split]]].
  - intros c s H. apply data_sock_wt in H. destruct H as [n H]. exists n. destruct (bi_wt _ BB _ _ _ _ H) as (A1 & A2 & A3 & A4). cbn [whd] in A4. unfold slot_of. rewrite A4. auto.
  - intros c s H. apply space_sock_wt in H. destruct H as [n H]. exists n. destruct (bi_wt _ BB _ _ _ _ H) as (A1 & A2 & A3 & A4). cbn [whd] in A4. unfold slot_of. rewrite A4. auto.
  - intros c c' s H H'. apply data_sock_wt in H. apply data_sock_wt in H'. destruct H as [n H], H' as [n' H']. apply (bi_own _ BB _ _ _ _ _ _ _ H H').
  - intros c c' s H H'. apply space_sock_wt in H. apply space_sock_wt in H'. destruct H as [n H], H' as [n' H']. apply (bi_own _ BB _ _ _ _ _ _ _ H H').
  - intros c c' s H H'. apply data_sock_wt in H. apply space_sock_wt in H'. destruct H as [n H], H' as [n' H']. destruct (bi_own _ BB _ _ _ _ _ _ _ H H'). discriminate.
Qed.

(** ** the selectable descriptor *)
Theorem f_ready r w evs c s : reach steady r w evs -> data_sock w c = Some s -> nonblocking w c = true ->
  available (w_ring w) (c_q (cli w c)) <> [] -> readable w s.
Proof.
  intros R Hd Hn Hav. apply data_sock_wt in Hd. destruct Hd as [n Hd]. apply (reach_READY _ _ _ R c n s Hn Hd Hav).
Qed.
Theorem f_unready r w evs c s buf niov e w' ev : reach steady r w evs -> steady w (ARun c e) -> data_sock w c = Some s ->
  pending c evs = Some (CRead buf niov) -> asleep w c = false ->
  step w (ARun c e) = Ok (w', ev) -> e_lock e = true -> asleep w' c = false ->
  (readable w' s <-> available (w_ring w') (c_q (cli w' c)) <> []).
Proof.
  intros R [[_ G] _] Hd Pd A HS He A'. destruct (reach_inv _ _ _ _ steady_contract R) as (fsz & F & X & B & W & HP & HB & _). destruct (reach_BI _ _ _ R) as [PD BB].
  apply data_sock_wt in Hd. destruct Hd as [n Hd].
  destruct (read_own _ _ _ _ _ _ _ _ _ _ _ W HB BB G He Hd (run_pc _ _ _ _ _ HP Pd A) HS) as [Q1 Q2].
  assert (N : notSl (c_pc (cli w' c))) by (unfold asleep in A'; destruct (c_pc (cli w' c)); try exact Logic.I; discriminate A').
  unfold readable. split.
  - intros Hp Ha. specialize (Q2 Ha N). lia.
  - intros Ha. destruct Q1; [contradiction|lia].
Qed.
Theorem f_open_ready r w evs e flags pid w' ev c s : reach steady r w evs -> steady w (AOpen e flags pid) ->
  step w (AOpen e flags pid) = Ok (w', ev) -> ev = [EOpen flags (Some c)] -> data_sock w' c = Some s ->
  (readable w' s <-> available (w_ring w') (c_q (cli w' c)) <> []).
Proof.
  intros R Ha HS Hev Hd. destruct (reach_inv _ _ _ _ steady_contract R) as (fsz & F & X & B & W & HP & HB & _). destruct (reach_BI _ _ _ R) as [PD BB].
  assert (c = length (w_cl w)).
  { cbn [step] in HS. apply obind_ok in HS. destruct HS as ([w1 o] & E & HS). destruct (do_open_split _ _ _ _ _ _ E) as [[-> ->]|(El & Hv & hs & Eo & Hcl)]; [injection HS as _ HS; rewrite Hev in HS; discriminate|].
    destruct Ha as [[HC HG] HN]. pose proof HC as (_ & HP0 & Hex). cbn [good_env new_names] in HG, HN. assert (Hp0 : pid <> 0) by lia.
    destruct (open_bw _ _ _ _ _ _ BB HG HN Hp0 (roles_excl _ Hv Hex) Eo) as [O1 O2 O3 O4 O5 O6 O7 O8 O9 O10].
    destruct o as [cl|]; injection HS as _ HS; rewrite Hev in HS; [|discriminate]. injection HS as HS. rewrite O1 in HS. symmetry. exact HS. }
  subst c. apply data_sock_wt in Hd. destruct Hd as [n Hd].
  pose proof (open_reader _ _ _ _ _ _ _ _ _ _ W HB BB Ha HS Hd) as OR.
  destruct (list_eq_dec _ _ _) as [Q|Q] in OR; unfold readable; split; intros H; try lia; try contradiction; assumption.
Qed.
