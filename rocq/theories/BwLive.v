(** * No lost wake-ups: whenever a process sleeps although it could proceed, a
    wake-up is queued for it. *)
From Verif Require Export BwStep.

Lemma steady_contract : forall w a, steady w a -> contract w a.
Proof. intros w a [[H _] _]. exact H. Qed.
Lemma reach_sub (P Q : world -> action -> Prop) r w evs : (forall w a, P w a -> Q w a) -> reach P r w evs -> reach Q r w evs.
Proof. intros H (fsz & F & X & B). exists fsz. split; [exact F|]. split; [apply (exec_mono P Q); assumption|exact B]. Qed.

Lemma BI_start r fsz : BI (world0 r fsz).
Proof.
  assert (NW : forall b c, hnd b (cli (world0 r fsz) c) = None) by (intros b c; rewrite world0_cli; destruct b; reflexivity).
  constructor.
  - constructor.
    + intros s s' H. cbn in H. lia.
    + intros s. rewrite sk_out by (cbn; lia). cbn. lia.
    + intros s. rewrite sk_out by (cbn; lia). cbn. lia.
  - intros []; reflexivity.
  - intros []; cbn; lia.
  - intros b c n s [_ [p H]]. rewrite NW in H. discriminate.
  - intros b c q cs [_ H]. rewrite NW in H. discriminate.
  - intros b c n s b' c' n' [_ [p H]]. rewrite NW in H. discriminate.
Qed.
Lemma step_PIDS w0 w evs a w' ev : WI w0 w evs -> PIDS w -> contract w a -> step w a = Ok (w', ev) -> PIDS w'.
Proof.
  intros W HP HC HS c L. destruct (step_ids _ _ _ _ _ _ W HC HS) as (_ & A & B).
  destruct (Nat.lt_ge_cases c (length (w_cl w))) as [Hc|Hc].
  - destruct (A c Hc L) as (K1 & _ & K3). rewrite K3. apply HP. rewrite <- K1. exact L.
  - destruct (B c L Hc) as (flags & -> & _ & -> & _). destruct a as [e fl pid|c x|c e|c|c|c fd|c].
    2-7: exfalso; apply step_inv in HS; inversion HS; subst; match goal with H : rets _ ?rs = _ |- _ => destruct rs; discriminate end.
    + pose proof HC as (_ & Hp & _). cbn [step] in HS. apply obind_ok in HS. destruct HS as ([w1 o] & E & HS).
      destruct o as [cl|]; [|discriminate HS]. injection HS as <- _ _.
      assert (EC : w_cl w1 = w_cl w).
      { destruct (do_open_ok e w fl pid _ (wi_ring _ _ _ W) HC) as (w2 & o2 & E' & _ & E2 & _). rewrite E in E'. injection E' as <- <-. exact E2. }
      destruct (do_open_split _ _ _ _ _ _ E) as [[_ Q]|(_ & _ & hs & _ & Q)]; [discriminate Q|]. destruct (Q _ eq_refl) as (x & y & ca & _ & _ & ->).
      unfold cli. cbn [w_cl set]. rewrite EC. rewrite app_nth2, Nat.sub_diag by lia. exact Hp.
Qed.

Lemma reach_BI r w evs : reach steady r w evs -> PIDS w /\ BI w.
Proof.
  intros (fsz & F & X & B). refine (exec_ind_inv steady r fsz (fun w evs => PIDS w /\ BI w) steady_contract F _ _ w evs X B).
  { split; [intros c; rewrite world0_cli; discriminate|apply BI_start]. }
  clear w evs X B. intros w evs a w' ev X W HP W' HB HC HS SI _ [Q1 Q2]. split.
  - apply (step_PIDS _ _ _ _ _ _ W Q1 (steady_contract _ _ HC) HS).
  - apply (ws_bi _ _ _ _ (step_WS _ _ _ _ _ _ W Q1 Q2 HC HS)).
Qed.

(** ** what a reader can get *)
Lemma avail_mono r r' h q g ev : Inv r h -> Inv r' h -> r_farm r' = r_farm r -> (r_farm r = true -> zlen h < W64) ->
  effect g r h ev r' -> committed ev = [] -> available r' q <> [] -> available r q <> [].
Proof.
  intros I I' HF HB EF HC. unfold available. rewrite HF. destruct (r_farm r) eqn:Hf.
  - specialize (HB eq_refl). pose proof (i_inv0 _ _ I) as J. pose proof (i_inv0 _ _ I') as J'.
    assert (RT : ring_retained r' = ring_retained r).
    { destruct EF as [| |c iov rs dropped wok r' D1 D2 D3 D4|]; try assumption.
      rewrite committed_commit in HC. subst iov. destruct D4 as (D4 & _). contradiction. }
    rewrite RT. rewrite (rq_eq _ _ J HB), (rq_eq _ _ J' HB).
    assert (MP : r_mp r' = r_mp r).
    { rewrite (retained_eq _ _ J), (retained_eq _ _ J') in RT. apply (f_equal (@length _)) in RT. unfold lastn in RT. rewrite !skipn_length in RT.
      pose proof (w_old _ _ _ (i_win _ _ J)). pose proof (i_m _ _ J). pose proof (w_old _ _ _ (i_win _ _ J')). pose proof (i_m _ _ J'). unfold zlen in *. lia. }
    rewrite MP. auto.
  - destruct EF as [ev r' D1 D2 D3 U _ _|c v so t r' U _ _ _ _ _|c iov rs dropped wok r' D1 D2 D3 D4|c v buf iov av len niov r' D1 D2 D3 taken D4 D5 D6 U _ _].
    + rewrite U. auto.
    + rewrite U. auto.
    + rewrite committed_commit in HC. subst iov. destruct D4 as (D4 & _). contradiction.
    + rewrite U, Hf. intros H E. rewrite E in H. destruct (Z.to_nat (zlen taken)); apply H; reflexivity.
Qed.

(** ** the actor of a step *)
Definition notSl (p : pc) : Prop := match p with WaitW _ _ _ _ | WaitR _ _ => False | _ => True end.
Lemma go_write_notSl cl iov len cl' rs : go_write cl iov len = Ok (cl', rs) -> notSl (c_pc cl').
Proof.
  unfold go_write. destruct (has (c_flags cl) SHR_BUFFERED); [|intros H; inj H; exact Logic.I].
  destruct (_ && _).
  - intros H. apply obind_ok in H. destruct H as (ca & _ & H). inj H. exact Logic.I.
  - destruct (ca_n (c_cache cl) =? 0); [intros H; inj H; exact Logic.I|].
    intros H. apply obind_ok in H. destruct H as (ms & _ & H). destruct (wr_check _ _ _); inj H; exact Logic.I.
Qed.
Lemma end_write_notSl cl k iov v cl' rs : end_write cl k iov v = Ok (cl', rs) -> notSl (c_pc cl').
Proof.
  destruct k; cbn [end_write]; intros H; try (inj H; exact Logic.I).
  destruct (v <=? 0); [inj H; exact Logic.I|]. apply go_write_notSl in H. exact H.
Qed.
Lemma flush_write_notSl cl k nb cl' rs : flush_write cl k nb = Ok (cl', rs) -> notSl (c_pc cl').
Proof.
  unfold flush_write. intros H. apply obind_ok in H. destruct H as (ms & _ & H).
  destruct (wr_check _ _ _); [inj H; exact Logic.I|]. destruct k; inj H; exact Logic.I.
Qed.
Lemma start_call_notSl cl x cl' rs : c_pc cl = Idle -> start_call cl x = Ok (cl', rs) -> notSl (c_pc cl').
Proof.
  intros Hp. destruct x as [buf niov|iov|wait| |reset|reset|get st sz|fd| ]; cbn [start_call]; intros H.
  - destruct (has _ _); [|discriminate]. destruct (_ || _); inj H; [rewrite Hp|]; exact Logic.I.
  - unfold start_write in H. destruct (has _ _); [|discriminate].
    destruct (wr_check _ _ _); [apply go_write_notSl in H; exact H|inj H; rewrite Hp; exact Logic.I].
  - unfold start_flush in H. destruct (has _ _); [|discriminate].
    destruct (_ =? _); [inj H; rewrite Hp; exact Logic.I|].
    destruct (_ && _); [destruct (c_r2w cl)|]; try (apply flush_write_notSl in H; exact H). inj H; exact Logic.I.
  - unfold start_close in H. destruct (_ =? _); [inj H; exact Logic.I|].
    destruct (has _ _); [|discriminate]. apply flush_write_notSl in H; exact H.
  - inj H; exact Logic.I.
  - unfold do_farm_stat in H. destruct (has _ _); [|discriminate]. cbn [obind] in H. inj H. destruct reset; cbn [c_pc set]; rewrite Hp; exact Logic.I.
  - inj H; exact Logic.I.
  - apply obind_ok in H. destruct H as ([cl1 v] & E & H). injection H as <- <-. unfold do_ctl in E.
    apply obind_ok in E. destruct E as ([cl2 sc1] & E1 & E). apply obind_ok in E. destruct E as ([cl3 sc2] & E2 & E). injection E as <- _.
    assert (S1 : c_pc cl2 = Idle).
    { destruct (has (c_flags cl) SHR_WRONLY); [|injection E1 as <- _; exact Hp]. destruct (c_r2w cl); [|injection E1 as <- _; exact Hp].
      apply obind_ok in E1. destruct E1 as ([b' ok] & _ & E1). injection E1 as <- _. exact Hp. }
    assert (S2 : c_pc cl3 = Idle).
    { destruct (has (c_flags cl2) SHR_RDONLY); [|injection E2 as <- _; exact S1]. destruct (c_w2r cl2); [|discriminate].
      apply obind_ok in E2. destruct E2 as ([b' ok] & _ & E2). injection E2 as <- _. exact S1. }
    rewrite S2. exact Logic.I.
  - inj H; rewrite Hp; exact Logic.I.
Qed.

Lemma own_step w0 w evs a w' ev c : WI w0 w evs -> stepI w a w' ev -> actor a = Some c -> c_live (cli w' c) = true ->
  w' = w
  \/ (notSl (c_pc (cli w' c)) /\ ((exists e buf niov, a = ARun c e /\ c_pc (cli w c) = RunR buf niov) \/ c_q (cli w' c) = c_q (cli w c))
      /\ (a = AWake c -> forall buf niov, c_pc (cli w c) = WaitR buf niov -> c_pc (cli w' c) = RunR buf niov))
  \/ (exists e buf niov, a = ARun c e /\ e_lock e = true /\ has (c_flags (cli w c)) SHR_NONBLOCK = false /\ c_pc (cli w c) = RunR buf niov /\ c_pc (cli w' c) = WaitR buf niov)
  \/ (exists e k iov len, a = ARun c e /\ c_pc (cli w c) = RunW k iov len false /\ c_pc (cli w' c) = WaitW k iov len false
      /\ w_ring w' = w_ring w /\ ring_write (w_ring w) (c_mm (cli w c)) iov len = Ok None).
Proof.
  intros W SI HA L'.
  assert (GO : forall w1 cl1, w' = setc w1 c cl1 -> w_cl w1 = w_cl w -> (c < length (w_cl w))%nat -> cli w' c = cl1).
  { intros w1 cl1 -> E H. apply cli_setc_same. rewrite E. exact H. }
  destruct SI as
   [ a
   | e flags pid w' E
   | e flags pid w' cl E
   | c1 x cl' rs Hl Hpc E
   | c1 e k iov len nb v cl' rs Hl Hpc Hv E
   | c1 e k iov len n s p Hl Hpc He E Er
   | c1 e k iov len nb r1 hw ks bh hw' wok r2 rv cl' rs Hl Hpc He E Ew Eb E2 Ev Ee
   | c1 e buf niov Hl Hpc He
   | c1 e buf niov q md h ks ok Hl Hpc He Hnb E Eh Ef
   | c1 e buf niov q md n s p Hl Hpc He Hnb E Eh
   | c1 e buf niov q md x cur' hr r2w' ks1 bh1 ks2 ok h Hl Hpc He E Eh Er Hn0 Hn1 Ef
   | c1 e w' Hl Hpc Hw'
   | c1 e ks h b cl' rs Hl Hpc He E Ee
   | c1 e Hl Hpc
   | c1 e reset r1 x Hl Hpc E
   | c1 e get st sz r1 x Hl Hpc E
   | c1 sid polls Hs Hp
   | a c1 sc k iov len nb cl' rs Ha Hpc E
   | a c1 sc buf niov Ha Hpc
   | c1 Hl ].
  all: try discriminate HA.
  all: try (destruct Ha as [[-> Hsc]|[[fd ->] Hsc]]).
  all: try (injection HA as HA; subst c1).
  all: try (pose proof (live_bound _ _ Hl) as LB).
  all: try (assert (LB : (c < length (w_cl w))%nat) by (apply pc_bound; rewrite Hpc; discriminate)).
  all: try (left; reflexivity).
  all: right.
  all: try (match goal with |- context [setc ?w1 _ ?cl1] => pose proof (GO w1 cl1 eq_refl eq_refl LB) as ME; rewrite ME end).
  - left. destruct (start_call_id _ _ _ _ E) as [ID _]. split; [apply (start_call_notSl _ _ _ _ Hpc E)|]. split; [right; apply (id_q _ _ ID)|discriminate].
  - left. destruct (end_write_id _ _ _ _ _ _ E) as [ID _]. split; [apply (end_write_notSl _ _ _ _ _ _ E)|]. split; [right; apply (id_q _ _ ID)|discriminate].
  - right. right. exists e, k, iov, len. repeat split; assumption.
  - left. destruct (end_write_id _ _ _ _ _ _ Ee) as [ID _]. split; [apply (end_write_notSl _ _ _ _ _ _ Ee)|]. split; [right; apply (id_q _ _ ID)|discriminate].
  - left. split; [exact Logic.I|]. split; [right; reflexivity|discriminate].
  - left. split; [exact Logic.I|]. split; [left; eauto|discriminate].
  - right. left. exists e, buf, niov. repeat split; assumption.
  - left. split; [exact Logic.I|]. split; [left; eauto|discriminate].
  - left. rewrite (GO w' _ eq_refl) by (try exact LB; destruct Hw' as [->|(? & ? & _ & _ & ->)]; reflexivity).
    split; [exact Logic.I|]. split; [right; reflexivity|discriminate].
  - left. destruct (flush_write_id _ _ _ _ _ Ee) as [ID _]. split; [apply (flush_write_notSl _ _ _ _ _ Ee)|]. split; [right; apply (id_q _ _ ID)|discriminate].
  - exfalso. rewrite cli_setc_same in L'; [discriminate L'|]. destruct (e_lock e); [rewrite close_handles_cl|]; exact LB.
  - left. split; [exact Logic.I|]. split; [right; reflexivity|discriminate].
  - left. split; [exact Logic.I|]. split; [right; reflexivity|discriminate].
  - left. assert (LB : (c < length (w_cl w))%nat).
    { apply pc_bound. unfold wait_sid in Hs. intros Hn. rewrite Hn in Hs. discriminate. }
    rewrite (GO _ _ eq_refl eq_refl LB). unfold resume, wait_sid in *. destruct (c_pc (cli w c)) as [ |? ? ? ?|? ? ? ?|? ?|? ?| | |?|g0 s0 z0] eqn:Ep; try discriminate Hs; cbn [c_pc c_q set].
    + split; [exact Logic.I|]. split; [right; reflexivity|discriminate].
    + split; [exact Logic.I|]. split; [right; reflexivity|]. intros _ b n H. injection H as -> ->. reflexivity.
  - left. destruct (end_write_id _ _ _ _ _ _ E) as [ID _]. split; [apply (end_write_notSl _ _ _ _ _ _ E)|]. split; [right; apply (id_q _ _ ID)|discriminate].
  - left. destruct (end_write_id _ _ _ _ _ _ E) as [ID _]. split; [apply (end_write_notSl _ _ _ _ _ _ E)|]. split; [right; apply (id_q _ _ ID)|discriminate].
  - left. split; [exact Logic.I|]. split; [right; reflexivity|discriminate].
  - left. split; [exact Logic.I|]. split; [right; reflexivity|discriminate].
  - exfalso. rewrite cli_setc_same in L' by exact LB. discriminate L'.
Qed.

(** a reader's own pass *)
Lemma avail_end r h q : Inv r h -> (r_farm r = true -> zlen h < W64 /\ 0 <= q <= zlen h) ->
  (available r q = [] <-> (if r_farm r then q = zlen h \/ r_mp r = 0 else r_m r = 0)).
Proof.
  intros I H. pose proof (i_inv0 _ _ I) as I0. rewrite (available_eq _ _ _ I0 H), skipn_is_nil. unfold rpos.
  pose proof (w_old _ _ _ (i_win _ _ I0)). pose proof (i_m _ _ I0). unfold zlen in *.
  destruct (r_farm r) eqn:Hf; [destruct (H eq_refl)|]; lia.
Qed.

Lemma read_own w0 w evs c e n s buf niov w' ev : WI w0 w evs -> seq_bound (w_ring w) evs -> BI w -> good_sockets (w_ks w) e -> e_lock e = true ->
  wt true w c n s -> c_pc (cli w c) = RunR buf niov -> step w (ARun c e) = Ok (w', ev) ->
  (available (w_ring w') (c_q (cli w' c)) = [] \/ 0 < k_pend (sk (w_ks w') s))
  /\ (available (w_ring w') (c_q (cli w' c)) = [] -> notSl (c_pc (cli w' c)) -> k_pend (sk (w_ks w') s) = 0).
Proof.
  intros W HB B G He [Hl [pl Ewr]] Hpc HS. cbn [hnd] in Ewr.
  destruct (bi_wt _ B true c n s) as (_ & HO & _); [split; [exact Hl|exists pl; exact Ewr]|]. pose proof (sk_open_lt _ _ HO) as LS.
  destruct (wi_cl _ _ _ W c Hl) as [ms C]. pose proof (ci_pc _ _ _ _ C) as P. unfold pc_ok in P. rewrite Hpc in P.
  destruct P as (Hr & Hb & Hn). pose proof (CI_qok _ _ _ _ C HB) as Hq. pose proof (wi_ring _ _ _ W) as I.
  pose proof (i_inv0 _ _ I) as I0.
  destruct (ring_read_ok _ _ _ (c_md (cli w c)) buf niov I Hq Hb Hn) as [Q1 Q2].
  set (k := Z.max (rpos (w_ring w) (committed evs) (c_q (cli w c))) (zlen (committed evs) - r_mp (w_ring w))) in *.
  assert (EA : skipn (Z.to_nat k) (committed evs) = available (w_ring w) (c_q (cli w c))) by (symmetry; apply available_eq; [exact I0|exact Hq]).
  set (av := available (w_ring w) (c_q (cli w c))) in *.
  rewrite !EA in Q1, Q2. rewrite clamp_usable in Q2. set (taken := take_fit (Z.to_nat niov) (usable buf) av) in *.
  pose proof (live_bound _ _ Hl) as LB.
  assert (SAME : forall w1 cl1, w_cl w1 = w_cl w -> cli (setc w1 c cl1) c = cl1).
  { intros w1 cl1 E. apply cli_setc_same. rewrite E. exact LB. }
  assert (KB : 0 <= k <= zlen (committed evs)).
  { pose proof (w_old _ _ _ (i_win _ _ I0)). pose proof (i_m _ _ I0). unfold k, rpos. destruct (r_farm (w_ring w)) eqn:Hf; [destruct (Hq Hf)|]; lia. }
  cbn [step] in HS. rewrite Hl in HS. unfold run_client in HS. rewrite Hpc in HS. unfold crit_read in HS.
  rewrite He in HS. cbn [negb] in HS. destruct (ci_rd _ _ _ _ C Hr) as [_ (sq & cs & Erw)].
  destruct (list_eq_dec (list_eq_dec Z.eq_dec) av []) as [Eav|Nav].
  - rewrite (Q1 Eav) in HS. cbn [obind c_w2r c_flags set] in HS. rewrite Ewr in HS.
    assert (AV : forall q', q' = (if r_farm (w_ring w) then k else c_q (cli w c)) -> available (w_ring w) q' = []).
    { intros q' ->. destruct (r_farm (w_ring w)) eqn:Hf; [|exact Eav]. rewrite Eav in EA. rewrite skipn_is_nil in EA. destruct (Hq Hf) as [Hq1 _].
      apply (avail_end _ _ _ I); [intros _; split; [exact Hq1|lia]|]. rewrite Hf. left. unfold zlen in *. lia. }
    destruct (has (c_flags (cli w c)) SHR_NONBLOCK).
    + apply obind_ok in HS. destruct HS as (res & E1 & HS). apply obind_ok in E1. destruct E1 as ([ks ok] & Ef & E1).
      injection E1 as <-. injection HS as <- <-. rewrite (SAME (w <| w_ks := ks |>)) by reflexivity. cbn [w_ring w_ks setc set c_q c_pc].
      destruct (force_spec _ _ _ _ _ _ (bi_k _ B) (gs_force _ _ G) Ef) as (n1 & s1 & p1 & Q & -> & S & F2 & F3). injection Q as <- <- <-.
      split; [left; apply AV; reflexivity|]. intros _ _. apply F3. exact LS.
    + cbn [obind] in HS. injection HS as <- <-. rewrite (SAME w) by reflexivity. cbn [w_ring w_ks setc set c_q c_pc].
      split; [left; apply AV; reflexivity|]. intros _ [].
  - destruct (Q2 Nav) as (x & cur' & E & I' & S' & U & RT & Emp & ST & Bf & Io & Nr & Zi & CUR).
    rewrite E in HS. cbn [obind c_w2r c_r2w c_flags set] in HS. rewrite Erw in HS.
    assert (HF : r_farm (rd_ring x) = r_farm (w_ring w)) by (apply same_dims_farm, same_fixed_dims, S').
    assert (TK : zlen taken <= zlen (committed evs) - k).
    { destruct (take_fit_prefix (Z.to_nat niov) (usable buf) av) as [rest TL]. fold taken in TL. rewrite <- EA in TL.
      apply (f_equal (@length _)) in TL. rewrite skipn_length, app_length in TL. unfold zlen in *. lia. }
    assert (AV : forall q', q' = (if r_farm (w_ring w) then k + zlen taken else c_q (cli w c)) -> (available (rd_ring x) q' = [] <-> cur' = None)).
    { intros q' ->. rewrite CUR. pose proof (i_inv0 _ _ I') as I0'. pose proof (w_old _ _ _ (i_win _ _ I0)). pose proof (i_m _ _ I0). pose proof (zlen_nonneg taken) as TN.
      destruct (r_farm (w_ring w)) eqn:Hf.
      - destruct (Hq Hf) as [Hq1 Hq2]. rewrite (avail_end _ _ _ I') by (intros _; split; [exact Hq1|lia]). rewrite HF, Emp.
        assert (r_mp (w_ring w) <> 0); [|lia]. intros Z0. apply Nav. rewrite <- EA, skipn_is_nil. unfold k. rewrite Z0. unfold zlen. lia.
      - unfold available. rewrite HF, U. rewrite skipn_is_nil. rewrite (unread_eq _ _ I0). unfold lastn. rewrite skipn_length. unfold k, rpos in *. rewrite Hf in *. unfold zlen in *.
      clear - TK H H0 TN. rewrite Nat2Z.id. split; lia. }
    apply obind_ok in HS. destruct HS as (res & E1 & HS). apply obind_ok in E1. destruct E1 as ([w1 cl1] & E1 & E2).
    assert (W1 : w_ring w1 = rd_ring x /\ w_cl w1 = w_cl w /\ c_w2r cl1 = Some (Wait n s pl)
      /\ c_q cl1 = (if r_farm (w_ring w) then k + zlen taken else c_q (cli w c)) /\ up (w_ks w) (w_ks w1)).
    { destruct (rd_nr x >? 0).
      - apply obind_ok in E1. destruct E1 as ([[[ks bh] hh] ok] & Eb & E1). injection E1 as <- <-.
        assert (G1 : genv (w_ks w) (w_r2w w) (slots false w) e) by (rewrite <- (app_nil_r (w_ks w)); apply (BI_genv w false); assumption).
        assert (WK : waker_ok (w_ks w) (w_r2w w) sq cs) by (apply (bi_wk _ B false c); split; assumption).
        cbn [w_ks w_r2w set] in Eb.
        destruct (bw_wake_spec _ _ _ _ _ _ _ _ _ _ G1 (bi_k _ B) WK Eb) as (-> & UP & _). auto.
      - injection E1 as <- <-. split; [reflexivity|]. split; [reflexivity|]. split; [exact Ewr|]. split; [reflexivity|apply up_refl]. }
    destruct W1 as (W1 & W2 & W3 & W4 & W5). rewrite W3 in E2. apply obind_ok in E2. destruct E2 as ([ks2 ok2] & Ef & E2).
    injection E2 as <-. injection HS as <- <-. rewrite (SAME (w1 <| w_ks := ks2 |>)) by exact W2. cbn [w_ring w_ks setc set c_q c_pc]. rewrite W1.
    destruct (force_spec _ _ _ _ _ _ (up_KI _ _ W5 (bi_k _ B)) (gs_force _ _ G) Ef) as (n1 & s1 & p1 & Q & -> & S & F2 & F3). injection Q as <- <- <-.
    assert (LS1 : (s < length (w_ks w1))%nat) by (rewrite (up_len _ _ W5); exact LS). specialize (F3 LS1).
    rewrite (AV _ W4). destruct cur'; [split; [right; exact F3|discriminate]|]. split; [left; reflexivity|]. intros _ _. exact F3.
Qed.

(** ** what a blocked writer waits for *)
Lemma room_mono g r r' h ev iov : Inv r h -> r_n r' = r_n r -> r_mm r' = r_mm r -> r_drop r = false -> effect g r h ev r' ->
  room (r_n r') (r_mm r') iov (ring_unread r') = true ->
  room (r_n r) (r_mm r) iov (ring_unread r) = true \/ exists c v buf io, In (ERet c (RetRead v buf io)) ev /\ 0 < v.
Proof.
  intros I E1 E2 Hd EF. rewrite E1, E2. pose proof (i_inv0 _ _ I) as I0.
  destruct EF as [ev r' D1 D2 D3 U _ _|c v so t r' U _ _ _ _ _|c iov0 rs dropped wok r' D1 D2 D3 D4 D5 D6 U _ _|c v buf iov0 av len niov r' D1 D2 D3 taken D4 D5 D6 U _ _].
  - rewrite U. auto.
  - rewrite U. auto.
  - rewrite U. destruct (D5 Hd) as [R ->]. cbn [app] in D6. rewrite <- D6. rewrite !room_iff, nbytes_app, zlen_app. intros H. left.
    pose proof (zlen_nonneg iov0). assert (0 <= nbytes iov0) by apply zlen_nonneg. lia.
  - rewrite U. destruct (r_farm r) eqn:Hf; [auto|]. specialize (D1 eq_refl).
    assert (TN : forall m, In m taken -> 0 < zlen m).
    { intros m Hm. destruct (take_fit_prefix niov len av) as [rest TL]. fold taken in TL.
      assert (HI : In m h). { assert (In m av) by (rewrite TL; apply in_or_app; left; exact Hm). rewrite D1, (unread_eq _ _ I0) in H. unfold lastn in H.
        rewrite <- (firstn_skipn (Z.to_nat (zlen h - r_m r)) h). apply in_or_app. right. exact H. }
      pose proof (w_ne _ _ _ (i_win _ _ I0)) as NE. unfold nonempty in NE. rewrite Forall_forall in NE. apply NE. exact HI. }
    destruct taken as [|m t].
    + cbn. auto.
    + intros _. right. exists c, v, buf, iov0. split; [left; reflexivity|]. rewrite D5. unfold nbytes. cbn [concat]. rewrite zlen_app.
      pose proof (TN m (or_introl eq_refl)). pose proof (zlen_nonneg (concat t)). lia.
Qed.

Definition NAP (w : world) : Prop :=
  (forall c buf niov n s, c_pc (cli w c) = WaitR buf niov -> wt true w c n s -> available (w_ring w) (c_q (cli w c)) <> [] -> 0 < k_pend (sk (w_ks w) s))
  /\ (forall c k iov len nb n s, c_pc (cli w c) = WaitW k iov len nb -> wt false w c n s ->
       room (r_n (w_ring w)) (r_mm (w_ring w)) iov (ring_unread (w_ring w)) = true -> 0 < k_pend (sk (w_ks w) s)).

Lemma commit_or ev : (exists c ms, In (ECommit c ms) ev) \/ committed ev = [].
Proof.
  induction ev as [|x t IH]; [right; reflexivity|]. destruct IH as [(c & ms & H)|H]; [left; exists c, ms; right; exact H|].
  destruct x as [| |c ms| |]; try (right; exact H). left. exists c, ms. left. reflexivity.
Qed.

(** a client of the new state is the actor, or as it was, or newly opened *)
Lemma who w0 w evs a w' ev c : WI w0 w evs -> contract w a -> step w a = Ok (w', ev) -> c_live (cli w' c) = true ->
  actor a = Some c \/ (actor a <> Some c /\ cli w' c = cli w c) \/ (exists e flags pid, a = AOpen e flags pid /\ c = length (w_cl w) /\ c_pc (cli w' c) = Idle).
Proof.
  intros W HC HS L. assert (HA : actor a = Some c \/ actor a <> Some c).
  { destruct (actor a) as [c1|]; [|right; discriminate]. destruct (Nat.eq_dec c1 c) as [->|N]; [left; reflexivity|right; congruence]. }
  destruct HA as [HA|HA]; [left; exact HA|right].
  destruct (Nat.lt_ge_cases c (length (w_cl w))) as [Hc|Hc].
  - left. split; [exact HA|]. apply (step_other _ _ _ _ _ _ _ W HC HS HA Hc).
  - right. destruct (step_ids _ _ _ _ _ _ W HC HS) as (_ & _ & D). destruct (D c L Hc) as (flags & -> & _ & -> & P).
    destruct a as [e fl pid|c x|c e|c|c|c fd|c].
    2-7: exfalso; apply step_inv in HS; inversion HS; subst; match goal with H : rets _ ?rs = _ |- _ => destruct rs; discriminate end.
    eauto 8.
Qed.

Lemma step_NAP w0 w evs a w' ev : WI w0 w evs -> PI w evs -> WI w0 w' (evs ++ ev) -> seq_bound (w_ring w) (evs ++ ev) -> steady w a -> step w a = Ok (w', ev) ->
  PIDS w -> BI w -> (forall c, sleepW w c) -> NAP w -> NAP w'.
Proof.
  intros W HP W' HB HC HS PD BB SLW [QR QW]. pose proof (wi_ring _ _ _ W) as I. pose proof (steady_contract _ _ HC) as HCC.
  pose proof (step_effect _ _ _ _ _ _ W (seq_bound_app _ _ _ HB) HCC HS) as EF. pose proof (step_inv _ _ _ _ HS) as SI.
  pose proof (step_WS _ _ _ _ _ _ W PD BB HC HS) as WSS.
  assert (DM : same_dims (w_ring w) (w_ring w')).
  { destruct (wi_dims _ _ _ W) as (A1 & A2 & A3 & A4 & A5 & A6), (wi_dims _ _ _ W') as (B1 & B2 & B3 & B4 & B5 & B6). repeat split; congruence. }
  split.
  - intros c buf niov n s Hpc Hw Hav.
    destruct (commit_or ev) as [HE|HE]; [apply (ws_commit _ _ _ _ WSS HE c n s Hw)|].
    assert (Hav0 : available (w_ring w) (c_q (cli w' c)) <> []).
    { apply (avail_mono _ (w_ring w') (committed evs) _ (good_env w a) ev); auto.
      - pose proof (wi_ring _ _ _ W') as I'. rewrite committed_app, HE, app_nil_r in I'. exact I'.
      - apply same_dims_farm. exact DM.
      - intros Hf. apply (seq_bound_app _ _ _ HB). exact Hf. }
    pose proof Hw as [L' _].
    destruct (who _ _ _ _ _ _ _ W HCC HS L') as [HA|[(HA & EC)|(e & fl & pid & _ & _ & Hid)]]; [| |congruence].
    + destruct (own_step _ _ _ _ _ _ _ W SI HA L') as [->|[(NS & _)|[(e & b & v & -> & He & HNB & P1 & P2)|(e & k & iov & len & _ & _ & P2 & _)]]].
      * apply (QR c buf niov n s Hpc Hw Hav).
      * rewrite Hpc in NS. destruct NS.
      * exfalso. assert (PP : pending c evs = Some (CRead b v)).
        { specialize (HP c). rewrite P1 in HP. cbn [pc_for] in HP. exact HP. }
        assert (AS0 : asleep w c = false) by (unfold asleep; rewrite P1; reflexivity).
        destruct (read_step _ _ _ _ _ _ _ _ _ W HP (seq_bound_app _ _ _ HB) PP AS0 HS He) as (_ & _ & _ & _ & _ & _ & RR).
        destruct RR as [(EA & ER & EQ & _)|(_ & _ & AS & _)]; [|unfold asleep in AS; rewrite P2 in AS; discriminate].
        assert (EA' : available (w_ring w) (c_q (cli w' c)) = []); [|congruence].
        destruct (r_farm (w_ring w)) eqn:Hf; [|unfold available in *; rewrite Hf in *; exact EA].
        rewrite (EQ eq_refl). apply (avail_end _ _ _ I); [intros _; split; [apply (seq_bound_app _ _ _ HB); exact Hf|pose proof (zlen_nonneg (committed evs)); lia]|].
        rewrite Hf. left. reflexivity.
      * congruence.
    + assert (Hw0 : wt true w c n s) by (destruct Hw as [L Q]; rewrite EC in L, Q; split; assumption).
      rewrite EC in Hpc, Hav0. pose proof (QR _ _ _ _ _ Hpc Hw0 Hav0). destruct (ws_other _ _ _ _ WSS _ _ _ _ Hw0 HA) as [_ LE]. lia.
  - intros c k iov len nb n s Hpc Hw Hrm. pose proof Hw as [L' _].
    assert (DN : r_n (w_ring w') = r_n (w_ring w) /\ r_mm (w_ring w') = r_mm (w_ring w)) by (destruct DM as (_ & ? & ? & _); auto).
    assert (RM : r_drop (w_ring w) = false -> room (r_n (w_ring w)) (r_mm (w_ring w)) iov (ring_unread (w_ring w)) = true \/ 0 < k_pend (sk (w_ks w') s)).
    { intros Hd. destruct (room_mono _ _ _ _ _ iov I (proj1 DN) (proj2 DN) Hd EF Hrm) as [R|R]; [left; exact R|].
      right. apply (ws_read _ _ _ _ WSS R c n s Hw). }
    destruct (who _ _ _ _ _ _ _ W HCC HS L') as [HA|[(HA & EC)|(e & fl & pid & _ & _ & Hid)]]; [| |congruence].
    + destruct (own_step _ _ _ _ _ _ _ W SI HA L') as [->|[(NS & _)|[(e & b & v & _ & _ & _ & P1 & P2)|(e & k1 & iov1 & len1 & -> & P1 & P2 & P3 & P4)]]].
      * apply (QW c k iov len nb n s Hpc Hw Hrm).
      * rewrite Hpc in NS. destruct NS.
      * congruence.
      * exfalso. rewrite P2 in Hpc. injection Hpc as -> -> -> <-. rewrite P3 in Hrm.
        assert (L : c_live (cli w c) = true) by (destruct (c_live (cli w c)) eqn:L; [reflexivity|pose proof (wi_dead _ _ _ W c L); congruence]).
        destruct (wi_cl _ _ _ W c L) as [ms C]. pose proof (ci_pc _ _ _ _ C) as P. unfold pc_ok in P. rewrite P1 in P.
        destruct P as (_ & Hi & -> & _). rewrite (ci_mm _ _ _ _ C) in P4.
        destruct (ring_write_total _ _ iov I Hi) as [(_ & _ & E')|(r1 & E' & _)]; congruence.
    + assert (Hw0 : wt false w c n s) by (destruct Hw as [L Q]; rewrite EC in L, Q; split; assumption).
      rewrite EC in Hpc. pose proof (SLW c) as SW. unfold sleepW in SW. rewrite Hpc in SW. destruct SW as (_ & Hd & _).
      destruct (RM Hd) as [R|R]; [|exact R].
      pose proof (QW _ _ _ _ _ _ _ Hpc Hw0 R). destruct (ws_other _ _ _ _ WSS _ _ _ _ Hw0 HA) as [_ LE]. lia.
Qed.


Lemma reach_NAP r w evs : reach steady r w evs -> NAP w.
Proof.
  intros (fsz & F & X & B). refine (exec_ind_inv steady r fsz (fun w evs => NAP w) steady_contract F _ _ w evs X B).
  { split; intros c; intros; rewrite world0_cli in *; discriminate. }
  clear w evs X B. intros w evs a w' ev X W HP W' HB HC HS SI EF QN.
  assert (SB : seq_bound r evs).
  { intros Hf. apply (seq_bound_app _ _ _ HB). rewrite (same_dims_farm _ _ (wi_dims _ _ _ W)). exact Hf. }
  assert (RS : reach steady r w evs) by (exists fsz; split; [exact F|split; assumption]).
  pose proof (reach_sub _ _ _ _ _ steady_contract RS) as RC. destruct (reach_BI _ _ _ RS) as [PD BB].
  exact (step_NAP _ _ _ _ _ _ W HP W' HB HC HS PD BB (fun c => exec_sleepW _ _ _ c RC) QN).
Qed.

(** ** a reader that does not run *)
Lemma open_reader w0 w evs e flags pid w' ev n s : WI w0 w evs -> seq_bound (w_ring w) evs -> BI w -> steady w (AOpen e flags pid) ->
  step w (AOpen e flags pid) = Ok (w', ev) -> wt true w' (length (w_cl w)) n s ->
  if list_eq_dec (list_eq_dec Z.eq_dec) (available (w_ring w') (c_q (cli w' (length (w_cl w))))) []
  then k_pend (sk (w_ks w') s) = 0 else 0 < k_pend (sk (w_ks w') s).
Proof.
  intros W SB B [[HC HG] HN] HS [L [p Hh]]. pose proof HC as (_ & HP0 & Hex). cbn [good_env new_names] in HG, HN. assert (Hp0 : pid <> 0) by lia.
  pose proof (wi_ring _ _ _ W) as I. pose proof (i_inv0 _ _ I) as I0.
  cbn [step] in HS. apply obind_ok in HS. destruct HS as ([w1 o] & E & HS).
  assert (DEAD : c_live (cli w (length (w_cl w))) = false).
  { destruct (c_live (cli w (length (w_cl w)))) eqn:Q; [apply live_bound in Q; lia|reflexivity]. }
  destruct (do_open_split _ _ _ _ _ _ E) as [[-> ->]|(El & Hv & hs & Eo & Hcl)].
  { injection HS as <- _. congruence. }
  destruct (open_bw _ _ _ _ _ _ B HG HN Hp0 (roles_excl _ Hv Hex) Eo) as [O1 O2 O3 O4 O5 O6 O7 O8 O9 O10].
  destruct o as [cl|].
  2: { injection HS as <- _. unfold cli in L, DEAD. rewrite O1 in L. congruence. }
  injection HS as <- _. destruct (Hcl _ eq_refl) as (ha & hb & ca & -> & _ & Ecl).
  assert (ME : cli (w1 <| w_cl := w_cl w1 ++ [cl] |>) (length (w_cl w)) = cl).
  { unfold cli. cbn [w_cl set]. rewrite O1. rewrite app_nth2, Nat.sub_diag by lia. reflexivity. }
  rewrite ME in *. cbn [w_ring w_ks set]. rewrite O2. rewrite Ecl. cbn [c_q]. rewrite Ecl in Hh. cbn [hnd c_w2r] in Hh.
  pose proof (roles_excl _ Hv Hex) as RX. destruct (has flags SHR_WRONLY) eqn:Hw.
  { destruct (O10 _ eq_refl eq_refl) as (q & cs & Q). cbn [fst] in Q. congruence. }
  destruct (O9 _ eq_refl RX) as (n1 & s1 & Q1 & Q2 & _). cbn [fst] in Q1. rewrite Q1 in Hh. injection Hh as -> -> _.
  assert (AV : available (w_ring w) (r_q (w_ring w)) = [] <-> r_u (w_ring w) = 0).
  { pose proof (w_old _ _ _ (i_win _ _ I0)) as WO. pose proof (i_m _ _ I0) as IM.
    assert (U0 : r_u (w_ring w) = 0 <-> r_m (w_ring w) = 0).
    { rewrite (i_u _ _ I0). split.
      - intros H. destruct (Z.eq_dec (r_m (w_ring w)) 0) as [Z0|Z0]; [exact Z0|].
        pose proof (start_gap (committed evs) (zlen (committed evs) - r_m (w_ring w)) (zlen (committed evs)) (w_ne _ _ _ (i_win _ _ I0)) ltac:(lia) ltac:(lia)) as G.
        rewrite start_tot in G. lia.
      - intros ->. rewrite Z.sub_0_r, start_tot. lia. }
    rewrite U0. unfold available. destruct (r_farm (w_ring w)) eqn:Hf.
    - destruct (i_farm _ _ I Hf) as [-> _]. rewrite Z.sub_diag. cbn [Z.to_nat skipn]. rewrite (retained_eq _ _ I0). unfold lastn. rewrite skipn_is_nil. unfold zlen in *. lia.
    - rewrite (unread_eq _ _ I0). unfold lastn. rewrite skipn_is_nil. unfold zlen in *. lia. }
  destruct (list_eq_dec _ _ _) as [A|A]; destruct (Z.eqb_spec (r_u (w_ring w)) 0) as [Z0|Z0]; try exact Q2; exfalso; tauto.
Qed.

(** a nonblocking reader never sleeps *)
Lemma was_live w0 w evs a w' ev c : WI w0 w evs -> contract w a -> step w a = Ok (w', ev) -> stepI w a w' ev -> actor a = Some c -> c_live (cli w' c) = true ->
  c_live (cli w c) = true /\ c_flags (cli w' c) = c_flags (cli w c).
Proof.
  intros W HC HS SI HA L'. destruct (step_ids _ _ _ _ _ _ W HC HS) as (_ & A1 & A2). destruct (Nat.lt_ge_cases c (length (w_cl w))) as [Hc|Hc].
  - destruct (A1 c Hc L') as (K1 & K2 & _). rewrite <- K1. auto.
  - destruct (A2 c L' Hc) as (fl & Eev & _). exfalso. subst ev.
    destruct a as [e fl1 pid|c1 x|c1 e|c1|c1|c1 fd|c1]; [discriminate HA|..].
    all: inversion SI; subst; match goal with H : rets _ ?rs = _ |- _ => destruct rs; discriminate end.
Qed.
Lemma reach_NBW r w evs : reach contract r w evs -> forall c buf niov, c_pc (cli w c) = WaitR buf niov -> has (c_flags (cli w c)) SHR_NONBLOCK = false.
Proof.
  intros (fsz & F & X & B). refine (exec_ind_inv contract r fsz (fun w evs => forall c buf niov, c_pc (cli w c) = WaitR buf niov -> has (c_flags (cli w c)) SHR_NONBLOCK = false) id_contract F _ _ w evs X B).
  { intros c buf niov Q. rewrite world0_cli in Q. discriminate. }
  clear w evs X B. intros w evs a w' ev X W HP W' HB HC HS SI EF QR c buf niov Hpc.
  assert (L' : c_live (cli w' c) = true) by (destruct (c_live (cli w' c)) eqn:L; [reflexivity|pose proof (wi_dead _ _ _ W' c L); congruence]).
  destruct (who _ _ _ _ _ _ _ W HC HS L') as [HA|[(HA & EC)|(e & fl & pid & -> & -> & Hid)]]; [|rewrite EC in *; apply (QR _ _ _ Hpc)|congruence].
  destruct (was_live _ _ _ _ _ _ _ W HC HS SI HA L') as [L FL].
  destruct (own_step _ _ _ _ _ _ _ W SI HA L') as [->|[(NS & Q & QA)|[(e & b & v & -> & He & HNB & P1 & P2)|(e & k & iov & len & _ & P1 & P2 & _)]]].
  - apply (QR _ _ _ Hpc).
  - rewrite Hpc in NS. destruct NS.
  - rewrite FL. exact HNB.
  - congruence.
Qed.

Definition READY (w : world) : Prop :=
  forall c n s, has (c_flags (cli w c)) SHR_NONBLOCK = true -> wt true w c n s ->
    available (w_ring w) (c_q (cli w c)) <> [] -> 0 < k_pend (sk (w_ks w) s).

Lemma reach_READY r w evs : reach steady r w evs -> READY w.
Proof.
  intros (fsz & F & X & B). refine (exec_ind_inv steady r fsz (fun w evs => READY w) steady_contract F _ _ w evs X B).
  { intros c n s Q. rewrite world0_cli in Q. discriminate. }
  clear w evs X B. intros w evs a w' ev X W HP W' HB HC HS SI EF QR. pose proof (wi_ring _ _ _ W) as I.
  assert (SB : seq_bound r evs).
  { intros Hf. apply (seq_bound_app _ _ _ HB). rewrite (same_dims_farm _ _ (wi_dims _ _ _ W)). exact Hf. }
  assert (RS : reach steady r w evs) by (exists fsz; split; [exact F|split; assumption]).
  destruct (reach_BI _ _ _ RS) as [PD BB]. pose proof (step_WS _ _ _ _ _ _ W PD BB HC HS) as WSS.
  pose proof (steady_contract _ _ HC) as HCC.
  assert (DM : same_dims (w_ring w) (w_ring w')).
  { destruct (wi_dims _ _ _ W) as (A1 & A2 & A3 & A4 & A5 & A6), (wi_dims _ _ _ W') as (B1 & B2 & B3 & B4 & B5 & B6). repeat split; congruence. }
  pose proof (reach_NBW _ _ _ (reach_sub _ _ _ _ _ steady_contract RS)) as NBW.
  intros c n s Hnb Hw Hav.
  destruct (commit_or ev) as [HE|HE]; [apply (ws_commit _ _ _ _ WSS HE c n s Hw)|].
  assert (Hav0 : available (w_ring w) (c_q (cli w' c)) <> []).
  { apply (avail_mono _ (w_ring w') (committed evs) _ (good_env w a) ev); auto.
    - pose proof (wi_ring _ _ _ W') as I'. rewrite committed_app, HE, app_nil_r in I'. exact I'.
    - apply same_dims_farm. exact DM.
    - intros Hf. apply (seq_bound_app _ _ _ HB). exact Hf. }
  pose proof Hw as [L' _].
  destruct (who _ _ _ _ _ _ _ W HCC HS L') as [HA|[(HA & EC)|(e & fl & pid & -> & -> & Hid)]].
  - destruct (was_live _ _ _ _ _ _ _ W HCC HS SI HA L') as [L FL]. rewrite FL in Hnb.
    (* the same registration before the step *)
    assert (RDC : has (c_flags (cli w c)) SHR_RDONLY = true /\ exists n0 s0, wt true w c n0 s0).
    { destruct (wi_cl _ _ _ W c L) as [ms C]. destruct (wi_cl _ _ _ W' c L') as [ms' C'].
      pose proof (ci_role _ _ _ _ C) as RO. destruct (has (c_flags (cli w c)) SHR_WRONLY) eqn:HWR.
      - exfalso. destruct (ci_wr _ _ _ _ C') as [(q & cs & Q) _]; [rewrite FL; exact HWR|]. destruct Hw as [_ [p Q']]. cbn [hnd] in Q'. congruence.
      - cbn [negb] in RO. split; [exact RO|]. destruct (ci_rd _ _ _ _ C RO) as [(n0 & s0 & p0 & Q) _]. exists n0, s0. split; [exact L|]. exists p0. exact Q. }
    destruct RDC as (RO & n0 & s0 & Hw0). destruct (ws_self _ _ _ _ WSS _ _ _ _ _ _ HA Hw0 Hw) as (-> & -> & LE).
    destruct (own_step _ _ _ _ _ _ _ W SI HA L') as [->|[(NS & Q & QA)|[(e & b & v & -> & He & HNB & P1 & P2)|(e & k & iov & len & _ & P1 & P2 & _)]]].
    + apply (QR c n s Hnb Hw Hav).
    + destruct Q as [(e & buf & niov & -> & P1)|Q].
      * destruct (e_lock e) eqn:He.
        -- destruct HC as [[_ HG] _]. destruct (read_own _ _ _ _ _ _ _ _ _ _ _ W (seq_bound_app _ _ _ HB) BB HG He Hw0 P1 HS) as [[Z0|Z0] _]; [contradiction|exact Z0].
        -- cbn [step] in HS. rewrite L in HS. unfold run_client in HS. rewrite P1 in HS. unfold crit_read in HS. rewrite He in HS. cbn [negb obind] in HS.
           injection HS as <- <-. rewrite cli_setc_same in Hav0 by (apply live_bound; exact L). cbn [c_q set] in Hav0.
           cbn [w_ks setc set]. apply (QR c n s Hnb Hw0 Hav0).
      * rewrite Q in Hav0. pose proof (QR c n s Hnb Hw0 Hav0) as P0.
        destruct LE as [LE|[->|(_ & b0 & v0 & LE)]]; [lia| |].
        -- destruct (c_pc (cli w c)) as [ |? ? ? ?|? ? ? ?|buf niov|buf niov| | |?|g0 st0 z0] eqn:Ep.
           all: try (cbn [step] in HS; unfold wait_sid in HS; rewrite Ep in HS; injection HS as <- <-; exact P0).
           ++ exfalso. destruct (wi_cl _ _ _ W c L) as [ms C]. pose proof (ci_pc _ _ _ _ C) as P. unfold pc_ok in P. rewrite Ep in P. destruct P as (P & _).
              pose proof (ci_role _ _ _ _ C) as RO'. rewrite P, RO in RO'. discriminate.
           ++ exfalso. rewrite (NBW _ _ _ Ep) in Hnb. discriminate.
        -- destruct a as [e fl pid|c1 x|c1 e|c1|c1|c1 fd|c1]; cbn [actor] in HA; try discriminate HA; injection HA as ->.
           2: { destruct (e_lock e) eqn:He.
                - destruct HC as [[_ HG] _]. destruct (read_own _ _ _ _ _ _ _ _ _ _ _ W (seq_bound_app _ _ _ HB) BB HG He Hw0 LE HS) as [[Z0|Z0] _]; [contradiction|exact Z0].
                - cbn [step] in HS. rewrite L in HS. unfold run_client in HS. rewrite LE in HS. unfold crit_read in HS. rewrite He in HS. cbn [negb obind] in HS.
                  injection HS as <- <-. cbn [w_ks setc set]. exact P0. }
           all: cbn [step] in HS; try rewrite L in HS; try rewrite LE in HS; unfold wait_sid, wait_failed in HS; try rewrite LE in HS; cbn [negb] in HS;
               try (injection HS as <- <-; exact P0).
           injection HS as <- <-. rewrite cli_setc_same in L' by (apply live_bound; exact L). discriminate L'.
    + congruence.
    + exfalso. destruct (wi_cl _ _ _ W c L) as [ms C]. pose proof (ci_pc _ _ _ _ C) as P. unfold pc_ok in P. rewrite P1 in P. destruct P as (P & _).
      pose proof (ci_role _ _ _ _ C) as RO'. rewrite P, RO in RO'. discriminate.
  - assert (Hw0 : wt true w c n s) by (destruct Hw as [L Q]; rewrite EC in L, Q; split; assumption).
    rewrite EC in Hnb, Hav0. pose proof (QR _ _ _ Hnb Hw0 Hav0). destruct (ws_other _ _ _ _ WSS _ _ _ _ Hw0 HA) as [_ LE]. lia.
  - pose proof (open_reader _ _ _ _ _ _ _ _ _ _ W (seq_bound_app _ _ _ HB) BB HC HS Hw) as OR.
    destruct (list_eq_dec _ _ _) as [A|A] in OR; [contradiction|exact OR].
Qed.
