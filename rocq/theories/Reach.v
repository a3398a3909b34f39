(** * Every execution from a fresh ring satisfies the world invariant. *)
From Verif Require Export WorldFacts.

Lemma has_lor a b bit : has (Z.lor a b) bit = has a bit || has b bit.
Proof.
  unfold has. rewrite Z.land_lor_distr_l.
  destruct (Z.eqb_spec (Z.lor (Z.land a bit) (Z.land b bit)) 0) as [E|E];
  destruct (Z.eqb_spec (Z.land a bit) 0) as [E1|E1]; destruct (Z.eqb_spec (Z.land b bit) 0) as [E2|E2]; cbn [negb orb]; try reflexivity.
  - apply Z.lor_eq_0_iff in E. destruct E; contradiction.
  - apply Z.lor_eq_0_iff in E. destruct E; contradiction.
  - apply Z.lor_eq_0_iff in E. destruct E; contradiction.
  - exfalso. apply E. rewrite E1, E2. reflexivity.
Qed.

Lemma init_gflags_spec flags :
  has (init_gflags flags) SHR_FARM = has flags SHR_FARM
  /\ has (init_gflags flags) SHR_DROP = has flags SHR_DROP || has flags SHR_FARM
  /\ has (init_gflags flags) SHR_SYNC = has flags SHR_SYNC
  /\ has (init_gflags flags) SHR_MLOCK = has flags SHR_MLOCK.
Proof.
  unfold init_gflags. destruct (has flags SHR_SYNC), (has flags SHR_DROP), (has flags SHR_FARM), (has flags SHR_MLOCK);
    repeat split; reflexivity.
Qed.

(** the layout of an accepted shr_init whose sizes are representable *)
Lemma init_layout_ok data_sz flags appsize maxarg l :
  init_layout data_sz flags appsize maxarg = Ok (Some l) -> 0 <= data_sz -> 0 <= appsize -> 0 <= maxarg ->
  SIZEOF_CTRL + data_sz + SIZEOF_PTR + SIZEOF_MSG * l_mm l + appsize <= SSIZE_MAX ->
  0 < data_sz /\ l_n l = data_sz /\ 0 < l_mm l
  /\ l_mm l = (if has flags SHR_MAXMSGS_2 && negb (maxarg =? 0) then maxarg else 100 + data_sz / 100)
  /\ l_mv l = SIZEOF_MSG * l_mm l
  /\ l_app l = (if has flags SHR_APPDATA_1 then appsize else 0)
  /\ 0 <= l_pad l < 8 /\ (SIZEOF_CTRL + l_n l + l_pad l) mod 8 = 0
  /\ l_sz l = SIZEOF_CTRL + l_n l + l_pad l + l_mv l + l_app l
  /\ l_sz l <= SSIZE_MAX /\ flags < SHR_OPEN_FENCE.
Proof.
  unfold init_layout. intros E Hd Ha Hm.
  destruct (Z.geb_spec flags SHR_OPEN_FENCE) as [|Hf]; [discriminate|]. cbn [orb] in E.
  destruct (Z.eqb_spec data_sz 0) as [|Hd0]; [discriminate|].
  set (mm := if (if has flags SHR_MAXMSGS_2 then maxarg else 0) =? 0 then u64 (100 + data_sz / 100)
             else (if has flags SHR_MAXMSGS_2 then maxarg else 0)) in E.
  set (pad := if data_sz mod SIZEOF_PTR =? 0 then 0 else SIZEOF_PTR - data_sz mod SIZEOF_PTR) in E.
  destruct (pad <? SIZEOF_PTR); [|discriminate].
  destruct (u64 (u64 (SIZEOF_CTRL + data_sz) + pad) mod SIZEOF_PTR =? 0) eqn:Ep; [|discriminate].
  injection E as <-. cbn [l_n l_mm l_mv l_app l_pad l_sz]. intros Hs.
  change SIZEOF_CTRL with 1784 in *. change SIZEOF_PTR with 8 in *. change SIZEOF_MSG with 16 in *.
  pose proof (Z.div_pos data_sz 100 Hd ltac:(lia)) as Hdp.
  pose proof (Z.div_le_upper_bound data_sz 100 data_sz ltac:(lia) ltac:(lia)) as Hdl.
  assert (Hmm0 : 0 <= mm).
  { unfold mm. destruct (has flags SHR_MAXMSGS_2).
    - destruct (maxarg =? 0); [apply u64_range|exact Hm].
    - cbn [Z.eqb]. apply u64_range. }
  assert (Hmm : mm = (if has flags SHR_MAXMSGS_2 && negb (maxarg =? 0) then maxarg else 100 + data_sz / 100)).
  { unfold mm. destruct (has flags SHR_MAXMSGS_2); cbn [andb].
    - destruct (Z.eqb_spec maxarg 0); cbn [negb]; [|reflexivity]. apply u64_small. lia.
    - cbn [Z.eqb]. apply u64_small. lia. }
  assert (H0 : 0 < mm).
  { rewrite Hmm. destruct (has flags SHR_MAXMSGS_2); cbn [andb]; [|lia].
    destruct (Z.eqb_spec maxarg 0); cbn [negb]; lia. }
  pose proof (Z.mod_pos_bound data_sz 8 ltac:(lia)) as Hmod.
  assert (Hpad : 0 <= pad < 8).
  { unfold pad. destruct (Z.eqb_spec (data_sz mod 8) 0); lia. }
  rewrite (u64_small (mm * 16)) by lia.
  assert (Happ : 0 <= (if has flags SHR_APPDATA_1 then appsize else 0) <= appsize) by (destruct (has flags SHR_APPDATA_1); lia).
  rewrite (u64_small (1784 + data_sz)) in Ep by lia. rewrite (u64_small (1784 + data_sz + pad)) in Ep by lia.
  apply Z.eqb_eq in Ep.
  rewrite (u64_small (1784 + data_sz + pad + mm * 16 + _)) by lia.
  repeat split; try lia; try assumption.
Qed.

Lemma repeat_nth_zero n k : znth 0 (repeat 0 n) k = 0.
Proof. unfold znth. revert n. induction (Z.to_nat k); intros [|n0]; cbn; auto. Qed.

Lemma fresh_inv r fsz : fresh r fsz -> Inv r [].
Proof.
  intros [(data_sz & flags & appsize & maxarg & l & app & E & -> & H1 & H2 & H3 & H4 & H5 & H6 & H7)].
  cbn [r_mm ring_of_layout] in H6.
  destruct (init_layout_ok _ _ _ _ _ E H1 H3 H4 H6) as (D0 & D1 & D2 & D3 & D4 & D5 & D6 & D7 & D8 & D9 & D10).
  change SIZEOF_CTRL with 1784 in *. change SIZEOF_PTR with 8 in *. change SIZEOF_MSG with 16 in *.
  constructor.
  - constructor; cbn [r_mp r_m r_e r_r r_q r_u r_mm r_n r_d r_mv r_i ring_of_layout zlen length concat]; try reflexivity; try lia.
    constructor; cbn [r_mp r_m r_e r_r r_q r_u r_mm r_n r_d r_mv r_i ring_of_layout zlen length concat]; try reflexivity; try lia.
    + change (zlen (repeat 0 (Z.to_nat (l_n l))) = l_n l). rewrite zlen_repeat. lia.
    + change (zlen (repeat (mkslot 0 0) (Z.to_nat (l_mv l / 16))) = l_mm l). rewrite zlen_repeat, D4.
      rewrite Z.mul_comm, Z.div_mul by lia. lia.
    + unfold zlen; cbn; lia.
    + unfold start, zlen; cbn; lia.
    + constructor.
    + intros k Hk; unfold zlen in Hk; cbn in Hk; lia.
  - cbn [r_m r_mp ring_of_layout]. unfold r_farm, r_drop. cbn [r_gflags ring_of_layout].
    destruct (init_gflags_spec flags) as (-> & -> & _). intros ->. split; [reflexivity|apply orb_true_r].
Qed.

Lemma fresh_app r fsz : fresh r fsz -> zlen (r_app r) = r_app_len r.
Proof.
  intros [(data_sz & flags & appsize & maxarg & l & app & E & -> & H1 & H2 & H3 & H4 & H5 & H6 & H7)].
  cbn [r_mm ring_of_layout] in H6.
  destruct (init_layout_ok _ _ _ _ _ E H1 H3 H4 H6) as (D0 & D1 & D2 & D3 & D4 & D5 & D6 & D7 & D8 & D9 & D10).
  cbn [r_app r_app_len ring_of_layout]. rewrite D5. destruct (has flags SHR_APPDATA_1); [exact H5|reflexivity].
Qed.

Lemma world0_cli r fsz c : cli (world0 r fsz) c = client0.
Proof. unfold cli. cbn [w_cl world0]. destruct c; reflexivity. Qed.

Lemma WI_start r fsz : fresh r fsz -> WI (world0 r fsz) (world0 r fsz) [].
Proof.
  intros F. constructor; cbn [w_ring w_fsz world0].
  - apply (fresh_inv _ _ F).
  - apply same_dims_refl.
  - reflexivity.
  - apply (fresh_app _ _ F).
  - intros c. rewrite world0_cli. discriminate.
  - intros c _. rewrite world0_cli. reflexivity.
Qed.

Lemma exec_app_bound r a b : seq_bound r (a ++ b) -> seq_bound r a.
Proof. apply seq_bound_app. Qed.

(** every contract-abiding execution keeps the invariant *)
Theorem exec_WI (P : world -> action -> Prop) r fsz w evs :
  (forall w a, P w a -> contract w a) -> fresh r fsz ->
  exec P (world0 r fsz) w evs -> seq_bound r evs -> WI (world0 r fsz) w evs.
Proof.
  intros HP F X. induction X as [|w evs a w' ev X IH Pa S]; intros HB; [apply WI_start; exact F|].
  pose proof (IH (seq_bound_app _ _ _ HB)) as W.
  apply (step_WI _ w _ a); try assumption; [|apply HP; exact Pa].
  intros Hf. rewrite (same_dims_farm _ _ (wi_dims _ _ _ W)) in Hf. apply (seq_bound_app _ _ _ HB Hf).
Qed.

Theorem exec_total (P : world -> action -> Prop) r fsz w evs a :
  (forall w a, P w a -> contract w a) -> fresh r fsz ->
  exec P (world0 r fsz) w evs -> seq_bound r evs -> contract w a ->
  exists w' ev, step w a = Ok (w', ev).
Proof.
  intros HP F X HB HC. pose proof (exec_WI P r fsz w evs HP F X HB) as W.
  apply (step_total _ w evs a W); [|exact HC].
  intros Hf. rewrite (same_dims_farm _ _ (wi_dims _ _ _ W)) in Hf. apply HB, Hf.
Qed.

Lemma exec_mono (P Q : world -> action -> Prop) w0 w evs : (forall w a, P w a -> Q w a) ->
  exec P w0 w evs -> exec Q w0 w evs.
Proof. intros H X; induction X; [constructor|econstructor; eauto]. Qed.

(** opening never fails because of the state of a ring in use *)
Lemma WI_validate r fsz w evs : fresh r fsz -> WI (world0 r fsz) w evs ->
  validate_ring (w_fsz w) true (w_ring w) = 0.
Proof.
  intros F W. destruct F as [(data_sz & flags & appsize & maxarg & l & app & E & -> & H1 & H2 & H3 & H4 & H5 & H6 & H7)].
  cbn [r_mm ring_of_layout] in H6.
  destruct (init_layout_ok _ _ _ _ _ E H1 H3 H4 H6) as (D0 & D1 & D2 & D3 & D4 & D5 & D6 & D7 & D8 & D9 & D10).
  pose proof (wi_fsz _ _ _ W) as Ef. destruct (wi_dims _ _ _ W) as (_ & En & Em & Ev & Ep & Ea).
  cbn [w_ring w_fsz world0 r_n r_mm r_mv_len r_pad_len r_app_len ring_of_layout] in *.
  pose proof (wi_ring _ _ _ W) as I. pose proof (i_inv0 _ _ I) as I0. pose proof (i_win _ _ I0) as WW.
  pose proof (inv_u_le _ _ I0) as Hu. 
  pose proof (Z.mod_pos_bound (zlen (concat (committed evs))) (r_n (w_ring w)) ltac:(rewrite En; lia)) as Hi.
  rewrite <- (w_i _ _ _ WW) in Hi.
  pose proof (Z.mod_pos_bound (zlen (committed evs) - r_m (w_ring w)) (r_mm (w_ring w)) ltac:(rewrite Em; lia)) as Hr.
  rewrite <- (i_r _ _ I0) in Hr.
  unfold validate_ring. rewrite Ef, Ep, Ev, Ea. rewrite En in *. rewrite Em in *.
  change MIN_RING_SZ with 1785. change SIZEOF_CTRL with 1784 in *. change SIZEOF_PTR with 8 in *. change SIZEOF_MSG with 16 in *.
  assert (0 <= l_app l <= appsize) by (rewrite D5; destruct (has flags SHR_APPDATA_1); lia).
  unfold s64. rewrite u64_small by lia. cbv zeta.
  destruct (Z.ltb_spec fsz 1785); [lia|]. cbn [negb].
  destruct (Z.gtb_spec (1784 + l_n l + l_pad l + l_mv l + l_app l) SSIZE_MAX); [lia|].
  destruct (Z.ltb_spec fsz (1784 + l_n l + l_pad l + l_mv l + l_app l)); [lia|].
  destruct (Z.gtb_spec (r_u (w_ring w)) (l_n l)); [lia|].
  destruct (Z.geb_spec (r_i (w_ring w)) (l_n l)); [lia|].
  destruct (Z.geb_spec (r_r (w_ring w)) (l_mm l)); [lia|reflexivity].
Qed.

(** ** runs as lists of actions *)
Fixpoint valid_run (P : world -> action -> Prop) (w : world) (acts : list action) : Prop :=
  match acts with
  | [] => True
  | a :: t => P w a /\ match step w a with Ok (w', _) => valid_run P w' t | _ => True end
  end.
Lemma run_exec P w0 : forall acts w evs0 w' evs, exec P w0 w evs0 -> valid_run P w acts ->
  run w acts = Ok (w', evs) -> exec P w0 w' (evs0 ++ evs).
Proof.
  induction acts as [|a t IH]; intros w evs0 w' evs X V H; cbn [run valid_run] in *.
  - injection H as <- <-. rewrite app_nil_r. exact X.
  - destruct V as [Pa V]. apply obind_ok in H. destruct H as ([w1 ev] & E & H). rewrite E in V.
    apply obind_ok in H. destruct H as ([w2 ev'] & E' & H). injection H as <- <-.
    rewrite app_assoc. apply (IH w1); [econstructor; eassumption|exact V|exact E'].
Qed.
Lemma run_exec0 P w0 acts w evs : valid_run P w0 acts -> run w0 acts = Ok (w, evs) -> exec P w0 w evs.
Proof. intros V H. apply (run_exec P w0 acts w0 [] w evs); [constructor|exact V|exact H]. Qed.
