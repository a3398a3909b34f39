(** * Where a client is, in terms of its calls and returns. *)
From Verif Require Export Effects.

Definition pc_for (fl : Z) (p : pc) (o : option call) : Prop :=
  match p with
  | Idle => o = None
  | RunW k iov _ nb | WaitW k iov _ nb =>
      match k with
      | KDirect => o = Some (CWrite iov) /\ nb = has fl SHR_NONBLOCK
      | KThen iov' _ => o = Some (CWrite iov') /\ nb = has fl SHR_NONBLOCK
      | KFlush => exists wait, o = Some (CFlush wait) /\ nb = has fl SHR_NONBLOCK && negb wait
      | KClose => o = Some CClose /\ nb = has fl SHR_NONBLOCK
      end
  | RunR buf n | WaitR buf n => o = Some (CRead buf n)
  | RunOpenR2W => o = Some (CFlush true) /\ has fl SHR_NONBLOCK = true
  | RunClose => o = Some CClose
  | RunStat reset => o = Some (CStat reset)
  | RunApp g s z => o = Some (CApp g s z)
  end.

Definition after (rs : list ret) (o : option call) : option call :=
  match rs with [] => o | _ => None end.

Lemma pending_app c a b : pending c (a ++ b) =
  fold_left (fun acc e => match e with
    | ECall c' x => if is c c' then Some x else acc
    | ERet c' _ => if is c c' then None else acc
    | ECrash c' => if is c c' then None else acc
    | _ => acc end) b (pending c a).
Proof. unfold pending. apply fold_left_app. Qed.
Lemma is_refl c : is c c = true. Proof. apply Nat.eqb_refl. Qed.
Lemma is_neq c c' : c <> c' -> is c c' = false. Proof. apply Nat.eqb_neq. Qed.

Lemma pending_rets c evs rs : pending c (evs ++ rets c rs) = after rs (pending c evs).
Proof.
  rewrite pending_app. unfold rets. destruct rs as [|x rs]; [reflexivity|]. cbn [map fold_left after].
  rewrite is_refl. clear x. induction rs as [|x rs IH]; [reflexivity|]. cbn [map fold_left]. rewrite is_refl. exact IH.
Qed.
Definition tagged (c : nat) (e : event) : Prop :=
  match e with ECall c' _ | ERet c' _ | ECommit c' _ | ECrash c' => c' = c | EOpen _ _ => False end.
Lemma pending_other c c' evs ev : c' <> c -> Forall (tagged c) ev -> pending c' (evs ++ ev) = pending c' evs.
Proof.
  intros N F. rewrite pending_app. generalize (pending c' evs). induction F as [|e ev T F IH]; intros o; [reflexivity|].
  cbn [fold_left]. destruct e; cbn [tagged] in T; try contradiction; subst; rewrite ?(is_neq c' c) by exact N; apply IH.
Qed.
Lemma tagged_rets c rs : Forall (tagged c) (rets c rs).
Proof. unfold rets. induction rs; constructor; cbn; auto. Qed.

Lemma go_write_pc cl iov len cl' rs : go_write cl iov len = Ok (cl', rs) ->
  pc_for (c_flags cl) (c_pc cl') (after rs (Some (CWrite iov))).
Proof.
  unfold go_write.
  destruct (has (c_flags cl) SHR_BUFFERED); [|intros H; inj H; cbn; auto].
  destruct (_ && _).
  - intros H. apply obind_ok in H. destruct H as (ca & _ & H). inj H. reflexivity.
  - destruct (ca_n (c_cache cl) =? 0); [intros H; inj H; cbn; auto|].
    intros H. apply obind_ok in H. destruct H as (ms & _ & H).
    destruct (wr_check _ _ _); inj H; cbn; auto.
Qed.
Lemma flush_write_pc cl k nb cl' rs o : flush_write cl k nb = Ok (cl', rs) ->
  match k with KFlush => exists wait, o = Some (CFlush wait) /\ nb = has (c_flags cl) SHR_NONBLOCK && negb wait
             | KClose => o = Some CClose /\ nb = has (c_flags cl) SHR_NONBLOCK | _ => False end ->
  pc_for (c_flags cl) (c_pc cl') (after rs o).
Proof.
  unfold flush_write. intros H Hk. apply obind_ok in H. destruct H as (ms & _ & H).
  destruct (wr_check _ _ _); [inj H; cbn [pc_for c_pc set after]; destruct k; tauto|].
  destruct k; inj H; cbn; tauto.
Qed.
Lemma end_write_pc cl k iov v cl' rs o l nb : end_write cl k iov v = Ok (cl', rs) ->
  pc_for (c_flags cl) (RunW k iov l nb) o -> pc_for (c_flags cl) (c_pc cl') (after rs o).
Proof.
  destruct k; cbn [end_write pc_for]; intros H Ho.
  - inj H. reflexivity.
  - destruct (v <=? 0); [inj H; reflexivity|]. apply go_write_pc in H. cbn [c_flags set] in H. destruct Ho as [-> _]. exact H.
  - inj H. reflexivity.
  - inj H. destruct Ho as [-> _]. reflexivity.
Qed.
Lemma start_call_pc cl x cl' rs : c_pc cl = Idle -> start_call cl x = Ok (cl', rs) ->
  pc_for (c_flags cl) (c_pc cl') (after rs (Some x)).
Proof.
  intros HI. destruct x as [buf niov|iov|wait| |reset|reset|get st sz|fd| ]; cbn [start_call]; intros H.
  - destruct (has _ _); [|discriminate]. destruct (_ || _); inj H; cbn; auto. rewrite HI; reflexivity.
  - unfold start_write in H. destruct (has _ _); [|discriminate].
    destruct (wr_check _ _ _); [apply go_write_pc in H; exact H|inj H; cbn; rewrite HI; reflexivity].
  - unfold start_flush in H. destruct (has _ _); [|discriminate].
    destruct (_ =? _); [inj H; cbn; rewrite HI; reflexivity|].
    destruct (has (c_flags cl) SHR_NONBLOCK) eqn:En; cbn [andb] in H.
    + destruct wait.
      * destruct (c_r2w cl).
        -- apply (flush_write_pc _ _ _ _ _ (Some (CFlush true))) in H; [exact H|]. exists true. rewrite En. auto.
        -- inj H. cbn. auto.
      * apply (flush_write_pc _ _ _ _ _ (Some (CFlush false))) in H; [exact H|]. exists false. rewrite En. auto.
    + apply (flush_write_pc _ _ _ _ _ (Some (CFlush wait))) in H; [exact H|]. exists wait. rewrite En. auto.
  - unfold start_close in H. destruct (_ =? _); [inj H; cbn; reflexivity|].
    destruct (has _ SHR_WRONLY); [|discriminate].
    apply (flush_write_pc _ _ _ _ _ (Some CClose)) in H; [exact H|]. auto.
  - inj H. reflexivity.
  - unfold do_farm_stat in H. destruct (has _ _); [|discriminate]. cbn [obind] in H. inj H. cbn.
    destruct reset; cbn; exact HI || (rewrite HI; reflexivity).
  - inj H. reflexivity.
  - apply obind_ok in H. destruct H as ([cl1 r] & E & H). inj H. cbn [after pc_for].
    assert (EP : c_pc cl' = c_pc cl).
    { unfold do_ctl in E. apply obind_ok in E. destruct E as ([cl1 sc1] & E1 & E).
      apply obind_ok in E. destruct E as ([cl2 sc2] & E2 & E). inj E.
      assert (P1 : c_pc cl1 = c_pc cl).
      { destruct (has (c_flags cl) SHR_WRONLY); [|inj E1; reflexivity].
        destruct (c_r2w cl) as [b|]; [|inj E1; reflexivity].
        apply obind_ok in E1. destruct E1 as ([b' ok] & Eb & E1). inj E1. reflexivity. }
      rewrite <- P1. destruct (has (c_flags cl1) SHR_RDONLY); [|inj E2; reflexivity].
      destruct (c_w2r cl1) as [b|]; [|discriminate].
      apply obind_ok in E2. destruct E2 as ([b' ok] & Eb & E2). inj E2. reflexivity. }
    rewrite EP, HI. reflexivity.
  - inj H. cbn. rewrite HI. reflexivity.
Qed.

Definition PI (w : world) (evs : list event) : Prop :=
  forall c, pc_for (c_flags (cli w c)) (c_pc (cli w c)) (pending c evs).

Lemma PI_setc w w1 evs ev c cl' : PI w evs -> w_cl w1 = w_cl w -> (c < length (w_cl w))%nat ->
  Forall (tagged c) ev -> pc_for (c_flags cl') (c_pc cl') (pending c (evs ++ ev)) ->
  PI (setc w1 c cl') (evs ++ ev).
Proof.
  intros H E L T HC c'. destruct (Nat.eq_dec c' c) as [->|N].
  - rewrite cli_setc_same by (rewrite E; exact L). exact HC.
  - rewrite cli_setc_other by exact N. rewrite (pending_other c c' evs ev N T). unfold cli. rewrite E. apply H.
Qed.

Lemma close_handles_cl w cl : w_cl (close_handles w cl) = w_cl w.
Proof.
  unfold close_handles. destruct (match c_w2r cl with Some b => _ | None => _ end) as [ks h].
  cbn [w_ks w_r2w set].
  destruct (match c_r2w cl with Some b => _ | None => _ end) as [ks2 h2]. reflexivity.
Qed.

Theorem step_PI w0 w evs a w' ev : WI w0 w evs -> PI w evs -> contract w a ->
  step w a = Ok (w', ev) -> PI w' (evs ++ ev).
Proof.
  intros W HP HC HS. pose proof (wi_ring _ _ _ W) as I. apply step_inv in HS.
  assert (HPc : forall c, pc_for (c_flags (cli w c)) (c_pc (cli w c)) (pending c evs)) by exact HP.
  assert (LB : forall c, c_live (cli w c) = true -> (c < length (w_cl w))%nat) by (intros; apply live_bound; assumption).
  assert (NW : forall c x, pending c (evs ++ [ERet c x]) = None).
  { intros c x. rewrite pending_app. cbn [fold_left]. rewrite is_refl. reflexivity. }
  destruct HS as
   [ a
   | e flags pid w' E
   | e flags pid w' cl E
   | c x cl' rs Hl Hpc E
   | c e k iov len nb v cl' rs Hl Hpc Hv E
   | c e k iov len n s p Hl Hpc He E Er
   | c e k iov len nb r1 hw ks bh hw' wok r2 rv cl' rs Hl Hpc He E Ew Eb E2 Ev Ee
   | c e buf niov Hl Hpc He
   | c e buf niov q md h ks ok Hl Hpc He Hnb E Eh Ef
   | c e buf niov q md n s p Hl Hpc He Hnb E Eh
   | c e buf niov q md x cur' hr r2w' ks1 bh1 ks2 ok h Hl Hpc He E Eh Er Hn0 Hn1 Ef
   | c e w' Hl Hpc Hw'
   | c e ks h b cl' rs Hl Hpc He E Ee
   | c e Hl Hpc
   | c e reset r x Hl Hpc E
   | c e get st sz r x Hl Hpc E
   | c sid polls Hs Hp
   | a c sc k iov len nb cl' rs Ha Hpc E
   | a c sc buf niov Ha Hpc
   | c Hl ]; try (specialize (HPc c)).
  - rewrite app_nil_r. exact HP.
  - destruct (do_open_ok e w flags pid _ I HC) as (w1 & o & E' & E1 & E2 & E3 & _).
    rewrite E in E'. injection E' as <- <-. intros c. rewrite pending_app. cbn [fold_left]. unfold cli. rewrite E2. apply HP.
  - destruct (do_open_ok e w flags pid _ I HC) as (w1 & o & E' & E1 & E2 & E3 & Ho).
    rewrite E in E'. injection E' as <- <-. destruct (Ho cl eq_refl) as (_ & _ & HPc' & _).
    intros c. rewrite pending_app. cbn [fold_left]. specialize (HP c). unfold cli in *. cbn [w_cl set]. rewrite E2.
    destruct (Nat.lt_trichotomy c (length (w_cl w))) as [L|[L|L]].
    + rewrite app_nth1 by exact L. exact HP.
    + subst. rewrite app_nth2, Nat.sub_diag by lia. cbn [nth]. rewrite HPc'.
      rewrite nth_overflow in HP by lia. exact HP.
    + rewrite nth_overflow by (rewrite app_length; cbn; lia). rewrite nth_overflow in HP by lia. exact HP.
  - change (ECall c x :: rets c rs) with ([ECall c x] ++ rets c rs).
    apply (PI_setc w); [exact HP|reflexivity|auto|constructor; [reflexivity|apply tagged_rets]|].
    rewrite app_assoc, pending_rets, pending_app. cbn [fold_left]. rewrite is_refl.
    pose proof (start_call_id _ _ _ _ E) as [[_ _ ID _ _ _ _ _] _]. rewrite ID. apply start_call_pc; assumption.
  - apply (PI_setc w); [exact HP|reflexivity|auto|apply tagged_rets|].
    rewrite pending_rets. pose proof (end_write_id _ _ _ _ _ _ E) as [[_ _ ID _ _ _ _ _] _]. rewrite ID.
    rewrite Hpc in HPc. exact (end_write_pc _ _ _ _ _ _ _ _ _ E HPc).
  - apply (PI_setc w); [exact HP|reflexivity|auto|constructor|]. rewrite app_nil_r. cbn [c_flags c_pc set].
    rewrite Hpc in HPc. exact HPc.
  - apply (PI_setc w); [exact HP|reflexivity|auto|constructor; [reflexivity|apply tagged_rets]|].
    change (ECommit c iov :: rets c rs) with ([ECommit c iov] ++ rets c rs).
    rewrite app_assoc, pending_rets, pending_app. cbn [fold_left].
    pose proof (end_write_id _ _ _ _ _ _ Ee) as [[_ _ ID _ _ _ _ _] _]. rewrite ID. cbn [c_flags set].
    rewrite Hpc in HPc. exact (end_write_pc _ _ _ _ _ _ _ _ _ Ee HPc).
  - apply (PI_setc w); [exact HP|reflexivity|auto|repeat constructor|]. rewrite NW. reflexivity.
  - apply (PI_setc w); [exact HP|reflexivity|auto|repeat constructor|]. rewrite NW. reflexivity.
  - apply (PI_setc w); [exact HP|reflexivity|auto|constructor|]. rewrite app_nil_r. cbn [c_flags c_pc set].
    rewrite Hpc in HPc. exact HPc.
  - apply (PI_setc w); [exact HP|reflexivity|auto|repeat constructor|]. rewrite NW. reflexivity.
  - apply (PI_setc w); [exact HP| |auto|repeat constructor|].
    + destruct Hw' as [->|(ks & h & _ & _ & ->)]; reflexivity.
    + rewrite NW. reflexivity.
  - apply (PI_setc w); [exact HP|reflexivity|auto|apply tagged_rets|].
    rewrite pending_rets. pose proof (flush_write_id _ _ _ _ _ Ee) as [[_ _ ID _ _ _ _ _] _]. rewrite ID. cbn [c_flags set].
    rewrite Hpc in HPc. destruct HPc as [-> Hn]. apply (flush_write_pc _ _ _ _ _ (Some (CFlush true))) in Ee; [exact Ee|].
    exists true. cbn [c_flags set]. rewrite Hn. auto.
  - apply (PI_setc w); [exact HP| |auto|repeat constructor|].
    + destruct (e_lock e); [apply close_handles_cl|reflexivity].
    + rewrite NW. reflexivity.
  - apply (PI_setc w); [exact HP|reflexivity|auto|repeat constructor|]. rewrite NW. reflexivity.
  - apply (PI_setc w); [exact HP|reflexivity|auto|repeat constructor|]. rewrite NW. reflexivity.
  - assert (L : (c < length (w_cl w))%nat).
    { apply pc_bound. intros H0. unfold wait_sid in Hs. rewrite H0 in Hs. discriminate. }
    apply (PI_setc w); [exact HP|reflexivity|auto|repeat constructor|]. rewrite app_nil_r. unfold resume, wait_sid in *.
    destruct (c_pc (cli w c)); try discriminate; exact HPc.
  - assert (L : (c < length (w_cl w))%nat) by (apply pc_bound; congruence).
    apply (PI_setc w); [exact HP|reflexivity|auto|apply tagged_rets|].
    rewrite pending_rets. pose proof (end_write_id _ _ _ _ _ _ E) as [[_ _ ID _ _ _ _ _] _]. rewrite ID.
    rewrite Hpc in HPc. exact (end_write_pc _ _ _ _ _ _ _ len nb E HPc).
  - assert (L : (c < length (w_cl w))%nat) by (apply pc_bound; congruence).
    apply (PI_setc w); [exact HP|reflexivity|auto|repeat constructor|]. rewrite NW. reflexivity.
  - apply (PI_setc w); [exact HP|reflexivity|auto|repeat constructor|].
    rewrite pending_app. cbn [fold_left]. rewrite is_refl. reflexivity.
Qed.

Lemma PI_start r fsz : PI (world0 r fsz) [].
Proof. intros c. rewrite world0_cli. reflexivity. Qed.

Theorem exec_PI (P : world -> action -> Prop) r fsz w evs :
  (forall w a, P w a -> contract w a) -> fresh r fsz ->
  exec P (world0 r fsz) w evs -> seq_bound r evs -> PI w evs.
Proof.
  intros HP F X. induction X as [|w evs a w' ev X IH Pa S]; intros HB; [apply PI_start|].
  pose proof (seq_bound_app _ _ _ HB) as HB'.
  apply (step_PI (world0 r fsz) w evs a); auto. apply (exec_WI P); assumption.
Qed.

(** induction over executions with the invariants at hand *)
Theorem exec_ind_inv (P : world -> action -> Prop) r fsz (Q : world -> list event -> Prop) :
  (forall w a, P w a -> contract w a) -> fresh r fsz ->
  Q (world0 r fsz) [] ->
  (forall w evs a w' ev, exec P (world0 r fsz) w evs -> WI (world0 r fsz) w evs -> PI w evs ->
     WI (world0 r fsz) w' (evs ++ ev) ->
     seq_bound (w_ring w) (evs ++ ev) -> P w a -> step w a = Ok (w', ev) -> stepI w a w' ev ->
     effect (good_env w a) (w_ring w) (committed evs) ev (w_ring w') -> Q w evs -> Q w' (evs ++ ev)) ->
  forall w evs, exec P (world0 r fsz) w evs -> seq_bound r evs -> Q w evs.
Proof.
  intros HP F Q0 QS w evs X. induction X as [|w evs a w' ev X IH Pa S]; intros HB; [exact Q0|].
  pose proof (seq_bound_app _ _ _ HB) as HB'.
  pose proof (exec_WI P _ _ _ _ HP F X HB') as W.
  assert (HBr : seq_bound (w_ring w) (evs ++ ev)).
  { intros Hf. rewrite (same_dims_farm _ _ (wi_dims _ _ _ W)) in Hf. apply HB. exact Hf. }
  apply (QS w evs a w' ev); auto.
  - apply (exec_PI P r fsz); assumption.
  - apply (step_WI _ w _ a); auto. apply (seq_bound_app _ _ _ HBr).
  - apply step_inv. exact S.
  - apply (step_effect _ _ _ a _ _ W); auto. apply (seq_bound_app _ _ _ HBr).
Qed.
