(** * Executions with power failures keep the invariants *)
From Verif Require Import MicroFacts Crash Effects Final Pending PollFacts StepInv WorldFacts FineStep FineSect RingFacts QueueFacts Trace.
From Verif Require Export RebootFacts KillInv.

Lemma cli_off w x c : cli (off w x) c = (cli w c) <| c_live := false |> <| c_pc := Idle |>.
Proof. unfold cli, off. cbn [w_cl]. change client0 with ((fun cl : client => cl <| c_live := false |> <| c_pc := Idle |>) client0) at 1. apply map_nth. Qed.
Lemma live_lt w c : c_live (cli w c) = true -> (c < length (w_cl w))%nat.
Proof. intros H. destruct (Nat.lt_ge_cases c (length (w_cl w))) as [L|L]; [exact L|]. unfold cli in H. rewrite nth_overflow in H by exact L. discriminate H. Qed.
Lemma in_gone w c : In (ECrash c) (gone w) <-> c_live (cli w c) = true.
Proof.
  unfold gone. rewrite in_map_iff. split.
  - intros (c' & E & I). injection E as ->. apply filter_In in I. apply I.
  - intros H. exists c. split; [reflexivity|]. apply filter_In. split; [|exact H]. apply in_seq. pose proof (live_lt _ _ H). lia.
Qed.
Lemma committed_crashes l : committed (map ECrash l) = [].
Proof. induction l as [|c l IH]; [reflexivity|exact IH]. Qed.
Lemma pending_crashes c l : forall evs, pending c (evs ++ map ECrash l) = if in_dec Nat.eq_dec c l then None else pending c evs.
Proof.
  induction l as [|d l IH]; intros evs; cbn [map]; [rewrite app_nil_r; reflexivity|].
  change (ECrash d :: map ECrash l) with ([ECrash d] ++ map ECrash l). rewrite app_assoc, IH.
  rewrite pending_app. cbn [fold_left]. destruct (in_dec Nat.eq_dec c l) as [I|I]; destruct (in_dec Nat.eq_dec c (d :: l)) as [J|J]; cbn [In] in J; try (exfalso; tauto); try reflexivity.
  - destruct J as [->|J]; [|tauto]. rewrite is_refl. reflexivity.
  - rewrite is_neq by (intros ->; apply J; left; reflexivity). reflexivity.
Qed.
Lemma seq_bound_crashes r evs l : seq_bound r evs -> seq_bound r (evs ++ map ECrash l).
Proof. intros H F. rewrite committed_app, committed_crashes, app_nil_r. exact (H F). Qed.

(** ** power failures *)
Lemma off_WI w0 w evs x : WI w0 w evs -> im_ring x = w_ring w -> WI w0 (off w x) (evs ++ gone w).
Proof.
  intros W E. assert (C : committed (evs ++ gone w) = committed evs) by (unfold gone; rewrite committed_app, committed_crashes, app_nil_r; reflexivity).
  destruct W as [A1 A2 A3 A4 A5 A6]. constructor; cbn [off w_ring w_fsz]; rewrite ?E, ?C; try assumption.
  - intros c H. rewrite cli_off in H. discriminate H.
  - intros c _. rewrite cli_off. reflexivity.
Qed.
Lemma off_PI w0 w evs x : WI w0 w evs -> PI w evs -> PI (off w x) (evs ++ gone w).
Proof.
  intros W H c. rewrite cli_off. cbn [c_pc set c_flags]. unfold gone. rewrite pending_crashes. destruct (in_dec _ _ _) as [I|I]; [reflexivity|].
  specialize (H c). destruct (c_live (cli w c)) eqn:L.
  - exfalso. apply I, filter_In. split; [|exact L]. apply in_seq. pose proof (live_lt _ _ L). lia.
  - rewrite (wi_dead _ _ _ W c L) in H. exact H.
Qed.
Lemma crashes_atomic (K : harm) a0 a p l : (forall fl o dn a, K fl o dn a a) -> forall evs, atomic K a0 evs a p -> atomic K a0 (evs ++ map ECrash l) a p.
Proof.
  intros HK. induction l as [|c l IH]; intros evs A; cbn [map]; [rewrite app_nil_r; exact A|].
  change (ECrash c :: map ECrash l) with ([ECrash c] ++ map ECrash l). rewrite app_assoc. apply IH. apply (at_crash _ _ _ a); [exact A|apply HK].
Qed.
Lemma off_TI (K : harm) a0 w evs x : (forall fl o dn a, K fl o dn a a) -> TI K a0 w evs -> im_ring x = w_ring w -> TI K a0 (off w x) (evs ++ gone w).
Proof.
  intros HK (p & A & _) E. exists p. split; [cbn [off w_ring]; rewrite E; apply crashes_atomic; assumption|].
  intros c L. rewrite cli_off in L. discriminate L.
Qed.
Lemma off_LI w x : LI w -> okim x -> LI (off w x).
Proof.
  intros L (A1 & A2 & _). constructor; cbn [off w_w2r w_r2w]; [exact A1|exact A2| |]; intros c h; rewrite cli_off; cbn [c_w2r c_r2w set]; apply L.
Qed.

(** ** steps *)
Lemma other_tables w a w' ev : step w a = Ok (w', ev) -> (forall e f p, a <> AOpen e f p) -> (forall c e, a <> ARun c e) ->
  w_w2r w' = w_w2r w /\ w_r2w w' = w_r2w w.
Proof.
  intros S N1 N2. destruct a as [e f p|c x|c e|c|c|c fd|c]; try (exfalso; eapply N1; reflexivity); try (exfalso; eapply N2; reflexivity); cbn [step] in S.
  - destruct (c_live (cli w c)); cbn [negb] in S; [|injection S as <- <-; split; reflexivity].
    destruct (c_pc (cli w c)); try (injection S as <- <-; split; reflexivity).
    apply obind_ok in S. destruct S as ([cl1 rs] & _ & S). injection S as <- <-. split; reflexivity.
  - destruct (wait_sid (cli w c)) as [[s p]|]; [destruct (k_pend (sk (w_ks w) s) >? 0)|]; injection S as <- <-; split; reflexivity.
  - unfold wait_failed in S. destruct (c_pc (cli w c)); try (injection S as <- <-; split; reflexivity).
    apply obind_ok in S. destruct S as ([cl1 rs] & _ & S). injection S as <- <-. split; reflexivity.
  - destruct (wait_sid (cli w c)) as [[s p]|]; [|injection S as <- <-; split; reflexivity].
    destruct (existsb _ _); [|injection S as <- <-; split; reflexivity].
    unfold wait_failed in S. destruct (c_pc (cli w c)); try (injection S as <- <-; split; reflexivity).
    apply obind_ok in S. destruct S as ([cl1 rs] & _ & S). injection S as <- <-. split; reflexivity.
  - destruct (c_live (cli w c)); cbn [negb] in S; injection S as <- <-; split; reflexivity.
Qed.
(** a step is its program *)
Lemma step_kprog w a w' ev : LI w -> contract w a -> step w a = Ok (w', ev) ->
  exists m, exec_all (kprog w a) (shared w) = Ok (m, tt) /\ sh_ring m = w_ring w' /\ sh_w2r m = w_w2r w' /\ sh_r2w m = w_r2w w'.
Proof.
  intros L C S. destruct a as [e f p|c y|c e|c|c|c fd|c]; cbn [kprog];
    try (exists (shared w); split; [reflexivity|]; pose proof (other_ring _ _ _ _ S) as [-> _]; [discriminate..|]; pose proof (other_tables _ _ _ _ S) as [-> ->]; [discriminate..|]; repeat split).
  - destruct C as (_ & _ & C3). cbn [step] in S. apply obind_ok in S. destruct S as ([w1 o] & E & S). rewrite (open_exec _ _ _ _ _ _ L C3 E).
    eexists. split; [reflexivity|]. destruct o; injection S as <- _; repeat split.
  - cbn [step] in S. destruct (c_live (cli w c)); [|injection S as <- _; exists (shared w); repeat split]. rewrite (section_exec _ _ _ _ _ L S). eexists. repeat split.
Qed.
Lemma step_okim w a w' ev : LI w -> contract w a -> step w a = Ok (w', ev) -> okim (im (shared w)) -> okim (im (shared w')).
Proof.
  intros L C S K. destruct (step_kprog _ _ _ _ L C S) as (m & E & E1 & E2 & E3).
  replace (im (shared w')) with (im m) by (unfold im, shared; cbn [sh_ring sh_w2r sh_r2w]; congruence).
  apply (okim_mb (shared w)); [|exact K]. exact (each_exec MB MB_refl MB_trans _ (mb_kprog w a) _ _ _ E).
Qed.

(** ** whole executions *)
Record RI (mid : bool) (r : ring) (fsz : Z) (w : world) (evs : list event) (u : store) : Prop := mkRI {
  ri_wi : WI (world0 r fsz) w evs;
  ri_pi : PI w evs;
  ri_ti : TI maimed (abs r) w evs;
  ri_un : mid = false -> TI unharmed (abs r) w evs;
  ri_li : LI w;
  ri_im : okim (im (shared w));
  ri_st : okst u;
  ri_sy : synced w u;
  ri_op : was_opened evs -> u <> None }.
Lemma TI_start K r fsz : TI K (abs r) (world0 r fsz) [].
Proof. exists (fun _ => (0, 0)). split; [apply at_nil|]. intros c. rewrite world0_cli. discriminate. Qed.
Lemma wi_sizes r fsz w evs : fresh r fsz -> WI (world0 r fsz) w evs -> 0 <= r_n (w_ring w) /\ 0 <= r_pad_len (w_ring w) /\ 0 <= r_mv_len (w_ring w).
Proof.
  intros F W. destruct (fresh_sizes _ _ F) as (A & B & C & _). destruct (wi_dims _ _ _ W) as (_ & En & _ & Ev & Ep & _). cbn [world0 w_ring] in *. rewrite En, Ev, Ep. lia.
Qed.
Lemma wi_bound r fsz w evs evs' : WI (world0 r fsz) w evs -> seq_bound r evs' -> seq_bound (w_ring w) evs'.
Proof. intros W B Hf. rewrite (same_dims_farm _ _ (wi_dims _ _ _ W)) in Hf. apply B. exact Hf. Qed.
Lemma wi_sync r fsz w evs : WI (world0 r fsz) w evs -> has (r_gflags r) SHR_SYNC = true -> has (r_gflags (w_ring w)) SHR_SYNC = true.
Proof. intros W S. destruct (wi_dims _ _ _ W) as (-> & _). exact S. Qed.
Lemma opened_app a b : was_opened a -> was_opened (a ++ b).
Proof. intros (f & c & I). exists f, c. apply in_or_app. left. exact I. Qed.

Section Inv.
Variables (mid : bool) (P : world -> action -> Prop) (r : ring) (fsz : Z).
Hypothesis HP : forall w a, P w a -> faultless w a.
Hypothesis F : fresh r fsz.
Hypothesis SY : has (r_gflags r) SHR_SYNC = true.
Lemma unharmed_refl fl o dn a : unharmed fl o dn a a. Proof. reflexivity. Qed.
Lemma maimed_refl fl o dn a : maimed fl o dn a a. Proof. left. reflexivity. Qed.
Lemma ri_step w evs u a w' ev m u' : RI mid r fsz w evs u -> P w a -> step w a = Ok (w', ev) -> exec_all (dprog w a) (shared w, u) = Ok ((m, u'), tt) ->
  seq_bound r (evs ++ ev) -> RI mid r fsz w' (evs ++ ev) u'.
Proof.
  intros [W PI0 T TU L IM ST S O] Pa H D B. pose proof (HP _ _ Pa) as FL. pose proof (faultless_contract _ _ FL) as C.
  pose proof (wi_bound _ _ _ _ _ W B) as BW.
  assert (W' : WI (world0 r fsz) w' (evs ++ ev)) by (apply (step_WI _ w _ a); auto; apply (seq_bound_app _ _ _ BW)).
  destruct (synced_step _ _ _ _ _ _ _ L (wi_sync _ _ _ _ W SY) (wi_sync _ _ _ _ W' SY) FL H D S) as (S' & O1 & O2).
  constructor.
  - exact W'.
  - apply (step_PI (world0 r fsz) w evs a); auto.
  - apply (step_TI _ _ (world0 r fsz) w evs a); auto. exact maimed_refl.
  - intros E. apply (step_TI _ _ (world0 r fsz) w evs a); auto. exact unharmed_refl.
  - exact (LI_step _ _ _ _ L H).
  - exact (step_okim _ _ _ _ L C H IM).
  - apply (okst_from (kprog w a) (shared w) u); [apply mb_kprog|exact IM|exact ST|exact (step_notes _ _ _ _ _ _ D)].
  - exact S'.
  - intros (f & c & I). apply in_app_or in I. destruct I as [I|I]; [apply O1, O; exists f, c; exact I|exact (O2 f c I)].
Qed.
(** the power fails after [evs] with [x] on the disk *)
Lemma ri_off w evs x mid' : WI (world0 r fsz) w evs -> PI w evs -> TI maimed (abs r) w evs -> (mid' = false -> TI unharmed (abs r) w evs) -> LI w ->
  okim x -> im_ring x = w_ring w -> RI mid' r fsz (off w x) (evs ++ gone w) (Some [x]).
Proof.
  intros W PI0 T TU L OX E. constructor.
  - apply off_WI; assumption.
  - eapply off_PI; eassumption.
  - apply off_TI; [exact maimed_refl|assumption..].
  - intros M. apply off_TI; [exact unharmed_refl|auto|assumption].
  - apply off_LI; assumption.
  - exact OX.
  - intros s [<-|[]]. exact OX.
  - intros s [<-|[]]. reflexivity.
  - discriminate.
Qed.
Lemma ri_fails w evs u a x : RI mid r fsz w evs u -> was_opened evs -> fails_in w u a x -> okim x.
Proof.
  intros R Op (line & m & u' & D & S). pose proof (fails_notes _ _ _ _ _ _ D) as N.
  pose proof (okst_from _ _ _ _ (mb_kprog w a) (ri_im _ _ _ _ _ _ R) (ri_st _ _ _ _ _ _ R) N) as K.
  destruct u' as [l|]; [exact (okst_survives _ _ K S)|]. exfalso. apply (proj1 N); [|reflexivity]. apply (ri_op _ _ _ _ _ _ R Op).
Qed.
Theorem rexec_inv w evs u : rexec mid P (world0 r fsz) w evs u -> seq_bound r evs -> RI mid r fsz w evs u.
Proof.
  intros X. induction X as [|w evs u a w' ev m u' X IH Pa S D|w evs u x X IH Op S|w evs u c e x line m M X IH Op Pa Hl Fx D U E|w evs u e flags pid x line m M X IH Op Pa Fx D E|w evs u a x w' ev M X IH Op Pa Fx S E]; intros B.
  - constructor; try (intros; apply TI_start).
    + apply WI_start, F.
    + apply PI_start.
    + apply LI0.
    + repeat split; cbn; lia.
    + exact Logic.I.
    + exact Logic.I.
    + intros (f & c & []).
  - apply (ri_step w evs u a w' ev m u'); auto. apply IH, (seq_bound_app _ _ _ B).
  - specialize (IH (seq_bound_app _ _ _ B)). destruct IH as [W PI0 T TU L IM ST SY0 O]. specialize (O Op). destruct u as [l|]; [|congruence].
    destruct (wi_sizes _ _ _ _ F W) as (N1 & N2 & N3). apply ri_off; auto; [exact (okst_survives _ _ ST S)|]. exact (survives_ring l x (w_ring w) N1 N2 N3 SY0 S).
  - rewrite app_assoc in *. pose proof (seq_bound_app _ _ _ B) as B1. specialize (IH (seq_bound_app _ _ _ B1)). pose proof (ri_fails _ _ _ _ _ IH Op Fx) as OX. destruct IH as [W PI0 T TU L IM ST SY0 O].
    pose proof (wi_bound _ _ _ _ _ W B1) as BW. apply ri_off.
    + apply (kill_WI _ _ _ _ e); auto. apply (seq_bound_app _ _ _ BW).
    + apply kill_PI; auto.
    + apply (kill_TI _ (world0 r fsz) _ _ _ e); auto.
    + congruence.
    + exact (LI_kill _ _ _ _ _ L D).
    + exact OX.
    + exact E.
  - specialize (IH (seq_bound_app _ _ _ B)). pose proof (ri_fails _ _ _ _ _ IH Op Fx) as OX. destruct IH as [W PI0 T TU L IM ST SY0 O].
    apply ri_off; auto. rewrite E. exact (open_ring _ _ _ _ _ _ D).
  - rewrite app_assoc in *. pose proof (seq_bound_app _ _ _ B) as B1. specialize (IH (seq_bound_app _ _ _ B1)). pose proof (ri_fails _ _ _ _ _ IH Op Fx) as OX. destruct IH as [W PI0 T TU L IM ST SY0 O].
    pose proof (wi_bound _ _ _ _ _ W B1) as BW. pose proof (faultless_contract _ _ (HP _ _ Pa)) as C. apply ri_off; auto.
    + apply (step_WI _ w _ a); auto. apply (seq_bound_app _ _ _ BW).
    + apply (step_PI (world0 r fsz) w evs a); auto.
    + apply (step_TI _ _ (world0 r fsz) w evs a); auto. exact maimed_refl.
    + congruence.
    + exact (LI_step _ _ _ _ L S).
Qed.
End Inv.
