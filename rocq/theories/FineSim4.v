(** * The simulation: leaving the section. *)
From Verif Require Import BaseFacts MicroFacts KillExec KillFacts KillInv KillFinal BwInv KillBwInv LockFacts WorldFacts StepInv SysFacts KillSpec.
From Verif Require Export FineSim3.

Section Leave.
Variables (P : world -> action -> Prop) (r : ring) (fsz : Z).
Hypothesis HP : local P.
Hypothesis F : fresh r fsz.
Notation st := (world0 r fsz).

Lemma wakes_kexec w evs D : kexec P st w evs -> HI w -> NoDup (map fst D) -> NoDup (map snd D) ->
  (forall d, In d D -> (exists p, wait_sid (cli w (fst d)) = Some (snd d, p)) /\ 0 < pend (shared w) (snd d)) ->
  kexec P st (wakes D w) evs /\ HI (wakes D w).
Proof.
  intros K H. induction D as [|d D IH]; intros N1 N2 G; [auto|]. cbn [map] in N1, N2. inversion N1; subst. inversion N2; subst.
  destruct IH as [K1 H1]; [assumption|assumption|intros d' I; apply G; right; exact I|]. destruct (G d (or_introl eq_refl)) as [[p E] Pn].
  assert (St : step (wakes D w) (AWake (fst d)) = Ok (wakes (d :: D) w, [])).
  { cbn [step]. rewrite cli_wakes by assumption. rewrite E.
    pose proof (recvs_pend D (snd d) (shared w)) as Q. rewrite <- shared_wakes in Q. cbn [shared sh_ks] in Q, Pn. rewrite Q by assumption.
    replace (_ >? 0) with true by lia. rewrite wakes_cons. unfold wake. rewrite cli_wakes by assumption. reflexivity. }
  split.
  - rewrite <- (app_nil_r evs). eapply kx_step; [exact K1|apply (lo_wake _ HP)|exact St].
  - apply (HI_free _ (AWake (fst d)) _ [] I H1 St).
Qed.

Lemma sim_leave w iw x rr w' ev evs w0 m0 D : seq_bound r evs -> sim P st w (mkin iw x (Ret (Ok rr))) evs w0 m0 D -> leave w x rr = (w', ev) ->
  kexec P st w' (evs ++ ev) /\ HI w'.
Proof.
  intros B S Le. pose proof (si_w _ _ _ _ _ _ _ _ S) as W. pose proof (si_e _ _ _ _ _ _ _ _ S) as Ew. pose proof (sim_names P st HP _ _ _ _ _ _ S) as N.
  pose proof (si_hi _ _ _ _ _ _ _ _ S) as H. pose proof (si_k _ _ _ _ _ _ _ _ S) as K. pose proof (si_p _ _ _ _ _ _ _ _ S) as Pa. pose proof (si_r _ _ _ _ _ _ _ _ S) as Rd.
  pose proof (si_d _ _ _ _ _ _ _ _ S) as SD. pose proof (si_nd _ _ _ _ _ _ _ _ S) as ND. pose proof (si_ns _ _ _ _ _ _ _ _ S) as NS.
  cbn [in_w in_who in_p] in *. clear S.
  apply partway_exec in W. cbn [exec_all] in W.
  assert (L : LI w0) by (eapply kexec_LI, K).
  assert (KC : kreach contract r w0 evs) by (exists fsz; split; [exact F|]; split; [eapply kexec_mono; [apply (lo_contract _ HP)|exact K]|exact B]).
  destruct (k_total r w0 evs (act x) KC (lo_contract _ HP _ _ Pa)) as (w1 & ev1 & St).
  destruct x as [c e|e flags pid]; cbn [act body holds ready] in *.
  - pose proof St as St0. cbn [step] in St. pose proof (proj1 Rd) as Wl. unfold wants_lock in Wl. apply andb_prop in Wl. rewrite (proj1 Wl) in St.
    destruct (fsection_exec e w0 c w1 ev1 L Rd St) as (cl & m & Ex & ->). rewrite Ex in W. apply ok_pair in W. destruct W as [-> W]. injection W as <-.
    cbn [leave fst snd] in Le. injection Le as <- <-.
    assert (Nc : ~ In c (map fst D)) by (intros I; apply in_map_iff in I; destruct I as (d & X & I); destruct (SD d I) as [A _]; exact (A X)).
    rewrite Ew, wakes_setc by exact Nc. apply wakes_kexec; [eapply kx_step; [exact K|exact Pa|exact St0]| |exact ND|exact NS|].
    + exact (HI_call w0 e c (Some cl, ev1) m0 H N Ex (ex_intro _ cl eq_refl)).
    + intros d I. destruct (SD d I) as (A1 & A2 & A3 & _). rewrite shared_setc, shared_with. split; [|exact A3].
      rewrite cli_setc_other by exact A1. exact A2.
  - pose proof St as St0. cbn [step] in St. apply obind_ok in St. destruct St as ([w2 o] & Ed & St).
    pose proof (lo_contract _ HP _ _ Pa) as C. cbn [contract] in C.
    destruct (fopen_exec e w0 flags pid w2 o L ltac:(apply C) Rd Ed) as (m & Ex & ->). rewrite Ex in W. apply ok_pair in W. destruct W as [-> W]. injection W as <-.
    pose proof (HI_open w0 e flags pid (o, []) m0 H N Ex) as H1. cbn [leave fst] in Le, H1.
    assert (G : forall d, In d D -> (exists p, wait_sid (cli w0 (fst d)) = Some (snd d, p)) /\ 0 < pend m0 (snd d)) by (intros d I; split; apply (SD d I)).
    destruct o as [cl|]; cbn [fst] in H1; apply ok_pair in St; destruct St as [<- <-]; injection Le as <- <-; rewrite Ew.
    + assert (LD : forall d, In d D -> (fst d < length (w_cl (with_shared w0 m0)))%nat) by (intros d I; destruct (G d I) as [[p E] _]; apply (wait_in w0 _ _ _ E)).
      rewrite wakes_add by exact LD. replace (length (w_cl (wakes D (with_shared w0 m0)))) with (length (w_cl (with_shared w0 m0))) by (rewrite wcl_wakes, wcl_len; reflexivity).
      apply wakes_kexec; [eapply kx_step; [exact K|exact Pa|exact St0]|exact H1|exact ND|exact NS|].
      intros d I. destruct (G d I) as [A1 A2]. split; [|change (0 < pend (shared (with_shared w0 m0)) (snd d)); rewrite shared_with; exact A2].
      unfold cli in *. cbn [w_cl set]. rewrite app_nth1 by (apply LD, I). exact A1.
    + apply wakes_kexec; [eapply kx_step; [exact K|exact Pa|exact St0]|exact H1|exact ND|exact NS|].
      intros d I. rewrite shared_with. apply (G d I).
Qed.

Lemma close_new_none n (ks : socks) : n = length ks -> close_new n ks = ks.
Proof. intros ->. unfold close_new. rewrite firstn_all, skipn_all. apply app_nil_r. Qed.

Lemma sim_kill w iw x line f w' ev evs w0 m0 D : sim P st w (mkin iw x (At line f)) evs w0 m0 D ->
  intact iw w x line = true -> die iw w x line = (w', ev) -> kexec P st w' (evs ++ ev) /\ HI w'.
Proof.
  intros S Ii Di. pose proof (si_w _ _ _ _ _ _ _ _ S) as W. pose proof (si_e _ _ _ _ _ _ _ _ S) as Ew. pose proof (sim_names P st HP _ _ _ _ _ _ S) as N.
  pose proof (si_hi _ _ _ _ _ _ _ _ S) as H. pose proof (si_k _ _ _ _ _ _ _ _ S) as K. pose proof (si_p _ _ _ _ _ _ _ _ S) as Pa. pose proof (si_r _ _ _ _ _ _ _ _ S) as Rd.
  pose proof (si_d _ _ _ _ _ _ _ _ S) as SD. pose proof (si_nd _ _ _ _ _ _ _ _ S) as ND. pose proof (si_ns _ _ _ _ _ _ _ _ S) as NS.
  pose proof (si_ring _ _ _ _ _ _ _ _ S) as Er. pose proof (si_h _ _ _ _ _ _ _ _ S) as Eh. pose proof (si_l _ _ _ _ _ _ _ _ S) as El.
  pose proof (fun d I => sim_len P st _ _ _ _ _ _ d S I) as LD.
  cbn [in_w in_who in_p] in *. clear S.
  pose proof (body_len _ _ _ _ H N W) as Lm.
  assert (H1 : HI (fst (die w0 (with_shared w0 m0) x line))).
  { pose proof H as [home H0]. apply (HI_die home); [exact H0|apply (body_JS _ _ _ _ _ H0 N W)]. }
  assert (D0 : dies_at (body w0 x) (shared w0) line m0) by (apply (partway_dies _ _ _ _ W); constructor).
  assert (KsE : close_new (length (w_ks iw)) (w_ks w) = rks D (close_new (length (w_ks w0)) (sh_ks m0))).
  { rewrite <- El, Ew, ks_wakes. change (w_ks (with_shared w0 m0)) with (sh_ks m0). apply rks_close; [exact LD|exact Lm]. }
  assert (Pn : forall d, In d D -> forall h h', (exists p, wait_sid (cli w0 (fst d)) = Some (snd d, p)) /\
            0 < k_pend (sk (drop_sock (drop_sock (close_new (length (w_ks w0)) (sh_ks m0)) h) h') (snd d))).
  { intros d I h h'. destruct (SD d I) as (_ & A2 & A3 & _). split; [exact A2|].
    assert (DP : forall ks h, k_pend (sk (drop_sock ks h) (snd d)) = k_pend (sk ks (snd d))).
    { intros ks [[|n s p]|]; cbn [drop_sock]; try reflexivity. unfold sk_upd, sk at 1. destruct (nth_set_any sock_dead ks s (snd d) (sk ks s <| k_open := false |>)) as [->|[-> ->]]; reflexivity. }
    rewrite !DP. unfold close_new, sk. rewrite app_nth1 by (rewrite firstn_length; pose proof (LD d I); lia).
    unfold sk in A3. rewrite <- (firstn_skipn (length (w_ks w0)) (sh_ks m0)) in A3. rewrite app_nth1 in A3 by (rewrite firstn_length; pose proof (LD d I); lia). exact A3. }
  destruct x as [c e|e flags pid]; cbn [act body holds ready intact die] in *.
  - injection Di as Di Ev. assert (Nc : ~ In c (map fst D)) by (intros I; apply in_map_iff in I; destruct I as (d & X & I); destruct (SD d I) as [A _]; exact (A X)).
    assert (Ec : cli w c = cli w0 c) by (rewrite Ew, cli_wakes by exact Nc; reflexivity).
    assert (Ek : kill_events iw c line = kill_events w0 c line) by (unfold kill_events; rewrite <- (Eh c eq_refl); reflexivity).
    assert (Eu : untorn w0 c m0 line = true).
    { rewrite <- Ii. unfold untorn. rewrite <- (Eh c eq_refl), Er. cbn [shared sh_ring]. rewrite Ew, ring_wakes. reflexivity. }
    assert (Wk : w' = wakes D (killed w0 c m0)).
    { rewrite <- Di, Ec, KsE, !rks_drop. unfold killed. change (w_ks (with_shared w0 m0)) with (sh_ks m0). rewrite <- wakes_setc by exact Nc. unfold setc. rewrite Ew.
      apply world_eq; [|cbn; rewrite !wcl_wakes; reflexivity|cbn; rewrite !fsz_wakes; reflexivity].
      change (mksh (w_ring (wakes D (with_shared w0 m0))) (w_w2r (wakes D (with_shared w0 m0))) (w_r2w (wakes D (with_shared w0 m0))) (rks D (drop_sock (drop_sock (close_new (length (w_ks w0)) (sh_ks m0)) (c_w2r (cli w0 c))) (c_r2w (cli w0 c)))) =
        shared (wakes D (with_shared w0 m0 <| w_ks := drop_sock (drop_sock (close_new (length (w_ks w0)) (sh_ks m0)) (c_w2r (cli w0 c))) (c_r2w (cli w0 c)) |>))).
      rewrite shared_wakes, recvs_rks. pose proof (shared_wakes D (with_shared w0 m0)) as Q. rewrite recvs_rks in Q. injection Q as Q1 Q2 Q3 Q4. unfold kputs. rewrite Q1, Q2, Q3. reflexivity. }
    assert (Kk : kexec P st (killed w0 c m0) (evs ++ ev)).
    { rewrite <- Ev, Ek. pose proof (proj1 Rd) as Wl. unfold wants_lock in Wl. apply andb_prop in Wl. destruct Wl as [Wl _].
      destruct (kill_call _ _ _ _ _ _ _ (proj2 Rd) D0) as [(l' & D1 & El')|[Em El']].
      - assert (E1 : kill_events w0 c line = kill_events w0 c l') by (unfold kill_events; destruct (c_pc (cli w0 c)); try reflexivity; rewrite El'; reflexivity).
        rewrite E1. apply (kx_kill P st w0 evs c e l' m0 K Pa Wl D1). rewrite <- Eu. unfold untorn. destruct (c_pc (cli w0 c)); try reflexivity; rewrite El'; reflexivity.
      - assert (Ek2 : kill_events w0 c line = [ECrash c]) by (unfold kill_events; destruct (c_pc (cli w0 c)); try reflexivity; contradiction). rewrite Ek2.
        apply (kx_step P st w0 evs (ACrash c)); [exact K|apply (lo_crash _ HP)|]. cbn [step]. rewrite Wl. cbn [negb]. unfold killed. rewrite Em, with_shared_same, close_new_none by reflexivity. reflexivity. }
    rewrite Wk. apply wakes_kexec; [exact Kk|exact H1|exact ND|exact NS|].
    intros d I. destruct (SD d I) as (A1 & _). unfold killed. rewrite cli_setc_other by exact A1. apply (Pn d I).
  - injection Di as <- <-. rewrite app_nil_r.
    assert (Wk : w <| w_ks := close_new (length (w_ks iw)) (w_ks w) |> = wakes D (killed_opening w0 m0)).
    { rewrite KsE, Ew. unfold killed_opening. apply world_eq; [|cbn; rewrite !wcl_wakes; reflexivity|cbn; rewrite !fsz_wakes; reflexivity].
      change (mksh (w_ring (wakes D (with_shared w0 m0))) (w_w2r (wakes D (with_shared w0 m0))) (w_r2w (wakes D (with_shared w0 m0))) (rks D (close_new (length (w_ks w0)) (sh_ks m0))) =
        shared (wakes D (with_shared w0 m0 <| w_ks := close_new (length (w_ks w0)) (sh_ks m0) |>))).
      rewrite shared_wakes, recvs_rks. pose proof (shared_wakes D (with_shared w0 m0)) as Q. rewrite recvs_rks in Q. injection Q as Q1 Q2 Q3 Q4. unfold kputs. rewrite Q1, Q2, Q3. reflexivity. }
    rewrite Wk. apply wakes_kexec; [|exact H1|exact ND|exact NS|].
    + destruct (kill_open _ _ _ _ _ _ Rd D0) as [Em|[l' D1]]; [|apply (kx_kill_open P st w0 evs e flags pid l' m0 K Pa D1)].
      unfold killed_opening. rewrite Em, with_shared_same, close_new_none by reflexivity. cbn [shared sh_ks]. destruct w0; exact K.
    + intros d I. exact (Pn d I None None).
Qed.

(** ** all together *)
Definition fsim (s : fstate) (evs : list event) : Prop :=
  match snd s with
  | None => kexec P st (fst s) evs /\ HI (fst s)
  | Some i => exists w0 m0 D, sim P st (fst s) i evs w0 m0 D
  end.
Theorem fine_sim s evs : fexec P st s evs -> seq_bound r evs -> fsim s evs.
Proof.
  induction 1 as [|s evs ev s' X IH Stp]; intros B; [split; [constructor|apply HI_start]|]. specialize (IH (seq_bound_app _ _ _ B)). pose proof (seq_bound_app _ _ _ B) as B0.
  destruct Stp as [w a w' ev Un Pa St|w i a w' ev M Pa St|w x Rd Pa|w w0 x line f m p E|w w0 x rr w' ev Le|w w0 x line f w' ev Ii Di]; cbn [fsim fst snd] in *.
  - destruct IH as [K H]. split; [eapply kx_step; eassumption|apply (HI_free w a _ ev Un H St)].
  - destruct IH as (w0 & m0 & D & S). apply (sim_meanwhile P st HP _ _ _ _ _ _ _ _ _ S M Pa St).
  - destruct IH as [K H]. exists w, (shared w), []. rewrite app_nil_r. apply sim_lock; assumption.
  - destruct IH as (w1 & m0 & D & S). rewrite app_nil_r. destruct (sim_stmt P st HP _ _ _ _ _ _ _ _ _ _ _ S E) as [m1 S1]. eauto.
  - destruct IH as (w1 & m0 & D & S). apply (sim_leave _ _ _ _ _ _ _ _ _ _ B0 S Le).
  - destruct IH as (w1 & m0 & D & S). apply (sim_kill _ _ _ _ _ _ _ _ _ _ _ S Ii Di).
Qed.

(** whoever has the lock can go on until it gives it up *)
Theorem fine_goes_on w i evs : fexec P st (w, Some i) evs -> seq_bound r evs ->
  (exists rr, in_p i = Ret (Ok rr)) \/ exists line f m p, in_p i = At line f /\ f (shared w) = Ok (m, p).
Proof.
  intros X B. destruct (fine_sim _ _ X B) as (w0 & m0 & D & S). cbn [fst] in S.
  pose proof (si_w _ _ _ _ _ _ _ _ S) as W. pose proof (si_e _ _ _ _ _ _ _ _ S) as Ew. pose proof (sim_names P st HP _ _ _ _ _ _ S) as N.
  pose proof (si_k _ _ _ _ _ _ _ _ S) as K. pose proof (si_p _ _ _ _ _ _ _ _ S) as Pa. pose proof (si_r _ _ _ _ _ _ _ _ S) as Rd.
  pose proof (body_len _ _ _ _ (si_hi _ _ _ _ _ _ _ _ S) N W) as Lm.
  apply partway_exec in W.
  assert (L : LI w0) by (eapply kexec_LI, K).
  assert (KC : kreach contract r w0 evs) by (exists fsz; split; [exact F|]; split; [eapply kexec_mono; [apply (lo_contract _ HP)|exact K]|exact B]).
  destruct (k_total r w0 evs (act (in_who i)) KC (lo_contract _ HP _ _ Pa)) as (w1 & ev1 & St).
  assert (Ex : exists m rr, exec_all (body w0 (in_who i)) (shared w0) = Ok (m, Ok rr)).
  { destruct (in_who i) as [c e|e flags pid]; cbn [act body ready] in *.
    - cbn [step] in St. pose proof (proj1 Rd) as Wl. unfold wants_lock in Wl. apply andb_prop in Wl. rewrite (proj1 Wl) in St.
      destruct (fsection_exec e w0 c w1 ev1 L Rd St) as (cl & m & Ex & _). eauto.
    - cbn [step] in St. apply obind_ok in St. destruct St as ([w2 o] & Ed & St). pose proof (lo_contract _ HP _ _ Pa) as C. cbn [contract] in C.
      destruct (fopen_exec e w0 flags pid w2 o L ltac:(apply C) Rd Ed) as (m & Ex & _). eauto. }
  destruct Ex as (m & rr & Ex). rewrite Ex in W. symmetry in W. pose proof (si_d _ _ _ _ _ _ _ _ S) as SD. pose proof (fun d I => sim_len P st _ _ _ _ _ _ d S I) as LD.
  destruct (in_p i) as [x|l f] eqn:Ep; cbn [exec_all] in W.
  - left. apply ok_pair in W. destruct W as [_ W]. rewrite W. eauto.
  - right. destruct (f m0) as [[m1 p1]| | |] eqn:Ef; try discriminate W.
    destruct (inert_total f D m0 m1 p1) as [m' E']; [|exact Ef|].
    + intros d I. destruct (SD d I) as (_ & _ & _ & A). apply adv_at in A. split; [apply A|]. pose proof (LD d I). lia.
    + exists l, f, m', p1. split; [reflexivity|]. rewrite Ew, shared_wakes, shared_with. exact E'.
Qed.
End Leave.
