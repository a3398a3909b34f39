(** * Executions with killed processes keep the invariants *)
From Verif Require Import MicroFacts Crash ReadCall Effects Final Trace Pending.
From Verif Require Export KillFacts.

Lemma cli_killed_same w c m : (c < length (w_cl w))%nat -> cli (killed w c m) c = (cli w c) <| c_live := false |> <| c_pc := Idle |>.
Proof. intros L. unfold killed. apply cli_setc_same. exact L. Qed.
Lemma cli_killed_other w c c' m : c' <> c -> cli (killed w c m) c' = cli w c'.
Proof. intros N. unfold killed. rewrite cli_setc_other by exact N. reflexivity. Qed.
Lemma ring_killed w c m : w_ring (killed w c m) = sh_ring m. Proof. reflexivity. Qed.
Lemma cli_opening w m c : cli (killed_opening w m) c = cli w c. Proof. reflexivity. Qed.

Lemma open_ring e w flags pid line m : dies_at (open_section e w flags pid) (shared w) line m -> sh_ring m = w_ring w.
Proof.
  assert (CO : forall b h m l m', dies_at (close_opt b h) m l m' -> sh_ring m' = sh_ring m).
  { intros b h m1 l m2 D. destruct h; cbn [close_opt] in D; [apply (bw_ring_dies _ _ _ _ _ D)|apply dies_ret in D; contradiction]. }
  assert (CE : forall b h m m' x, exec_all (close_opt b h) m = Ok (m', x) -> sh_ring m' = sh_ring m).
  { intros b h m1 m2 x D. destruct h; cbn [close_opt] in D; [apply (bw_ring_exec _ _ _ _ _ D)|cbn in D; injection D as <- <-; reflexivity]. }
  assert (FO : forall a b m l m', dies_at (fail_open a b) m l m' -> sh_ring m' = sh_ring m).
  { intros a b m1 l m2 D. unfold fail_open in D. apply dies_bind in D. destruct D as [D|(m3 & x & E & D)]; [apply (CO _ _ _ _ _ D)|].
    rewrite (CO _ _ _ _ _ D). apply (CE _ _ _ _ _ E). }
  unfold open_section. intros D. change (w_ring w) with (sh_ring (shared w)).
  destruct (_ || _); [apply dies_ret in D; contradiction|]. destruct (has flags SHR_RDONLY).
  - apply dies_bind in D. destruct D as [D|(m1 & a & E1 & D)]; [apply (bw_ring_dies _ _ _ _ _ D)|]. rewrite <- (bw_ring_exec _ _ _ _ _ E1).
    apply dies_bind in D. destruct D as [D|(m2 & b & E2 & D)]; [apply (bw_ring_dies _ _ _ _ _ D)|]. rewrite <- (bw_ring_exec _ _ _ _ _ E2).
    destruct a as [x|]; [|apply (FO _ _ _ _ _ D)]. destruct b as [y|]; [|apply (FO _ _ _ _ _ D)].
    apply dies_bind in D. destruct D as [D|(m3 & ok & E3 & D)]; [apply (bw_ring_dies _ _ _ _ _ D)|]. rewrite <- (bw_ring_exec _ _ _ _ _ E3).
    destruct ok; [apply dies_ret in D; contradiction|apply (FO _ _ _ _ _ D)].
  - apply dies_bind in D. destruct D as [D|(m1 & a & E1 & D)]; [apply (bw_ring_dies _ _ _ _ _ D)|]. rewrite <- (bw_ring_exec _ _ _ _ _ E1).
    destruct a as [x|]; [|apply dies_ret in D; contradiction]. destruct (_ && _); [|apply dies_ret in D; contradiction].
    apply dies_bind in D. destruct D as [D|(m2 & b & E2 & D)]; [apply (bw_ring_dies _ _ _ _ _ D)|]. rewrite <- (bw_ring_exec _ _ _ _ _ E2).
    destruct b; [apply dies_ret in D; contradiction|apply (FO _ _ _ _ _ D)].
Qed.

(** what a kill leaves of the ring, in terms of the events of the execution *)
Lemma left_ring_inv w0 w evs c line s : WI w0 w evs -> c_live (cli w c) = true ->
  left_ring_of (cli w c) (w_ring w) (committed evs) line s ->
  Inv s (committed (evs ++ kill_events w c line)) /\ same_dims (w_ring w) s /\ zlen (r_app s) = zlen (r_app (w_ring w)).
Proof.
  intros W Hl L. pose proof (wi_ring _ _ _ W) as I. destruct (wi_cl _ _ _ W c Hl) as [ms C].
  pose proof (ci_pc _ _ _ _ C) as P. unfold pc_ok in P. unfold left_ring_of in L. unfold kill_events. rewrite committed_app.
  assert (SD : forall r r', same_fixed r r' -> same_dims r r' /\ zlen (r_app r') = zlen (r_app r)).
  { intros r r' SF. split; [apply same_fixed_dims; exact SF|]. destruct SF as (_ & _ & _ & _ & _ & _ & ->). reflexivity. }
  destruct (c_pc (cli w c)) as [ |k iov len nb|k iov len nb|buf niov|buf niov| | |reset|get st sz];
    rewrite ?app_nil_r; cbn [app committed flat_map]; rewrite ?app_nil_r;
    try (destruct L as (st' & a & Za & ->); split; [apply inv_app, inv_stat, I|]; split; [repeat split|exact Za]).
  - destruct L as [(Hlt & Is & SF & _)|(Hge & r' & st & E & ->)].
    + destruct (Z.leb_spec 1004 line); [lia|]. cbn [app committed flat_map]. rewrite app_nil_r. split; [exact Is|]. apply SD, SF.
    + destruct (Z.leb_spec 1004 line); [|lia]. cbn [app committed flat_map]. rewrite app_nil_r.
      destruct P as (Hw & Hi & -> & Hk & _). destruct (ring_write_ok _ _ iov I Hi) as [WA WB].
      assert (HD : r_drop (w_ring w) = true \/ room (r_n (w_ring w)) (r_mm (w_ring w)) iov (ring_unread (w_ring w)) = true).
      { destruct (r_drop (w_ring w)); [auto|]. destruct (room _ _ _ _); [auto|]. rewrite WA in E by reflexivity. discriminate E. }
      destruct (WB HD) as (r1 & E1 & I1 & SF & _). rewrite E in E1. injection E1 as <-.
      split; [apply inv_stat, I1|]. apply (SD _ (r' <| r_stat := st |>)). exact SF.
  - destruct L as (Is & SF & _). split; [exact Is|]. apply SD, SF.
Qed.

Lemma kill_WI w0 w evs c e line m : WI w0 w evs -> seq_bound (w_ring w) evs -> c_live (cli w c) = true ->
  dies_at (section e (cli w c)) (shared w) line m -> untorn w c m line = true ->
  WI w0 (killed w c m) (evs ++ kill_events w c line).
Proof.
  intros W HB Hl D U. pose proof (section_ring _ _ _ _ _ _ _ W HB Hl D U) as L.
  destruct (left_ring_inv _ _ _ _ _ _ W Hl L) as (I' & SD & Za).
  constructor; rewrite ?ring_killed.
  - exact I'.
  - eapply same_dims_trans; [apply (wi_dims _ _ _ W)|exact SD].
  - apply (wi_fsz _ _ _ W).
  - rewrite Za, (wi_app _ _ _ W). destruct SD as (_ & _ & _ & _ & _ & ->). reflexivity.
  - intros c' Hc'. destruct (Nat.eq_dec c' c) as [->|N].
    + rewrite cli_killed_same in Hc' by (apply live_bound; exact Hl). discriminate Hc'.
    + rewrite cli_killed_other in Hc' |- * by exact N. destruct (wi_cl _ _ _ W c' Hc') as [ms C]. exists ms.
      apply (CI_mono _ _ _ _ _ _ C SD). rewrite committed_app, zlen_app. pose proof (zlen_nonneg (committed (kill_events w c line))). lia.
  - intros c' Hc'. destruct (Nat.eq_dec c' c) as [->|N].
    + rewrite cli_killed_same by (apply live_bound; exact Hl). reflexivity.
    + rewrite cli_killed_other in Hc' |- * by exact N. apply (wi_dead _ _ _ W c' Hc').
Qed.
Lemma open_WI w0 w evs e flags pid line m : WI w0 w evs -> dies_at (open_section e w flags pid) (shared w) line m ->
  WI w0 (killed_opening w m) evs.
Proof.
  intros W D. pose proof (open_ring _ _ _ _ _ _ D) as E. destruct W as [A1 A2 A3 A4 A5 A6].
  constructor; change (w_ring (killed_opening w m)) with (sh_ring m); rewrite ?E; try assumption.
Qed.
Lemma tagged_kill w c line : Forall (tagged c) (kill_events w c line).
Proof. unfold kill_events. destruct (c_pc (cli w c)); try destruct (1004 <=? line); repeat constructor. Qed.
Lemma pending_kill w c line evs : pending c (evs ++ kill_events w c line) = None.
Proof. unfold kill_events. rewrite app_assoc, pending_app. cbn [fold_left]. rewrite is_refl. reflexivity. Qed.
Lemma kill_PI w evs c line m : PI w evs -> c_live (cli w c) = true -> PI (killed w c m) (evs ++ kill_events w c line).
Proof.
  intros HP Hl. unfold killed. apply (PI_setc w); [exact HP|reflexivity|apply live_bound; exact Hl|apply tagged_kill|].
  rewrite pending_kill. reflexivity.
Qed.

Lemma abs_app r a : abs (r <| r_app := a |>) = abs r.
Proof. unfold abs. f_equal; [apply retained_ext|apply unread_ext]; reflexivity. Qed.
Lemma kill_TI a0 w0 w evs c e line m : WI w0 w evs -> PI w evs -> seq_bound (w_ring w) (evs ++ kill_events w c line) -> c_live (cli w c) = true ->
  dies_at (section e (cli w c)) (shared w) line m -> untorn w c m line = true ->
  TI maimed a0 w evs -> TI maimed a0 (killed w c m) (evs ++ kill_events w c line).
Proof.
  intros W HP HB Hl D U (p & A & HC0). pose proof (seq_bound_app _ _ _ HB) as HB0.
  pose proof (section_ring _ _ _ _ _ _ _ W HB0 Hl D U) as L. pose proof (wi_ring _ _ _ W) as I.
  destruct (wi_cl _ _ _ W c Hl) as [ms C]. pose proof (ci_pc _ _ _ _ C) as P. unfold pc_ok in P. pose proof (HP c) as HPc.
  destruct (HC0 c Hl) as (P1 & P2 & P3). unfold killed.
  apply (TI_setc _ _ w _ _ _ _ _ p p HC0); [reflexivity|apply live_bound; exact Hl|apply tagged_kill| |auto|discriminate].
  change (atomic maimed a0 (evs ++ kill_events w c line) (abs (sh_ring m)) p).
  unfold left_ring_of in L. unfold kill_events in *.
  assert (SAME : abs (sh_ring m) = abs (w_ring w) -> atomic maimed a0 (evs ++ [ECrash c]) (abs (sh_ring m)) p).
  { intros E. apply (at_crash _ _ _ _ _ _ _ A). left. exact E. }
  destruct (c_pc (cli w c)) as [ |k iov len nb|k iov len nb|buf niov|buf niov| | |reset|get st sz] eqn:Hpc; cbn [app] in *;
    try (apply SAME; destruct L as (st' & a & Za & E); rewrite E, abs_app; apply abs_stat).
  - destruct P as (Hw & Hi & -> & Hk & _). destruct (iov_ok_pos _ _ _ Hi) as [Hp _].
    assert (PW : match pending c evs with Some (CWrite _) | Some (CFlush _) | Some CClose => True | _ => False end
        /\ (has (c_flags (cli w c)) SHR_BUFFERED = false -> pending c evs = Some (CWrite iov))).
    { assert (UNB : has (c_flags (cli w c)) SHR_BUFFERED = false -> k = KDirect).
      { intros Hb. assert (Hub : buffered (cli w c) = false) by (unfold buffered; rewrite Hb; apply andb_false_r).
        pose proof (ci_unb _ _ _ _ C Hub) as ->. assert (iov <> []) by (intros ->; cbn in Hp; lia).
        destruct k; cbn [kont_ok] in Hk; [reflexivity| | |]; try contradiction. destruct Hk as [Hk _]; contradiction. }
      split; [|intros Hb; rewrite (UNB Hb) in HPc; apply HPc].
      destruct k; cbn [pc_for] in HPc; [destruct HPc as [-> _]|destruct HPc as [-> _]|destruct HPc as (wt & -> & _)|destruct HPc as [-> _]]; exact Logic.I. }
    destruct PW as [PW PU].
    destruct L as [(Hlt & Is & SF & LL)|(Hge & r' & st & E & Es)].
    + destruct (Z.leb_spec 1004 line); [lia|]. cbn [app]. destruct LL as [LL|(RM & LL)]; [apply SAME, LL|].
      apply (at_crash _ _ _ _ _ _ _ A). right.
      assert (X : exists ms0, okb (q_n (abs (w_ring w))) (q_mm (abs (w_ring w))) ms0 = true
        /\ (has (flags_of c evs) SHR_BUFFERED = false -> pending c evs = Some (CWrite ms0) /\ done c evs = [])
        /\ room (q_n (abs (w_ring w))) (q_mm (abs (w_ring w))) ms0 (q_unread (abs (w_ring w))) || q_drop (abs (w_ring w)) = true
        /\ (abs (sh_ring m) = discarded (abs (w_ring w)) ms0 \/ abs (sh_ring m) = evicted (abs (w_ring w)) ms0)).
      { exists iov. split; [apply okb_ok; exact Hi|]. split; [|split; [exact RM|exact LL]].
        rewrite P2. intros Hb. split; [apply PU, Hb|]. apply P3; [discriminate|exact Hb]. }
      destruct (pending c evs) as [[]|]; try contradiction; exact X.
    + destruct (Z.leb_spec 1004 line); [|lia].
      assert (BW : r_farm (w_ring w) = true -> zlen (committed evs ++ iov) < W64).
      { intros Hf. specialize (HB Hf). rewrite committed_app in HB. cbn [app committed flat_map] in HB. rewrite app_nil_r in HB. exact HB. }
      pose proof (write_aq _ _ iov I BW Hi) as WA. rewrite E in WA.
      assert (Ab : abs (sh_ring m) = abs r') by (rewrite Es; apply abs_stat). rewrite Ab.
      change (evs ++ [ECommit c iov; ECrash c]) with (evs ++ [ECommit c iov] ++ [ECrash c]). rewrite app_assoc.
      apply (at_crash _ _ _ (abs r')); [|left; reflexivity]. apply (at_write _ _ _ _ _ _ _ _ A); [|exact WA].
      destruct (pending c evs) as [[]|]; try contradiction; exact Logic.I.
  - destruct L as (Is & SF & [LL|(Hf & j & Hj & LL)]); [apply SAME, LL|].
    apply (at_crash _ _ _ _ _ _ _ A). right. cbn [pc_for] in HPc. rewrite HPc. split; [exact Hf|]. exists j. split; [exact Hj|exact LL].
Qed.

(** ** executions *)
Section Exec.
Variables (P : world -> action -> Prop) (r : ring) (fsz : Z).
Hypothesis HPc : forall w a, P w a -> contract w a.
Hypothesis F : fresh r fsz.
Theorem kexec_inv w evs : kexec P (world0 r fsz) w evs -> seq_bound r evs ->
  WI (world0 r fsz) w evs /\ PI w evs /\ TI maimed (abs r) w evs.
Proof.
  intros X. induction X as [|w evs a w' ev X IH Pa S|w evs c e line m X IH Pa Hl D U|w evs e flags pid line m X IH Pa D]; intros HB.
  - split; [apply WI_start; exact F|]. split; [apply PI_start|].
    exists (fun _ => (0, 0)). split; [apply at_nil|]. intros c. rewrite world0_cli. discriminate.
  - destruct (IH (seq_bound_app _ _ _ HB)) as (W & HP & T). pose proof (HPc _ _ Pa) as HC.
    assert (HBr : seq_bound (w_ring w) (evs ++ ev)).
    { intros Hf. rewrite (same_dims_farm _ _ (wi_dims _ _ _ W)) in Hf. apply HB. exact Hf. }
    split; [|split].
    + apply (step_WI _ w _ a); auto. apply (seq_bound_app _ _ _ HBr).
    + apply (step_PI (world0 r fsz) w evs a); auto.
    + apply (step_TI _ _ (world0 r fsz) w evs a); auto. intros; left; reflexivity.
  - destruct (IH (seq_bound_app _ _ _ HB)) as (W & HP & T).
    assert (HBr : seq_bound (w_ring w) (evs ++ kill_events w c line)).
    { intros Hf. rewrite (same_dims_farm _ _ (wi_dims _ _ _ W)) in Hf. apply HB. exact Hf. }
    split; [|split].
    + apply (kill_WI _ _ _ _ e); auto. apply (seq_bound_app _ _ _ HBr).
    + apply kill_PI; auto.
    + apply (kill_TI _ (world0 r fsz) _ _ _ e); auto.
  - destruct (IH HB) as (W & HP & T). split; [|split].
    + apply (open_WI _ _ _ e flags pid line); auto.
    + intros c. apply HP.
    + destruct T as (p & A & HC0). exists p. change (w_ring (killed_opening w m)) with (sh_ring m). rewrite (open_ring _ _ _ _ _ _ D). auto.
Qed.
End Exec.

Lemma k_atomic r w evs : kreach contract r w evs -> exists p,
  atomic maimed (mkaq (r_n r) (r_mm r) (r_drop r) (r_farm r) 0 [] []) evs (abs (w_ring w)) p
  /\ forall c, c_live (cli w c) = true -> p c = (c_q (cli w c), c_md (cli w c)).
Proof.
  intros (fsz & F & X & B). rewrite <- (fresh_abs r fsz F). destruct (kexec_inv contract r fsz (fun w a h => h) F w evs X B) as (_ & _ & p & A & H).
  exists p. split; [exact A|]. intros c L. apply (H c L).
Qed.
Lemma k_total r w evs a : kreach contract r w evs -> contract w a -> exists w' ev, step w a = Ok (w', ev).
Proof.
  intros (fsz & F & X & B) HC. destruct (kexec_inv contract r fsz (fun w a h => h) F w evs X B) as (W & _ & _).
  apply (step_total _ w evs a W); [|exact HC].
  intros Hf. rewrite (same_dims_farm _ _ (wi_dims _ _ _ W)) in Hf. apply B, Hf.
Qed.
