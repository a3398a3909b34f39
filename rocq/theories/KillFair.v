(** * Fair executions with kills *)
From Verif Require Import MicroFacts Crash Effects Final Pending Trace StepInv PollFacts ReadCall Calls.
From Verif Require Export KillFairSpec Fair2 KillNap.

(** what a killed process leaves of what [q] could read *)
Lemma kill_avail_keep w0 w evs c e line m q : WI w0 w evs -> PI w evs -> seq_bound (w_ring w) evs -> c_live (cli w c) = true ->
  dies_at (section e (cli w c)) (shared w) line m -> untorn w c m line = true ->
  available (w_ring w) q <> [] -> available (sh_ring m) q <> []
    \/ match pending c evs with
       | Some (CRead _ _) => r_farm (w_ring w) = false
       | Some (CWrite _) | Some (CFlush _) | Some CClose => r_drop (w_ring w) = true
       | _ => False
       end.
Proof.
  intros W HP HB Hl D U HA. pose proof (section_ring _ _ _ _ _ _ _ W HB Hl D U) as L. pose proof (wi_ring _ _ _ W) as I.
  destruct (wi_cl _ _ _ W c Hl) as [ms C]. pose proof (ci_pc _ _ _ _ C) as P. unfold pc_ok in P. specialize (HP c).
  unfold left_ring_of in L.
  assert (SAME : abs (sh_ring m) = abs (w_ring w) -> available (sh_ring m) q <> []).
  { unfold abs. intros E. injection E as _ _ _ E1 E2 E3 E4. unfold available in *. rewrite E1, E2, E3, E4. exact HA. }
  destruct (c_pc (cli w c)) as [ |k iov len nb|k iov len nb|buf niov|buf niov| | |reset|get st sz] eqn:Hpc;
    try (left; apply SAME; destruct L as (st' & a & Za & E); rewrite E, abs_app; apply abs_stat).
  - destruct (r_drop (w_ring w)) eqn:Hd.
    { right. destruct k as [| | |]; cbn [pc_for] in HP; try (destruct HP as [-> _]; reflexivity); destruct HP as (? & -> & _); reflexivity. }
    left. assert (Hf : r_farm (w_ring w) = false).
    { destruct (r_farm (w_ring w)) eqn:Hf; [|reflexivity]. destruct (i_farm _ _ I Hf). congruence. }
    destruct L as [(Hlt & Is & SF & LL)|(Hge & r' & st & E & Es)].
    + destruct LL as [E|(RM & [E|E])]; [apply SAME, E| |].
      all: unfold abs, discarded, evicted in E; cbn [q_n q_mm q_drop q_farm q_seq q_kept q_unread] in E; injection E as _ _ _ E1 _ _ E4;
        rewrite ?Hd, orb_false_r in RM; unfold available in *; rewrite E1, Hf in *; rewrite E4, (fit_room _ _ _ _ RM); exact HA.
    + destruct P as (Hw & Hi & -> & Hk & _). destruct (ring_write_ok _ _ iov I Hi) as [WA WB].
      assert (RM : room (r_n (w_ring w)) (r_mm (w_ring w)) iov (ring_unread (w_ring w)) = true).
      { destruct (room _ _ iov _) eqn:Q; [auto|]. rewrite (WA Hd eq_refl) in E. discriminate E. }
      destruct (WB (or_intror RM)) as (r1 & E1 & _ & SF & U1 & _). rewrite E in E1. injection E1 as <-.
      unfold available in *. rewrite Es. change (r_farm (r' <| r_stat := st |>)) with (r_farm r'). rewrite (same_fixed_farm _ _ SF), Hf in *.
      replace (ring_unread (r' <| r_stat := st |>)) with (ring_unread r') by (symmetry; apply unread_ext; reflexivity).
      rewrite U1, (fit_room _ _ _ _ RM). intros Q. apply app_eq_nil in Q. destruct Q as [Q _]. contradiction.
  - destruct L as (Is & SF & [E|(Hf & j & Hj & E)]); [left; apply SAME, E|]. right. cbn [pc_for] in HP. rewrite HP. exact Hf.
Qed.

(** nor does it take room away, unless it had stored messages *)
Lemma kill_room_keep w0 w evs c e line m iov : WI w0 w evs -> seq_bound (w_ring w) evs -> c_live (cli w c) = true -> r_drop (w_ring w) = false ->
  dies_at (section e (cli w c)) (shared w) line m -> untorn w c m line = true ->
  room (r_n (w_ring w)) (r_mm (w_ring w)) iov (ring_unread (w_ring w)) = true ->
  room (r_n (sh_ring m)) (r_mm (sh_ring m)) iov (ring_unread (sh_ring m)) = true \/ exists ms, In (ECommit c ms) (kill_events w c line).
Proof.
  intros W HB Hl Hd D U HR. pose proof (section_ring _ _ _ _ _ _ _ W HB Hl D U) as L. pose proof (wi_ring _ _ _ W) as I.
  unfold left_ring_of in L. unfold kill_events.
  assert (SAME : abs (sh_ring m) = abs (w_ring w) -> room (r_n (sh_ring m)) (r_mm (sh_ring m)) iov (ring_unread (sh_ring m)) = true).
  { unfold abs. intros E. injection E as E1 E2 _ _ _ _ E4. rewrite E1, E2, E4. exact HR. }
  destruct (c_pc (cli w c)) as [ |k iov0 len nb|k iov0 len nb|buf niov|buf niov| | |reset|get st sz];
    try (left; apply SAME; destruct L as (st' & a & Za & E); rewrite E, abs_app; apply abs_stat).
  - destruct L as [(Hlt & Is & SF & LL)|(Hge & r' & st & E & Es)].
    + left. destruct LL as [E|(RM & [E|E])]; [apply SAME, E| |].
      all: unfold abs, discarded, evicted in E; cbn [q_n q_mm q_drop q_farm q_seq q_kept q_unread] in E; injection E as E1 E2 _ _ _ _ E4;
        rewrite Hd, orb_false_r in RM; rewrite E1, E2, E4, (fit_room _ _ _ _ RM); exact HR.
    + right. exists iov0. destruct (Z.leb_spec 1004 line); [left; reflexivity|lia].
  - left. destruct L as (Is & SF & [E|(Hf & j & Hj & E)]); [apply SAME, E|].
    unfold abs, taken_by in E. cbn [q_n q_mm q_drop q_farm q_seq q_kept q_unread] in E. injection E as E1 E2 _ _ _ _ E4. rewrite E1, E2, E4.
    apply room_iff in HR. apply room_iff.
    pose proof (f_equal nbytes (firstn_skipn j (ring_unread (w_ring w)))) as Q1. rewrite nbytes_app in Q1.
    pose proof (f_equal (@zlen _) (firstn_skipn j (ring_unread (w_ring w)))) as Q2. rewrite zlen_app in Q2.
    assert (0 <= nbytes (firstn j (ring_unread (w_ring w)))) by apply zlen_nonneg. pose proof (zlen_nonneg (firstn j (ring_unread (w_ring w)))). lia.
Qed.

(** ** infinite executions *)
Section Run.
Variables (r : ring) (W : nat -> world) (D : nat -> deed) (V : nat -> list event).
Hypothesis FV : kforever steady r W D V.

Lemma kf_reach i : kreach steady r (W i) (upto V i).
Proof.
  destruct (kf_start _ _ _ _ _ FV) as (fsz & F & E). exists fsz. split; [exact F|]. split; [|apply (kf_bound _ _ _ _ _ FV)].
  induction i as [|i IH]; [rewrite E; constructor|]. cbn [upto]. pose proof (kf_does _ _ _ _ _ FV i) as H. destruct (D i) as [a|c e line m|e flags pid line m]; cbn [does] in H.
  - destruct H as [H1 H2]. econstructor; eassumption.
  - destruct H as (H1 & H2 & H3 & H4 & -> & ->). apply kx_kill with (e := e); assumption.
  - destruct H as (H1 & H2 & -> & ->). rewrite app_nil_r. apply kx_kill_open with (e := e) (flags := flags) (pid := pid) (line := line); assumption.
Qed.
Lemma kf_facts i : exists fsz, fresh r fsz /\ WI (world0 r fsz) (W i) (upto V i) /\ PI (W i) (upto V i) /\ seq_bound (w_ring (W i)) (upto V i) /\ seq_bound (w_ring (W i)) (upto V (S i))
  /\ r_farm (w_ring (W i)) = r_farm r /\ r_drop (w_ring (W i)) = r_drop r
  /\ r_n (w_ring (W i)) = r_n r /\ r_mm (w_ring (W i)) = r_mm r
  /\ (forall c, sleepW (W i) c)
  /\ (forall c, c_live (cli (W i) c) = true -> r_farm r = true -> 0 <= c_q (cli (W i) c) <= zlen (committed (upto V i))).
Proof.
  destruct (kf_reach i) as (fsz & F & X & B). exists fsz. split; [exact F|].
  destruct (kexec_inv steady r fsz steady_contract F _ _ X B) as (WW & HP & _).
  assert (HB : forall j, seq_bound (w_ring (W i)) (upto V j)) by (intros j; apply (seq_bound_ring (world0 r fsz) _ (upto V i)); [exact WW|apply (kf_bound _ _ _ _ _ FV j)]).
  split; [exact WW|]. split; [exact HP|]. split; [apply HB|]. split; [apply HB|].
  split; [apply (same_dims_farm _ _ (wi_dims _ _ _ WW))|]. split; [apply (same_dims_drop _ _ (wi_dims _ _ _ WW))|].
  destruct (wi_dims _ _ _ WW) as (A1 & A2 & A3 & A4 & A5 & A6). cbn in *. split; [congruence|]. split; [congruence|]. split.
  { apply (kexec_sleepW r fsz (W i) (upto V i) F); [|exact B]. apply (kexec_mono steady); [exact steady_contract|exact X]. }
  intros c L Hf. destruct (wi_cl _ _ _ WW c L) as [ms C]. assert (Hf' : r_farm (w_ring (W i)) = true) by (rewrite (same_dims_farm _ _ (wi_dims _ _ _ WW)); exact Hf). apply (CI_qok _ _ _ _ C (HB i) Hf').
Qed.
Lemma kf_live i c x : pending c (upto V i) = Some x -> c_live (cli (W i) c) = true.
Proof. intros P. destruct (kf_facts i) as (fsz & F & WW & HP & _). apply (pend_live _ _ _ _ _ WW HP P). Qed.

(** a wake-up is queued for [c], if it sleeps *)
Definition ready i c := asleep (W i) c = true -> exists s p, wait_sid (cli (W i) c) = Some (s, p) /\ readable (W i) s.
Lemma keeps_ready i c : c_live (cli (W i) c) = true -> cli (W (S i)) c = cli (W i) c -> (forall s, keeps (W i) (W (S i)) c s) -> ready i c -> ready (S i) c.
Proof.
  intros L E K R As. assert (As0 : asleep (W i) c = true) by (unfold asleep in *; rewrite <- E; exact As).
  destruct (R As0) as (s & p & Ws & Rd). exists s, p. split; [rewrite E; exact Ws|]. destruct (K s) as [K1 K2].
  unfold wait_sid in Ws. destruct (c_pc (cli (W i) c)); try discriminate Ws.
  - destruct (c_r2w (cli (W i) c)) as [[|n s0 p0]|] eqn:H; try discriminate Ws. injection Ws as -> ->. apply K2; [|exact Rd]. unfold space_sock. rewrite L, H. reflexivity.
  - destruct (c_w2r (cli (W i) c)) as [[|n s0 p0]|] eqn:H; try discriminate Ws. injection Ws as -> ->. apply K1; [|exact Rd]. unfold data_sock. rewrite L, H. reflexivity.
Qed.
Lemma kf_in_call i c x : pending c (upto V i) = Some x ->
  ends c (V i) \/ (pending c (upto V (S i)) = Some x /\
      ((cli (W (S i)) c = cli (W i) c /\ (ready i c -> ready (S i) c) /\ ((exists e, D i = Acts (ARun c e)) -> asleep (W i) c = true)
          /\ (D i = Acts (AWake c) -> asleep (W i) c = true -> ~ ready i c))
       \/ (D i = Acts (AWake c) /\ asleep (W i) c = true /\ cli (W (S i)) c = resume (cli (W i) c) /\ w_ring (W (S i)) = w_ring (W i))
       \/ (exists e, D i = Acts (ARun c e) /\ asleep (W i) c = false)
       \/ (asleep (W i) c = true /\ c_pc (cli (W (S i)) c) = RunClose))).
Proof.
  intros P. pose proof (kf_live _ _ _ P) as L. destruct (kf_facts i) as (fsz & F & WW & HP & _). pose proof (kf_does _ _ _ _ _ FV i) as H.
  assert (RF : kreach flaky r (W i) (upto V i)) by (apply steady_reach_flaky, kf_reach).
  cbn [upto]. destruct (D i) as [a|c0 e line m|e flags pid line m]; cbn [does] in H.
  - destruct H as [H1 H2]. destruct (in_call_WI _ _ _ _ _ _ _ _ WW HP (steady_contract _ _ H1) H2 P) as [E|(P' & [[E0 E1]|[(-> & E1 & E2 & E3)|[(e & -> & E)|E]]])];
      [left; exact E| | right; split; [exact P'|]; right; left; auto | right; split; [exact P'|]; right; right; left; eauto | right; split; [exact P'|]; right; right; right; exact E].
    destruct (asleep (W i) c) eqn:As.
    2:{ assert (NR : (exists e, a = ARun c e) \/ forall e, a <> ARun c e).
        { destruct a as [| |c1 e1| | | |]; try (right; intros; discriminate). destruct (Nat.eq_dec c1 c) as [->|N]; [left; eauto|right; congruence]. }
        destruct NR as [[e ->]|NR]; [right; split; [exact P'|]; right; right; left; eauto|].
        right. split; [exact P'|]. left. split; [exact E0|]. split.
        - intros _ As'. unfold asleep in *. rewrite E0 in As'. congruence.
        - split; [intros [e Q]; injection Q as ->; elim (NR e); reflexivity|discriminate]. }
    right. split; [exact P'|]. left. split; [exact E0|]. split; [|split; [reflexivity|]].
    + assert (HA : actor a = Some c \/ actor a <> Some c).
      { destruct (actor a) as [c1|]; [|right; discriminate]. destruct (Nat.eq_dec c1 c) as [->|N]; [left; reflexivity|right; congruence]. }
      destruct HA as [HA|HA]; [unfold ready; rewrite (E1 HA); auto|].
      apply keeps_ready; [exact L|exact E0|]. intros s. apply (k_wake_kept r _ (upto V i) a _ (V i)); [exact RF|apply steady_flaky; exact H1|exact H2|exact HA].
    + intros Q _ Rd. injection Q as ->. destruct (Rd As) as (s & p & Ws & Rs). specialize (E1 eq_refl). cbn [step] in H2. rewrite Ws in H2. unfold readable in Rs.
      destruct (Z.gtb_spec (k_pend (sk (w_ks (W i)) s)) 0); [|lia]. injection H2 as H2 _. rewrite E1 in H2. assert (Q : cli (setc (W i <| w_ks := bw_recv (w_ks (W i)) s |>) c (resume (cli (W i) c))) c = cli (W i) c) by (rewrite H2; reflexivity).
      rewrite cli_setc_same in Q by (apply live_bound; exact L). pose proof As as As0. unfold asleep in As0. unfold resume in Q. destruct (c_pc (cli (W i) c)) eqn:Hp; try discriminate As0;
        apply (f_equal c_pc) in Q; cbn in Q; congruence.
  - destruct H as (H1 & H2 & H3 & H4 & E & EV). destruct (Nat.eq_dec c0 c) as [->|N].
    + left. right. rewrite EV. unfold kill_events. apply in_or_app. right. left. reflexivity.
    + right. rewrite EV. split.
      * rewrite (pending_other c0); [exact P|auto|apply tagged_kill].
      * left. split; [rewrite E; apply cli_killed_other; auto|]. split; [|split; [intros [? Q]; discriminate|discriminate]].
        apply keeps_ready; [exact L|rewrite E; apply cli_killed_other; auto|]. intros s. rewrite E. apply (k_wake_kept_kill r _ (upto V i) c0 e line); auto. apply steady_flaky. exact H1.
  - destruct H as (H1 & H2 & E & EV). right. rewrite EV, app_nil_r. split; [exact P|]. left. split; [rewrite E; apply cli_opening|]. split; [|split; [intros [? Q]; discriminate|discriminate]].
    apply keeps_ready; [exact L|rewrite E; apply cli_opening|]. intros s. rewrite E. apply (k_wake_kept_open r _ (upto V i) e flags pid line); auto. apply steady_flaky. exact H1.
Qed.

(** *** reading *)
Definition kavail i c := available (w_ring (W i)) (c_q (cli (W i) c)).
Lemma kf_avail i c : c_live (cli (W i) c) = true -> c_q (cli (W (S i)) c) = c_q (cli (W i) c) -> kavail i c <> [] -> ~ In (ECrash c) (V i) ->
  kavail (S i) c <> [] \/ (r_farm r = false /\ exists c' v b io, In (ERet c' (RetRead v b io)) (V i) /\ 0 < v) \/ lost_to_kill r V c i.
Proof.
  intros L E NA NC. unfold kavail. rewrite E. destruct (kf_facts i) as (fsz & F & WW & HP & HB & HB' & EF & ED & _ & _ & _ & HQ). destruct (kf_facts (S i)) as (fsz' & F' & WW' & _ & _ & _ & EF' & _).
  pose proof (wi_ring _ _ _ WW) as J. pose proof (wi_ring _ _ _ WW') as J'. cbn [upto] in J', HB'. rewrite committed_app in J'.
  pose proof (kf_does _ _ _ _ _ FV i) as H. destruct (D i) as [a|c0 e line m|e flags pid line m]; cbn [does] in H.
  - destruct H as [H1 H2]. pose proof (step_effect _ _ _ _ _ _ WW HB (steady_contract _ _ H1) H2) as EE.
    assert (HH : r_farm (w_ring (W i)) = true -> zlen (committed (upto V i) ++ committed (V i)) < W64 /\ 0 <= c_q (cli (W i) c) <= zlen (committed (upto V i))).
    { intros Hf. split; [|apply (HQ c L); congruence]. rewrite <- committed_app. apply HB'. exact Hf. }
    destruct (avail_keep _ _ _ _ _ (c_q (cli (W i) c)) J J' (eq_trans EF' (eq_sym EF)) HH EE NA) as [Q|(Q1 & Q2 & _)]; [left; exact Q|].
    + right. left. rewrite EF in Q1. split; assumption.
  - destruct H as (H1 & H2 & H3 & H4 & Ew & EV). rewrite Ew. destruct (Nat.eq_dec c0 c) as [->|N].
    { exfalso. apply NC. rewrite EV. unfold kill_events. apply in_or_app. right. left. reflexivity. }
    destruct (kill_avail_keep _ _ _ c0 e line m _ WW HP HB H2 H3 H4 NA) as [Q|Q]; [left; exact Q|]. right. right. exists c0. split; [exact N|].
    split; [rewrite EV; unfold kill_events; apply in_or_app; right; left; reflexivity|]. rewrite EF, ED in Q. exact Q.
  - destruct H as (H1 & H2 & Ew & EV). left. rewrite Ew. change (w_ring (killed_opening (W i) m)) with (sh_ring m). rewrite (open_ring _ _ _ _ _ _ H2). exact NA.
Qed.
Definition krp c buf niov i := pending c (upto V i) = Some (CRead buf niov) /\ kavail i c <> [] /\ ready i c.
Definition krq c i := ends c (V i) \/ (r_farm r = false /\ taken_by_other c (V i)) \/ lost_to_kill r V c i.
Lemma ends_dec_crash c i : ends c (V i) \/ ~ In (ECrash c) (V i).
Proof.
  assert (Q : In (ECrash c) (V i) \/ ~ In (ECrash c) (V i)).
  { induction (V i) as [|x t IH]; [right; intros []|]. destruct IH as [IH|IH]; [left; right; exact IH|].
    destruct x as [| | | |c']; try (right; intros [Q|Q]; [discriminate|contradiction]).
    destruct (Nat.eq_dec c' c) as [->|N]; [left; left; reflexivity|right; intros [Q|Q]; [congruence|contradiction]]. }
  destruct Q as [Q|Q]; [left; right; exact Q|right; exact Q].
Qed.
Lemma krp_step c buf niov i : krp c buf niov i -> krq c i \/
  (krp c buf niov (S i) /\ (asleep (W i) c = false -> asleep (W (S i)) c = false /\ forall e, D i <> Acts (ARun c e))
    /\ (D i = Acts (AWake c) -> asleep (W (S i)) c = false)).
Proof.
  intros (Pd & NA & RD). pose proof (kf_live _ _ _ Pd) as L.
  destruct (ends_dec_crash c i) as [E|NC]; [left; left; exact E|].
  destruct (kf_in_call i c _ Pd) as [E|(Pd' & HD)]; [left; left; exact E|].
  destruct HD as [(E & R1 & R2 & R3)|[(Ea & As & E & Er)|[(e & Ea & As)|(As & E)]]].
  - assert (EQ : c_q (cli (W (S i)) c) = c_q (cli (W i) c)) by (rewrite E; reflexivity).
    assert (EA : asleep (W (S i)) c = asleep (W i) c) by (unfold asleep; rewrite E; reflexivity).
    destruct (kf_avail i c L EQ NA NC) as [Q|[(Hf & c' & v & b & io & HI & Hv)|Q]].
    + right. split; [split; [exact Pd'|split; [exact Q|apply R1, RD]]|]. split.
      * intros As. split; [congruence|]. intros e Q'. rewrite R2 in As by eauto. discriminate.
      * intros Ea. rewrite EA. destruct (asleep (W i) c) eqn:As; [|reflexivity]. elim (R3 Ea eq_refl RD).
    + left. destruct (Nat.eq_dec c' c) as [->|N]; [left; left; eauto|]. right. left. split; [exact Hf|]. exists c', v, b, io. auto.
    + left. right. right. exact Q.
  - assert (NS : asleep (W (S i)) c = false) by (unfold asleep in *; rewrite E; unfold resume; destruct (c_pc (cli (W i) c)) eqn:Hp; cbn; rewrite ?Hp; try reflexivity; discriminate As).
    right. split; [split; [exact Pd'|split]|split; [congruence|intros _; exact NS]].
    + unfold kavail. rewrite Er, E. unfold resume. destruct (c_pc (cli (W i) c)); exact NA.
    + intros Q. congruence.
  - left. left. destruct (kf_facts i) as (fsz & F & WW & HP & HB & _).
    pose proof (kf_does _ _ _ _ _ FV i) as H. rewrite Ea in H. destruct H as [H1 HS]. destruct (e_lock e) eqn:He.
    + destruct (read_step _ _ _ _ _ _ _ _ _ WW HP HB Pd As HS He) as (_ & _ & _ & _ & _ & _ & [(EA & _)|(_ & _ & _ & ->)]); [contradiction|].
      left. eexists. left. reflexivity.
    + pose proof (run_pc _ _ _ _ _ HP Pd As) as Hpc. cbn [step] in HS. rewrite L in HS. unfold run_client, crit_read in HS. rewrite Hpc, He in HS. cbn in HS. injection HS as _ <-.
      left. eexists. left. reflexivity.
  - exfalso. destruct (kf_facts (S i)) as (_ & _ & _ & HP & _). specialize (HP c). rewrite E, Pd' in HP. cbn in HP. discriminate.
Qed.
Lemma kl_awake c buf niov i : kfair W D V c -> krp c buf niov i -> asleep (W i) c = false -> exists j, (i <= j)%nat /\ krq c j.
Proof.
  intros [F1 F2] R As. destruct (F1 i) as (j & Hj & H).
  destruct (until (fun k => krp c buf niov k /\ asleep (W k) c = false) (fun k => krq c k)) with (n := (j - i)%nat) (i := i) as [(k & Hk & Q)|[Rj Aj]].
  - intros k [Rk Ak]. destruct (krp_step _ _ _ _ Rk) as [Q|(R' & A' & _)]; [left; auto|right]. split; [exact R'|apply A'; exact Ak].
  - split; assumption.
  - exists k. split; [lia|exact Q].
  - replace (i + (j - i))%nat with j in * by lia. destruct H as [H|[H|(e & H & _)]].
    + destruct Rj as [Rj _]. congruence.
    + congruence.
    + destruct (krp_step _ _ _ _ Rj) as [Q|(_ & A' & _)]; [exists j; auto|]. destruct (A' Aj) as [_ Q]. elim (Q e H).
Qed.
Lemma kl_read c buf niov i : kfair W D V c -> krp c buf niov i -> exists j, (i <= j)%nat /\ krq c j.
Proof.
  intros F R. destruct (asleep (W i) c) eqn:As; [|apply (kl_awake _ buf niov); assumption].
  pose proof F as [F1 F2]. destruct (F2 i) as (j & Hj & H).
  assert (AWAKE : forall k, (i <= k)%nat -> krp c buf niov k -> asleep (W k) c = false -> exists j, (i <= j)%nat /\ krq c j).
  { intros k Hk Rk Ak. destruct (kl_awake _ _ _ _ F Rk Ak) as (j' & H1 & H3). exists j'. split; [lia|auto]. }
  destruct (until (fun k => krp c buf niov k /\ asleep (W k) c = true) (fun k => krq c k \/ (krp c buf niov (S k) /\ asleep (W (S k)) c = false))) with (n := (j - i)%nat) (i := i) as [(k & Hk & [Q|[Q1 Q2]])|[Rj Aj]].
  - intros k [Rk Ak]. destruct (krp_step _ _ _ _ Rk) as [Q|(R' & _ & _)]; [left; left; auto|]. destruct (asleep (W (S k)) c) eqn:As'; [right; auto|left; right; auto].
  - split; assumption.
  - exists k. split; [lia|exact Q].
  - apply (AWAKE (S k)); [lia|assumption|assumption].
  - replace (i + (j - i))%nat with j in * by lia. destruct H as [H|[H|H]]; [congruence| |].
    + exfalso. destruct Rj as (Pj & NAj & RDj). destruct (RDj Aj) as (s & p & Ws & Rd). exact (H s p Ws Rd).
    + destruct (krp_step _ _ _ _ Rj) as [Q|(R' & _ & AW)]; [exists j; auto|]. apply (AWAKE (S j)); [lia|exact R'|exact (AW H)].
Qed.
Lemma kl_ready c buf niov i : pending c (upto V i) = Some (CRead buf niov) -> kavail i c <> [] -> ~ orphaned (upto V i) -> ready i c.
Proof.
  intros Pd NA NO As. destruct (k_lost_reader _ _ _ _ _ _ (kf_reach i) Pd As NA) as [(s & Hs & Rd)|Q]; [|contradiction].
  destruct (kf_facts i) as (fsz & F & WW & HP & _). specialize (HP c). rewrite Pd in HP.
  unfold data_sock in Hs. rewrite (kf_live _ _ _ Pd) in Hs. unfold wait_sid. unfold asleep in As.
  destruct (c_pc (cli (W i) c)) as [ |[| | |] ? ? ?|[| | |] ? ? ?|? ?|? ?| | |?|g0 s0 z0]; cbn [pc_for] in HP; try discriminate As;
    try (destruct HP as (? & HP & ?); discriminate); try (destruct HP as [HP ?]; discriminate).
  destruct (c_w2r (cli (W i) c)) as [[|n s1 p]|]; try discriminate Hs. injection Hs as ->. exists s, p. auto.
Qed.
Theorem kl_reader c buf niov i : kfair W D V c -> pending c (upto V i) = Some (CRead buf niov) ->
  available (w_ring (W i)) (c_q (cli (W i) c)) <> [] -> ~ orphaned (upto V i) ->
  exists j, (i <= j)%nat /\ (ends c (V j) \/ (r_farm r = false /\ taken_by_other c (V j)) \/ lost_to_kill r V c j).
Proof. intros F Pd NA NO. apply (kl_read c buf niov i F). split; [exact Pd|]. split; [exact NA|]. apply (kl_ready _ _ _ _ Pd NA NO). Qed.

(** after the next write that is not cut short *)
Lemma commit_avail i c a : D i = Acts a -> c_live (cli (W i) c) = true -> c_q (cli (W (S i)) c) = c_q (cli (W i) c) ->
  (exists c' ms, In (ECommit c' ms) (V i)) -> kavail (S i) c <> [].
Proof.
  intros Ea L E (c' & ms & HI) Q. unfold kavail in Q. rewrite E in Q.
  destruct (kf_facts i) as (fsz & F & WW & HP & HB & HB' & EF & ED & _ & _ & _ & HQ). destruct (kf_facts (S i)) as (fsz' & F' & WW' & _ & _ & _ & EF' & _).
  pose proof (wi_ring _ _ _ WW) as J. pose proof (wi_ring _ _ _ WW') as J'. cbn [upto] in J', HB'. unfold seq_bound in HB'. rewrite committed_app in J', HB'.
  pose proof (kf_does _ _ _ _ _ FV i) as H. rewrite Ea in H. destruct H as [H1 H2]. pose proof (step_effect _ _ _ _ _ _ WW HB (steady_contract _ _ H1) H2) as EE.
  assert (CM : forall l, In (ECommit c' ms) l -> committed l = [] -> In c' [] \/ ms = []).
  { intros l Hl Cl. right. clear - Hl Cl. induction l as [|x t IH]; [destruct Hl|]. cbn in Cl. apply app_eq_nil in Cl. destruct Cl as [C1 C2]. destruct Hl as [->|Hl]; [exact C1|apply IH; assumption]. }
  assert (NE : ms <> []).
  { destruct (commit_run _ _ _ _ _ _ H2 HI) as (e & k & len & nb & _ & L' & Hpc). destruct (wi_cl _ _ _ WW c' L') as [m C]. pose proof (ci_pc _ _ _ _ C) as P. unfold pc_ok in P. rewrite Hpc in P.
    destruct P as (_ & Hi & _). intros ->. destruct Hi as [Hi _]. contradiction. }
  assert (HC : committed (V i) <> []) by (intros Hc; destruct (CM _ HI Hc) as [[]|]; contradiction).
  destruct EE as [ev r' D1 D2 D3 U RT _|c0 v so t r' U RT _ _ _ _|c0 iov0 rs dropped wok r' D1 D2 D3 D4 D5 D6 U RT _|c0 v buf iov0 av len niov r' D1 D2 D3 taken D4 D5 D6 U RT _].
  - apply HC. exact D1.
  - destruct HI as [HI|[]]. discriminate.
  - pose proof (proj1 D4) as NI.
    assert (ZC : zlen (committed (ECommit c0 iov0 :: rets c0 rs)) = zlen iov0) by (change (committed (ECommit c0 iov0 :: rets c0 rs)) with (iov0 ++ committed (rets c0 rs)); rewrite committed_rets, app_nil_r; reflexivity).
    apply (avail_end _ _ _ J') in Q.
    + rewrite EF' in Q. destruct (r_farm r) eqn:Hf.
      * specialize (HQ c L eq_refl). rewrite zlen_app, ZC in Q. destruct Q as [Q|Q].
        -- assert (zlen iov0 <> 0) by (destruct iov0; [contradiction|unfold zlen; cbn [length]; lia]). pose proof (zlen_nonneg iov0). lia.
        -- pose proof (zlen_retained _ _ (i_inv0 _ _ J')) as ZR. rewrite Q in ZR. apply zlen_0_nil in ZR. rewrite RT in ZR. apply app_eq_nil in ZR. destruct ZR as [_ ZR]. contradiction.
      * pose proof (unread_eq _ _ (i_inv0 _ _ J')) as ZU. rewrite Q in ZU. unfold lastn in ZU. rewrite Z.sub_0_r in ZU. unfold zlen in ZU. rewrite Nat2Z.id, skipn_all in ZU. rewrite U in ZU. apply app_eq_nil in ZU. destruct ZU as [_ ZU]. contradiction.
    + intros Hf. rewrite EF' in Hf. specialize (HQ c L Hf). split; [apply HB'; congruence|]. rewrite zlen_app. pose proof (zlen_nonneg (committed (ECommit c0 iov0 :: rets c0 rs))). lia.
  - destruct HI as [HI|[]]. discriminate.
Qed.
Theorem kl_next_write c buf niov i a c' ms : kfair W D V c -> pending c (upto V i) = Some (CRead buf niov) -> D i = Acts a -> In (ECommit c' ms) (V i) ->
  exists j, (i <= j)%nat /\ (ends c (V j) \/ (r_farm r = false /\ taken_by_other c (V j)) \/ lost_to_kill r V c j).
Proof.
  intros F Pd Ea HI. pose proof (kf_live _ _ _ Pd) as L. pose proof (kf_does _ _ _ _ _ FV i) as H. rewrite Ea in H. destruct H as [H1 H2].
  destruct (commit_run _ _ _ _ _ _ H2 HI) as (e & k & len & nb & Ea' & L' & Hpc). subst a.
  destruct (kf_facts i) as (fsz & F0 & WW & HP & _).
  assert (N : c' <> c). { intros ->. specialize (HP c). rewrite Hpc, Pd in HP. destruct k as [| | |]; cbn [pc_for] in HP; try (destruct HP as [HP ?]; discriminate); destruct HP as (? & HP & ?); discriminate. }
  destruct (step_other _ _ _ _ _ _ c WW (steady_contract _ _ H1) H2) as (E & P' & _); [cbn; congruence|apply live_bound; exact L|]. change (upto V i ++ V i) with (upto V (S i)) in P'.
  destruct (kl_read c buf niov (S i) F) as (j & Hj & Q); [|exists j; split; [lia|exact Q]].
  split; [rewrite P'; exact Pd|]. split; [apply (commit_avail i c _ Ea L); [rewrite E; reflexivity|eauto]|].
  intros As. destruct (kf_facts (S i)) as (fsz' & F0' & WW' & HP' & _). specialize (HP' c). rewrite P', Pd in HP'.
  assert (L1 : c_live (cli (W (S i)) c) = true) by (rewrite E; exact L).
  unfold wait_sid. unfold asleep in As. destruct (c_pc (cli (W (S i)) c)) as [ |[| | |] ? ? ?|[| | |] ? ? ?|? ?|? ?| | |?|g0 s0 z0] eqn:Hpc'; cbn [pc_for] in HP'; try discriminate As;
    try (destruct HP' as (? & HP' & ?); discriminate); try (destruct HP' as [HP' ?]; discriminate).
  destruct (wi_cl _ _ _ WW' c L1) as [m C]. pose proof (ci_pc _ _ _ _ C) as P. unfold pc_ok in P. rewrite Hpc' in P. destruct P as (Hr & _).
  destruct (ci_rd _ _ _ _ C Hr) as [(n & s & p & Ew) _]. rewrite Ew. exists s, p. split; [reflexivity|].
  apply (k_wake_readers r _ (upto V i) (ARun c' e) _ (V i) c' ms (steady_reach_flaky _ _ _ (kf_reach i)) (steady_flaky _ _ H1) H2 HI) with (c' := c); [left; apply H1|].
  unfold data_sock. rewrite L1, Ew. reflexivity.
Qed.

(** *** turns *)
Lemma kl_turn c x i : kfair W D V c -> pending c (upto V i) = Some x -> asleep (W i) c = false ->
  exists j, (i <= j)%nat /\ (ends c (V j) \/ (pending c (upto V j) = Some x /\ cli (W j) c = cli (W i) c /\ exists e, D j = Acts (ARun c e))).
Proof.
  intros [F1 _] Pd As. destruct (F1 i) as (j & Hj & H).
  set (Q k := ends c (V k) \/ (pending c (upto V k) = Some x /\ cli (W k) c = cli (W i) c /\ exists e, D k = Acts (ARun c e))).
  destruct (until (fun k => pending c (upto V k) = Some x /\ cli (W k) c = cli (W i) c) Q) with (n := (j - i)%nat) (i := i) as [(k & Hk & q)|[Pj Ej]].
  - intros k [Pk Ek]. unfold Q. assert (Ak : asleep (W k) c = false) by (unfold asleep in *; rewrite Ek; exact As).
    destruct (kf_in_call k c x Pk) as [E|(P' & [(E & _)|[(_ & E & _)|[(e & E & _)|(E & _)]]])]; try congruence; [left; left; exact E|right; split; [exact P'|congruence]|left; right; eauto].
  - split; [exact Pd|reflexivity].
  - exists k. split; [lia|exact q].
  - replace (i + (j - i))%nat with j in * by lia. exists j. split; [lia|]. right. split; [exact Pj|]. split; [exact Ej|].
    assert (Ak : asleep (W j) c = false) by (unfold asleep in *; rewrite Ej; exact As). destruct H as [H|[H|(e & H & _)]]; [congruence|congruence|eauto].
Qed.
Lemma kl_close c i : kfair W D V c -> pending c (upto V i) <> None -> c_pc (cli (W i) c) = RunClose -> exists j, (i <= j)%nat /\ ends c (V j).
Proof.
  intros F Pd Hpc. destruct (pending c (upto V i)) as [x|] eqn:P; [|contradiction]. assert (As : asleep (W i) c = false) by (unfold asleep; rewrite Hpc; reflexivity).
  destruct (kl_turn c x i F P As) as (j & Hj & [E|(Pj & Ej & e & Ea)]); [exists j; auto|]. exists j. split; [exact Hj|].
  pose proof (kf_does _ _ _ _ _ FV j) as H. rewrite Ea in H. destruct H as [_ HS]. cbn [step] in HS. rewrite (kf_live _ _ _ Pj) in HS. unfold run_client in HS. rewrite Ej, Hpc in HS. injection HS as _ <-.
  left. eexists. left. reflexivity.
Qed.

(** *** writing *)
Definition kfits i iov := r_drop (w_ring (W i)) = true \/ room (r_n (w_ring (W i))) (r_mm (w_ring (W i))) iov (ring_unread (w_ring (W i))) = true.
Lemma kfits_keep i c iov : kfits i iov -> (exists ms, In (ECommit c ms) (V i)) \/ written_by_other c (V i) \/ kfits (S i) iov.
Proof.
  destruct (kf_facts i) as (fsz & F & WW & HP & HB & HB' & EF & ED & En & Em & _). destruct (kf_facts (S i)) as (fsz' & F' & WW' & _ & _ & _ & EF' & ED' & En' & Em' & _).
  intros [Hd|R]; [right; right; left; congruence|]. destruct (r_drop (w_ring (W i))) eqn:Hd; [right; right; left; congruence|].
  assert (OT : (exists c' ms, In (ECommit c' ms) (V i)) -> (exists ms, In (ECommit c ms) (V i)) \/ written_by_other c (V i) \/ kfits (S i) iov).
  { intros (c' & ms & HI). destruct (Nat.eq_dec c' c) as [->|N]; [left; eauto|right; left; exists c', ms; auto]. }
  pose proof (kf_does _ _ _ _ _ FV i) as H. destruct (D i) as [a|c0 e line m|e flags pid line m]; cbn [does] in H.
  - destruct H as [H1 H2]. pose proof (step_effect _ _ _ _ _ _ WW HB (steady_contract _ _ H1) H2) as EE.
    destruct (room_keep _ _ _ _ _ iov (wi_ring _ _ _ WW) (eq_trans En' (eq_sym En)) (eq_trans Em' (eq_sym Em)) EE R) as [R'|Q]; [right; right; right; exact R'|apply OT, Q].
  - destruct H as (H1 & H2 & H3 & H4 & Ew & EV). destruct (kill_room_keep _ _ _ c0 e line m iov WW HB H2 Hd H3 H4 R) as [Q|[ms Q]].
    + right. right. right. rewrite Ew. exact Q.
    + apply OT. rewrite EV. eauto.
  - destruct H as (H1 & H2 & Ew & EV). right. right. right. rewrite Ew. change (w_ring (killed_opening (W i) m)) with (sh_ring m). rewrite (open_ring _ _ _ _ _ _ H2). exact R.
Qed.
Lemma kw_pend i c : adding (W i) c <> [] -> exists x, pending c (upto V i) = Some x.
Proof.
  intros NE. destruct (kf_facts i) as (_ & _ & _ & HP & _). specialize (HP c). unfold adding in NE.
  destruct (c_pc (cli (W i) c)) as [ |[| | |] ? ? ?|[| | |] ? ? ?|? ?|? ?| | |?|g0 s0 z0]; cbn [pc_for] in HP; try contradiction;
    try (destruct HP as [-> _]; eauto); destruct HP as (wt & -> & _); eauto.
Qed.
Lemma kw_run k c e : D k = Acts (ARun c e) -> adding (W k) c <> [] -> asleep (W k) c = false -> kfits k (adding (W k) c) ->
  In (ECommit c (adding (W k) c)) (V k) \/ ends c (V k) \/ (pending c (upto V (S k)) <> None /\ c_pc (cli (W (S k)) c) = RunClose).
Proof.
  intros Ea NE As FT. destruct (kw_pend k c NE) as [x Px]. pose proof (kf_live _ _ _ Px) as L.
  destruct (kf_facts k) as (fsz & F & WW & HP & HB & _).
  pose proof (kf_does _ _ _ _ _ FV k) as H. rewrite Ea in H. destruct H as [H1 HS]. unfold adding in *. destruct (c_pc (cli (W k) c)) as [ |kk iov len nb|kk iov len nb|? ?|? ?| | |?|g0 s0 z0] eqn:Hpc; try contradiction.
  2: { unfold asleep in As. rewrite Hpc in As. discriminate. }
  destruct (e_lock e) eqn:He.
  - destruct (write_crit _ _ _ _ _ _ _ _ _ _ _ WW L Hpc HS He) as (_ & _ & [(D1 & D2 & _)|(_ & _ & _ & hw' & cl' & rs & v & _ & -> & _)]); [|left; left; reflexivity].
    destruct FT as [FT|FT]; congruence.
  - pose proof HS as HS0. cbn [step] in HS. rewrite L in HS. unfold run_client, crit_write in HS. rewrite Hpc, He in HS. cbn [negb obind] in HS. apply obind_ok in HS. destruct HS as ([cl' rs] & E & HS).
    injection HS as EW EV. cbn [app] in EV. destruct kk; cbn [end_write Z.leb Z.compare Z.gtb] in E; injection E as <- <-; try (right; left; left; rewrite <- EV; eexists; left; reflexivity).
    right. right. split.
    + cbn [upto]. rewrite <- EV. cbn [rets map]. rewrite app_nil_r. congruence.
    + rewrite <- EW. rewrite cli_setc_same by (apply live_bound; exact L). reflexivity.
Qed.
Lemma kw_ready i c : adding (W i) c <> [] -> kfits i (adding (W i) c) -> ~ robbed (upto V i) -> ready i c.
Proof.
  intros NE FT NR As. destruct (kf_facts i) as (fsz & F & WW & HP & HB & _ & _ & _ & _ & _ & SW & _). specialize (SW c). unfold sleepW in SW.
  destruct (kw_pend i c NE) as [x Px]. pose proof (kf_live _ _ _ Px) as L.
  assert (BE : adding (W i) c = blocked_msgs (W i) c).
  { unfold adding, blocked_msgs, asleep in *. destruct (c_pc (cli (W i) c)); try contradiction; try discriminate As; reflexivity. }
  assert (HP2 : exists k iov len nb, c_pc (cli (W i) c) = WaitW k iov len nb).
  { unfold adding, asleep in *. destruct (c_pc (cli (W i) c)); try contradiction; try discriminate As; eauto. }
  destruct HP2 as (k & iov & len & nb & Hpc). rewrite Hpc in SW. destruct SW as (_ & ND & n & s & p & Ew).
  destruct FT as [FT|FT]; [congruence|]. rewrite BE in *. apply room_iff in FT.
  destruct (k_lost_writer _ _ _ c (kf_reach i) NE (proj1 FT) (proj2 FT)) as [(s' & Hs & Rd)|Q]; [|contradiction].
  unfold space_sock in Hs. rewrite L, Ew in Hs. injection Hs as <-. exists s, p. split; [|exact Rd]. unfold wait_sid. rewrite Hpc, Ew. reflexivity.
Qed.
Lemma kl_write c i : kfair W D V c -> let iov := adding (W i) c in iov <> [] -> kfits i iov -> ready i c ->
  exists j, (i <= j)%nat /\ (In (ECommit c iov) (V j) \/ ends c (V j) \/ written_by_other c (V j)).
Proof.
  intros F iov NE FT RD0.
  pose proof (fun i => kw_pend i c) as PX.
  set (Q k := In (ECommit c iov) (V k) \/ ends c (V k) \/ written_by_other c (V k)).
  assert (CM : forall k, adding (W k) c = iov -> (exists ms, In (ECommit c ms) (V k)) -> Q k).
  { intros k Wk (ms & HI). pose proof (kf_does _ _ _ _ _ FV k) as H. destruct (D k) as [a|c0 e line m|e flags pid line m]; cbn [does] in H.
    - left. destruct H as [_ HS]. destruct (commit_run _ _ _ _ _ _ HS HI) as (e & kk & len & nb & _ & _ & Hpc). unfold adding in Wk. rewrite Hpc in Wk. congruence.
    - destruct H as (_ & _ & _ & _ & _ & EV). left. rewrite EV in HI |- *. unfold kill_events in *. unfold adding in Wk. apply in_app_or in HI. destruct HI as [HI|[HI|[]]]; [|discriminate]. 
      destruct (Nat.eq_dec c0 c) as [->|N].
      + destruct (c_pc (cli (W k) c)); try (destruct HI; fail). rewrite <- Wk. apply in_or_app. left. destruct (1004 <=? line); [|destruct HI]. left. reflexivity.
      + exfalso. destruct (c_pc (cli (W k) c0)); try (destruct HI; fail). destruct (1004 <=? line); [|destruct HI]. destruct HI as [HI|[]]. injection HI as ? _. contradiction.
    - destruct H as (_ & _ & _ & EV). rewrite EV in HI. destruct HI. }
  assert (AR : forall k e, adding (W k) c = iov -> D k = Acts (ARun c e) -> asleep (W k) c = false -> kfits k iov -> forall i0, (i0 <= k)%nat -> exists j, (i0 <= j)%nat /\ Q j).
  { intros k e Wk Ea Ak Fk i0 Hi. destruct (kw_run k c e Ea) as [q|[q|[Hp Hc]]]; [congruence|exact Ak|rewrite Wk; exact Fk|exists k; split; [exact Hi|left; rewrite <- Wk; exact q]|exists k; split; [exact Hi|right; left; exact q]|].
    destruct (kl_close c (S k) F Hp Hc) as (j' & Hj' & q). exists j'. split; [lia|right; left; exact q]. }
  assert (AWAKE : forall i, adding (W i) c = iov -> kfits i iov -> asleep (W i) c = false -> exists j, (i <= j)%nat /\ Q j).
  { intros i0 Wi FT0 As. assert (NE0 : adding (W i0) c <> []) by congruence. destruct (PX i0 NE0) as [x Px]. pose proof F as [F1 _].
    destruct (F1 i0) as (j & Hj & H).
    destruct (until (fun k => pending c (upto V k) = Some x /\ cli (W k) c = cli (W i0) c /\ kfits k iov) (fun k => Q k \/ (exists e, D k = Acts (ARun c e) /\ pending c (upto V k) = Some x /\ cli (W k) c = cli (W i0) c /\ kfits k iov))) with (n := (j - i0)%nat) (i := i0) as [(k & Hk & [q|(e & Ea & Pk & Ek & Fk)])|(Pj & Ej & Fj)].
    - intros k (Pk & Ek & Fk). assert (Wk : adding (W k) c = iov) by (unfold adding in *; rewrite Ek; exact Wi).
      assert (Ak : asleep (W k) c = false) by (unfold asleep in *; rewrite Ek; exact As).
      destruct (kfits_keep k c iov Fk) as [q|[q|Fk']]; [left; left; apply CM; assumption|left; left; right; right; exact q|].
      destruct (kf_in_call k c x Pk) as [E|(P' & [(E & _)|[(_ & E & _)|[(e & E & _)|(E & _)]]])]; try congruence; [left; left; right; left; exact E|right; split; [exact P'|split; [congruence|exact Fk']]|left; right; eauto 6].
    - auto.
    - exists k. split; [lia|exact q].
    - apply (AR k e); [|exact Ea| |exact Fk|lia]; unfold adding, asleep in *; rewrite Ek; assumption.
    - replace (i0 + (j - i0))%nat with j in * by lia. assert (Aj : asleep (W j) c = false) by (unfold asleep in *; rewrite Ej; exact As).
      destruct H as [H|[H|(e & H & _)]]; [congruence|congruence|]. apply (AR j e); [|exact H|exact Aj|exact Fj|lia]. unfold adding in *. rewrite Ej. exact Wi. }
  destruct (asleep (W i) c) eqn:As; [|apply AWAKE; [reflexivity|exact FT|exact As]].
  destruct (PX i NE) as [x Px]. pose proof F as [_ F2]. destruct (F2 i) as (j & Hj & H).
  set (G k := pending c (upto V k) = Some x /\ cli (W k) c = cli (W i) c /\ kfits k iov /\ ready k c).
  assert (GW : forall k, G k -> adding (W k) c = iov /\ asleep (W k) c = true).
  { intros k (_ & Ek & _). unfold iov, adding, asleep in *. rewrite Ek. auto. }
  assert (GS : forall k, G k -> (exists j, (k <= j)%nat /\ Q j) \/ (G (S k) /\ D k <> Acts (AWake c))).
  { intros k Gk. destruct (GW k Gk) as [Wk Ak]. destruct Gk as (Pk & Ek & Fk & Rk).
    destruct (kfits_keep k c iov Fk) as [q|[q|Fk']]; [left; exists k; split; [lia|apply CM; assumption]|left; exists k; split; [lia|right; right; exact q]|].
    destruct (kf_in_call k c x Pk) as [E|(P' & [(E & R1 & R2 & R3)|[(Ea & _ & E & _)|[(e & Ea & E)|(_ & E)]]])].
    - left. exists k. split; [lia|right; left; exact E].
    - right. split; [split; [exact P'|split; [congruence|split; [exact Fk'|apply R1; exact Rk]]]|]. intros Ea. exact (R3 Ea Ak Rk).
    - left. destruct (AWAKE (S k)) as (j' & Hj' & q); [|exact Fk'| |exists j'; split; [lia|exact q]].
      + rewrite (writing_resume (W k)) by exact E. exact Wk.
      + unfold asleep in *; rewrite E; unfold resume; destruct (c_pc (cli (W k) c)) eqn:Hp; cbn; rewrite ?Hp; try reflexivity; discriminate Ak.
    - congruence.
    - left. destruct (kl_close c (S k) F) as (j' & Hj' & q); [congruence|exact E|]. exists j'. split; [lia|right; left; exact q]. }
  destruct (until G (fun k => exists j, (k <= j)%nat /\ Q j)) with (n := (j - i)%nat) (i := i) as [(k & Hk & j' & Hj' & q)|Gj].
  - intros k Gk. destruct (GS k Gk) as [q|[Gk' _]]; auto.
  - split; [exact Px|]. split; [reflexivity|]. split; [exact FT|exact RD0].
  - exists j'. split; [lia|exact q].
  - replace (i + (j - i))%nat with j in * by lia. destruct (GW j Gj) as [Wj Aj]. destruct H as [H|[H|H]].
    + congruence.
    + exfalso. destruct Gj as (_ & _ & _ & Rj). destruct (Rj Aj) as (s & p & Ws & Rd). exact (H s p Ws Rd).
    + destruct (GS j Gj) as [(j' & Hj' & q)|[_ N]]; [exists j'; split; [lia|exact q]|contradiction].
Qed.
Theorem kl_writer c i : kfair W D V c -> let iov := adding (W i) c in iov <> [] ->
  r_drop (w_ring (W i)) = true \/ room (r_n (w_ring (W i))) (r_mm (w_ring (W i))) iov (ring_unread (w_ring (W i))) = true -> ~ robbed (upto V i) ->
  exists j, (i <= j)%nat /\ (In (ECommit c iov) (V j) \/ ends c (V j) \/ written_by_other c (V j)).
Proof. intros F iov NE FT NR. apply (kl_write c i F NE FT). apply (kw_ready i c NE FT NR). Qed.
(** after the next read of messages *)
Theorem kl_next_read c i a c' v b io : kfair W D V c -> let iov := adding (W i) c in iov <> [] -> D i = Acts a -> In (ERet c' (RetRead v b io)) (V i) -> 0 < v ->
  r_drop (w_ring (W (S i))) = true \/ room (r_n (w_ring (W (S i)))) (r_mm (w_ring (W (S i)))) iov (ring_unread (w_ring (W (S i)))) = true ->
  exists j, (i <= j)%nat /\ (In (ECommit c iov) (V j) \/ ends c (V j) \/ written_by_other c (V j)).
Proof.
  intros F iov NE Ea HI Hv FT. destruct (kw_pend i c NE) as [x Px]. pose proof (kf_live _ _ _ Px) as L.
  pose proof (kf_does _ _ _ _ _ FV i) as H. rewrite Ea in H. destruct H as [H1 H2].
  destruct (kf_in_call i c x Px) as [E|(P' & HD)]; [exists i; split; [lia|right; left; exact E]|].
  destruct (kf_facts (S i)) as (fsz & F0 & WW & HP & HB & _ & _ & _ & _ & _ & SW & _). specialize (SW c). unfold sleepW in SW.
  assert (RDY : ready (S i) c).
  { intros As. unfold wait_sid. unfold asleep in As. pose proof (kf_live _ _ _ P') as L1.
    destruct (c_pc (cli (W (S i)) c)) as [ |k iov0 len nb|k iov0 len nb|buf niov|buf niov| | |?|g0 s0 z0] eqn:Hpc; try discriminate As.
    - destruct SW as (_ & _ & n & s & p & Ew). rewrite Ew. exists s, p. split; [reflexivity|].
      apply (k_wake_writers r _ (upto V i) a _ (V i) c' v b io (steady_reach_flaky _ _ _ (kf_reach i)) (steady_flaky _ _ H1) H2 HI Hv) with (c' := c); [apply H1|].
      unfold space_sock. rewrite L1, Ew. reflexivity.
    - exfalso. destruct (kf_facts i) as (_ & _ & _ & HPi & _). specialize (HPi c). specialize (HP c). rewrite Hpc, P' in HP. cbn [pc_for] in HP. injection HP as ->. rewrite Px in HPi.
      unfold iov, adding in NE. destruct (c_pc (cli (W i) c)) as [ |[| | |] ? ? ?|[| | |] ? ? ?|? ?|? ?| | |?|g0 s0 z0]; cbn [pc_for] in HPi; try contradiction;
        try (destruct HPi as [HPi _]; discriminate); destruct HPi as (? & HPi & _); discriminate. }
  assert (GO : adding (W (S i)) c = iov -> exists j, (i <= j)%nat /\ (In (ECommit c iov) (V j) \/ ends c (V j) \/ written_by_other c (V j))).
  { intros Ew. destruct (kl_write c (S i) F) as (j & Hj & Q); [rewrite Ew; exact NE|rewrite Ew; exact FT|exact RDY|]. rewrite Ew in Q. exists j. split; [lia|exact Q]. }
  destruct HD as [(E & _)|[(E1 & _ & E & _)|[(e & E & As)|(_ & E)]]].
  - apply GO. unfold adding. rewrite E. reflexivity.
  - apply GO. apply writing_resume. exact E.
  - rewrite Ea in E. injection E as ->. assert (HE : ends c' (V i)) by (left; eauto). apply (ends_actor _ _ _ _ _ H2) in HE. cbn in HE. injection HE as ->. exists i. split; [lia|]. right. left. left. eauto.
  - destruct (kl_close c (S i) F) as (j' & Hj' & q); [congruence|exact E|]. exists j'. split; [lia|right; left; exact q].
Qed.
End Run.
