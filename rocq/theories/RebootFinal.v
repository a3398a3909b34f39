(** * Power failures: the theorems of C85 about messages *)
From Verif Require Import MicroFacts Crash Effects Final Pending PollFacts StepInv WorldFacts FineStep FineSect RingFacts QueueFacts Trace KillFinal DiskFacts7.
From Verif Require Export RebootInv.

Theorem rb_every mid P r w evs u : dreach P r w evs u -> rreach mid P r w evs u.
Proof.
  intros (fsz & F & D & B). exists fsz. split; [exact F|]. split; [|exact B]. clear B F. induction D; [constructor|]. eapply rx_step; eassumption.
Qed.
Lemma rreach_inv mid (P : world -> action -> Prop) r w evs u : (forall w a, P w a -> faultless w a) -> rreach mid P r w evs u -> has (r_gflags r) SHR_SYNC = true ->
  exists fsz, fresh r fsz /\ RI mid r fsz w evs u /\ seq_bound r evs.
Proof. intros HP (fsz & F & D & B) SY. exists fsz. split; [exact F|]. split; [eapply rexec_inv; eassumption|exact B]. Qed.
Lemma id_faultless : forall w a, faultless w a -> faultless w a. Proof. auto. Qed.

Theorem rb_nothing_lost mid r w evs u x : rreach mid faultless r w evs u -> has (r_gflags r) SHR_SYNC = true -> was_opened evs -> survives u x -> im_ring x = w_ring w.
Proof.
  intros D SY O S. destruct (rreach_inv _ _ _ _ _ _ id_faultless D SY) as (fsz & F & R & B). pose proof (ri_op _ _ _ _ _ _ R O) as N. destruct u as [l|]; [|congruence].
  destruct (wi_sizes _ _ _ _ F (ri_wi _ _ _ _ _ _ R)) as (N1 & N2 & N3). exact (survives_ring l x (w_ring w) N1 N2 N3 (ri_sy _ _ _ _ _ _ R) S).
Qed.
Theorem rb_valid mid r w evs u : rreach mid faultless r w evs u -> has (r_gflags r) SHR_SYNC = true -> validate_ring (w_fsz w) true (w_ring w) = 0.
Proof. intros D SY. destruct (rreach_inv _ _ _ _ _ _ id_faultless D SY) as (fsz & F & R & B). exact (WI_validate _ _ _ _ F (ri_wi _ _ _ _ _ _ R)). Qed.
Theorem rb_works mid r w evs u : rreach mid faultless r w evs u -> has (r_gflags r) SHR_SYNC = true -> works_as_queue (w_ring w).
Proof.
  intros D SY. destruct (rreach_inv _ _ _ _ _ _ id_faultless D SY) as (fsz & F & R & B). pose proof (ri_wi _ _ _ _ _ _ R) as W.
  apply (works_inv (w_ring w) (committed evs) (wi_ring _ _ _ W)). exact (wi_bound _ _ _ _ _ W B).
Qed.
Theorem rb_atomic r w evs u : rreach false faultless r w evs u -> has (r_gflags r) SHR_SYNC = true -> exists p,
  atomic unharmed (mkaq (r_n r) (r_mm r) (r_drop r) (r_farm r) 0 [] []) evs (abs (w_ring w)) p
  /\ forall c, c_live (cli w c) = true -> p c = (c_q (cli w c), c_md (cli w c)).
Proof.
  intros D SY. destruct (rreach_inv _ _ _ _ _ _ id_faultless D SY) as (fsz & F & R & B). rewrite <- (fresh_abs r fsz F). destruct (ri_un _ _ _ _ _ _ R eq_refl) as (p & A & H).
  exists p. split; [exact A|]. intros c L. apply (H c L).
Qed.
Theorem rb_atomic_during mid r w evs u : rreach mid faultless r w evs u -> has (r_gflags r) SHR_SYNC = true -> exists p,
  atomic maimed (mkaq (r_n r) (r_mm r) (r_drop r) (r_farm r) 0 [] []) evs (abs (w_ring w)) p
  /\ forall c, c_live (cli w c) = true -> p c = (c_q (cli w c), c_md (cli w c)).
Proof.
  intros D SY. destruct (rreach_inv _ _ _ _ _ _ id_faultless D SY) as (fsz & F & R & B). rewrite <- (fresh_abs r fsz F). destruct (ri_ti _ _ _ _ _ _ R) as (p & A & H).
  exists p. split; [exact A|]. intros c L. apply (H c L).
Qed.
Theorem rb_fifo r w evs u : rreach false faultless r w evs u -> has (r_gflags r) SHR_SYNC = true -> r_drop r = false -> r_farm r = false ->
  committed evs = delivered evs ++ ring_unread (w_ring w).
Proof.
  intros D SY Hd Hf. destruct (rb_atomic _ _ _ _ D SY) as (p & A & _). destruct (spec_fifo _ _ _ _ A Hd Hf eq_refl) as (_ & _ & E). exact E.
Qed.
Theorem rb_fifo_during mid r w evs u : rreach mid faultless r w evs u -> has (r_gflags r) SHR_SYNC = true -> r_drop r = false -> r_farm r = false ->
  exists taken, subseq (delivered evs) taken /\ committed evs = taken ++ ring_unread (w_ring w) /\ (no_reader_killed evs -> taken = delivered evs).
Proof.
  intros D SY Hd Hf. destruct (rb_atomic_during _ _ _ _ _ D SY) as (p & A & _). destruct (k_spec_fifo _ _ _ _ A Hd Hf eq_refl) as (_ & _ & t & T). exists t. exact T.
Qed.
Theorem rb_no_abort mid r w evs u a : rreach mid faultless r w evs u -> has (r_gflags r) SHR_SYNC = true -> contract w a ->
  exists w' ev m u', step w a = Ok (w', ev) /\ exec_all (dprog w a) (shared w, u) = Ok ((m, u'), tt).
Proof.
  intros D SY C. destruct (rreach_inv _ _ _ _ _ _ id_faultless D SY) as (fsz & F & R & B). pose proof (ri_wi _ _ _ _ _ _ R) as W.
  destruct (step_total _ w evs a W (wi_bound _ _ _ _ _ W B) C) as (w' & ev & S). exists w', ev. destruct (dstep_exists w a w' ev u (ri_li _ _ _ _ _ _ R) C S) as (m & u' & E). eauto.
Qed.

(** ** the power fails inside a section *)
Lemma ri_points mid r fsz w evs u a x : RI mid r fsz w evs u -> was_opened evs -> fails_in w u a x ->
  exists h, survives (Some h) x /\ forall s, In s h -> exists m1, point (kprog w a) (shared w) m1 /\ im_ring s = sh_ring m1.
Proof.
  intros R O (line & m & u' & F & S). pose proof (ri_sy _ _ _ _ _ _ R) as I. pose proof (ri_op _ _ _ _ _ _ R O) as J.
  assert (K : from (kprog w a) (shared w) u u').
  { destruct a as [e f p|c y|c e|c|c|c fd|c]; cbn [dprog kprog] in *; try (apply dies_ret in F; contradiction).
    - exact (proj1 (open_dies _ _ _ _ _ _ _ _ _ F)).
    - destruct (c_live (cli w c)); [|apply dies_ret in F; contradiction]. exact (proj1 (section_dies _ _ _ _ _ _ _ F)). }
  destruct K as [K1 K2]. specialize (K1 J). destruct u' as [h'|]; [|congruence]. exists h'. split; [exact S|]. intros s Hs.
  destruct (K2 _ eq_refl s Hs) as [(h & -> & Hh)|(m1 & P & ->)].
  - exists (shared w). split; [apply point_here|]. exact (I s Hh).
  - exists m1. split; [exact P|reflexivity].
Qed.
Lemma wi_lens r fsz w evs : fresh r fsz -> WI (world0 r fsz) w evs -> let g := w_ring w in
  0 <= r_n g /\ 0 <= r_pad_len g /\ 0 <= r_mv_len g /\ 0 <= r_app_len g /\ zlen (r_d g) = r_n g /\ SIZEOF_MSG * zlen (r_mv g) = r_mv_len g /\ zlen (r_app g) = r_app_len g
  /\ r_n g = r_n r /\ r_pad_len g = r_pad_len r /\ r_mv_len g = r_mv_len r /\ r_app_len g = r_app_len r.
Proof.
  intros F W g. destruct (fresh_sizes _ _ F) as (A & B & C & _ & M & _).
  destruct (wi_dims _ _ _ W) as (_ & En & Em & Ev & Ep & Ea). cbn [world0 w_ring] in *. fold g in En, Em, Ev, Ep, Ea.
  pose proof (i_win _ _ (i_inv0 _ _ (wi_ring _ _ _ W))) as V. pose proof (w_d _ _ _ V) as Ld. pose proof (w_mv _ _ _ V) as Lm. pose proof (wi_app _ _ _ W) as La.
  fold g in Ld, Lm, La. pose proof (zlen_nonneg (r_app g)). repeat split; try assumption; try lia.
Qed.
(** what is called changes the control page only, or the file is no longer than a page *)
Definition whole (w : world) (a : action) : Prop :=
  (match a with ARun c _ => only_control (cli w c) | _ => True end)
  \/ SIZEOF_CTRL + r_n (w_ring w) + r_pad_len (w_ring w) + r_mv_len (w_ring w) + r_app_len (w_ring w) <= PAGE.
Lemma ri_point mid r fsz w evs u a x : fresh r fsz -> RI mid r fsz w evs u -> was_opened evs -> whole w a -> fails_in w u a x ->
  exists m, point (kprog w a) (shared w) m /\ im_ring x = sh_ring m.
Proof.
  intros F R O WH X. destruct (ri_points _ _ _ _ _ _ _ _ R O X) as (h & S & Q).
  destruct (wi_lens _ _ _ _ F (ri_wi _ _ _ _ _ _ R)) as (N1 & N2 & N3 & N4 & L1 & L2 & L3 & _). destruct WH as [OC|FS].
  - destruct (pages_ctl h x (w_ring w) N1 N2 N3) as (s0 & I0 & E); [|exact S|].
    + intros s I. destruct (Q s I) as (m1 & P1 & ->). exact (each_point mctl _ _ _ (fun s => ctl_r _) mctl_t (kprog_ctl w a OC) P1).
    + rewrite E. destruct (Q s0 I0) as (m1 & P1 & ->). eauto.
  - destruct (pages_one h x (w_ring w) N1 N2 N3 N4 L1 L2 L3 FS) as (s0 & I0 & E); [|exact S|].
    + intros s I. destruct (Q s I) as (m1 & P1 & ->). exact (each_point mgeo _ _ _ (fun s => geo_r _) mgeo_t (kprog_geo w a) P1).
    + rewrite E. destruct (Q s0 I0) as (m1 & P1 & ->). eauto.
Qed.
Theorem rb_during r w evs u a x : rreach true faultless r w evs u -> has (r_gflags r) SHR_SYNC = true -> was_opened evs -> faultless w a -> whole w a -> fails_in w u a x ->
  (exists w1 ev, im_ring x = w_ring w1 /\ (forall c, c_live (cli w1 c) = false) /\ (seq_bound r (evs ++ ev) -> rreach true faultless r w1 (evs ++ ev) (Some [x])))
  \/ exists c e line m, a = ARun c e /\ dies_at (section e (cli w c)) (shared w) line m /\ untorn w c m line = false /\ im_ring x = sh_ring m.
Proof.
  intros D SY O FA WH X. destruct (rreach_inv _ _ _ _ _ _ id_faultless D SY) as (fsz & F & R & B). pose proof (ri_wi _ _ _ _ _ _ R) as W.
  destruct (ri_point _ _ _ _ _ _ _ _ F R O WH X) as (m & P & E). destruct D as (fsz' & F' & D & _).
  assert (OFF : forall w1, exists c0, True /\ forall c, c_live (cli (off w1 x) c) = false) by (intros w1; exists 0%nat; split; [exact Logic.I|]; intros c; rewrite cli_off; reflexivity).
  assert (L0 : forall w1 c, c_live (cli (off w1 x) c) = false) by (intros w1 c; rewrite cli_off; reflexivity). clear OFF.
  pose proof (faultless_contract _ _ FA) as C. destruct P as [[l DI]|[y EX]].
  - destruct a as [e f p|c y|c e|c|c|c fd|c]; cbn [kprog] in DI; try (apply dies_ret in DI; contradiction).
    + left. exists (off w x), (gone w). split; [reflexivity|]. split; [apply L0|]. intros SB. exists fsz'. split; [exact F'|]. split; [|exact SB].
      apply (rx_power_open _ _ _ w evs u e f p x l m); auto.
    + destruct (c_live (cli w c)) eqn:Lc; [|apply dies_ret in DI; contradiction]. destruct (untorn w c m l) eqn:U.
      * left. exists (off (killed w c m) x), (kill_events w c l ++ gone (killed w c m)). split; [reflexivity|]. split; [apply L0|]. intros SB. exists fsz'. split; [exact F'|]. split; [|exact SB].
        apply (rx_power_in _ _ _ w evs u c e x l m); auto.
      * right. exists c, e, l, m. auto.
  - left. destruct (step_total _ w evs a W (wi_bound _ _ _ _ _ W B) C) as (w' & ev & S). destruct (step_kprog _ _ _ _ (ri_li _ _ _ _ _ _ R) C S) as (m' & E' & Er & _).
    rewrite E' in EX. injection EX as -> _. exists (off w' x), (ev ++ gone w'). split; [reflexivity|]. split; [apply L0|]. intros SB. exists fsz'. split; [exact F'|]. split; [|exact SB].
    apply (rx_power_end _ _ _ w evs u a x w' ev); auto. congruence.
Qed.
