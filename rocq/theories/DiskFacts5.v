(** * Facts about Disk.v, continued: what a power failure during a call leaves (C84) *)
From Verif Require Import MicroFacts Crash Effects Final Pending PollFacts StepInv WorldFacts FineStep FineSect RingFacts QueueFacts.
From Verif Require Export DiskFacts4.

Definition ctrl_eq (a b : ring) : Prop :=
  r_gflags a = r_gflags b /\ r_n a = r_n b /\ r_i a = r_i b /\ r_u a = r_u b
     /\ r_m a = r_m b /\ r_mp a = r_mp b /\ r_r a = r_r b /\ r_e a = r_e b /\ r_q a = r_q b /\ r_stat a = r_stat b
     /\ r_mm a = r_mm b /\ r_mv_len a = r_mv_len b /\ r_pad_len a = r_pad_len b /\ r_app_len a = r_app_len b.
Lemma ctrl_all a b : ctrl_eq a b -> r_d a = r_d b -> r_mv a = r_mv b -> r_app a = r_app b -> a = b.
Proof. unfold ctrl_eq. destruct a, b. cbn. intros (? & ? & ? & ? & ? & ? & ? & ? & ? & ? & ? & ? & ? & ?) ? ? ?. subst. reflexivity. Qed.
Lemma pages h x r : 0 <= r_n r -> 0 <= r_pad_len r -> 0 <= r_mv_len r -> (forall s, In s h -> geo r (im_ring s)) -> survives (Some h) x ->
  exists s0, In s0 h /\ ctrl_eq (im_ring x) (im_ring s0)
  /\ (forall k, 0 <= k -> exists s, In s h /\ zget (r_d (im_ring x)) k = zget (r_d (im_ring s)) k /\ (SIZEOF_CTRL + k < PAGE -> s = s0))
  /\ (forall k, 0 <= k -> exists s, In s h /\ omap sl_pos (zget (r_mv (im_ring x)) k) = omap sl_pos (zget (r_mv (im_ring s)) k)
        /\ (SIZEOF_CTRL + r_n r + r_pad_len r + SIZEOF_MSG * k < PAGE -> s = s0))
  /\ (forall k, 0 <= k -> exists s, In s h /\ omap sl_len (zget (r_mv (im_ring x)) k) = omap sl_len (zget (r_mv (im_ring s)) k)
        /\ (SIZEOF_CTRL + r_n r + r_pad_len r + SIZEOF_MSG * k + 8 < PAGE -> s = s0))
  /\ (forall k, 0 <= k -> exists s, In s h /\ zget (r_app (im_ring x)) k = zget (r_app (im_ring s)) k
        /\ (SIZEOF_CTRL + r_n r + r_pad_len r + r_mv_len r + k < PAGE -> s = s0)).
Proof.
  intros N1 N2 N3 G S. cbn [survives] in S. destruct (S 0 ltac:(lia)) as (s0 & I0 & S0). exists s0. split; [exact I0|].
  split; [destruct S0 as (C & _); specialize (C eq_refl); unfold ctrl_eq; tauto|].
  assert (C : 0 <= SIZEOF_CTRL) by (cbv; discriminate). assert (M : 0 <= SIZEOF_MSG) by (cbv; discriminate). assert (P0 : 0 < PAGE) by reflexivity.
  assert (K : forall o, 0 <= o -> exists s, In s h /\ same_page (o / PAGE) x s /\ (o < PAGE -> s = s0)).
  { intros o Ho. destruct (Z.lt_ge_cases o PAGE) as [L|L].
    - exists s0. split; [exact I0|]. split; [rewrite Z.div_small by lia; exact S0|auto].
    - destruct (S (o / PAGE)) as (s & I & Q); [apply Z.div_pos; lia|]. exists s. split; [exact I|]. split; [exact Q|lia]. }
  assert (GE : forall s, In s h -> r_n (im_ring s) = r_n r /\ r_pad_len (im_ring s) = r_pad_len r /\ r_mv_len (im_ring s) = r_mv_len r).
  { intros s I. destruct (G s I) as ((_ & A & _ & B & D & _) & _). auto. }
  split; [|split; [|split]]; intros k Hk.
  - destruct (K (SIZEOF_CTRL + k) ltac:(lia)) as (s & I & (_ & Q & _) & E). exists s. split; [exact I|]. split; [apply Q; [exact Hk|reflexivity]|exact E].
  - destruct (K (SIZEOF_CTRL + r_n r + r_pad_len r + SIZEOF_MSG * k) ltac:(nia)) as (s & I & (_ & _ & Q & _) & E). destruct (GE s I) as (A1 & A2 & A3). rewrite A1, A2 in Q.
    exists s. split; [exact I|]. split; [apply Q; [exact Hk|reflexivity]|exact E].
  - destruct (K (SIZEOF_CTRL + r_n r + r_pad_len r + SIZEOF_MSG * k + 8) ltac:(nia)) as (s & I & (_ & _ & _ & Q & _) & E). destruct (GE s I) as (A1 & A2 & A3). rewrite A1, A2 in Q.
    exists s. split; [exact I|]. split; [apply Q; [exact Hk|reflexivity]|exact E].
  - destruct (K (SIZEOF_CTRL + r_n r + r_pad_len r + r_mv_len r + k) ltac:(nia)) as (s & I & (_ & _ & _ & _ & Q) & E). destruct (GE s I) as (A1 & A2 & A3). rewrite A1, A2, A3 in Q.
    exists s. split; [exact I|]. split; [apply Q; [exact Hk|reflexivity]|exact E].
Qed.
(** nothing but the control page changes *)
Lemma pages_ctl h x r : 0 <= r_n r -> 0 <= r_pad_len r -> 0 <= r_mv_len r -> (forall s, In s h -> ctl r (im_ring s)) -> survives (Some h) x ->
  exists s0, In s0 h /\ im_ring x = im_ring s0.
Proof.
  intros N1 N2 N3 G S. destruct (pages h x r N1 N2 N3 (fun s I => ctl_geo _ _ (G s I)) S) as (s0 & I0 & C & A1 & A2 & A3 & A4).
  exists s0. split; [exact I0|]. destruct (G s0 I0) as (_ & E1 & E2 & E3). apply ctrl_all; [exact C|..]; apply zget_ext; intros k Hk.
  - destruct (A1 k Hk) as (s & I & E & _). destruct (G s I) as (_ & F & _). congruence.
  - destruct (A2 k Hk) as (s & I & E & _). destruct (A3 k Hk) as (s' & I' & E' & _). destruct (G s I) as (_ & _ & F & _). destruct (G s' I') as (_ & _ & F' & _).
    apply slot_ext; congruence.
  - destruct (A4 k Hk) as (s & I & E & _). destruct (G s I) as (_ & _ & _ & F). congruence.
Qed.
(** all on one page *)
Lemma pages_one h x r : 0 <= r_n r -> 0 <= r_pad_len r -> 0 <= r_mv_len r -> 0 <= r_app_len r -> zlen (r_d r) = r_n r -> SIZEOF_MSG * zlen (r_mv r) = r_mv_len r -> zlen (r_app r) = r_app_len r ->
  SIZEOF_CTRL + r_n r + r_pad_len r + r_mv_len r + r_app_len r <= PAGE ->
  (forall s, In s h -> geo r (im_ring s)) -> survives (Some h) x -> exists s0, In s0 h /\ im_ring x = im_ring s0.
Proof.
  intros N1 N2 N3 N4 L1 L2 L3 F G S. destruct (pages h x r N1 N2 N3 G S) as (s0 & I0 & C & A1 & A2 & A3 & A4).
  exists s0. split; [exact I0|]. destruct (G s0 I0) as (_ & E1 & E2 & E3). change SIZEOF_MSG with 16 in *. apply ctrl_all; [exact C|..]; apply zget_ext; intros k Hk.
  - destruct (A1 k Hk) as (s & I & E & Q). destruct (G s I) as (_ & F1 & _). destruct (Z.lt_ge_cases k (r_n r)) as [L|L]; [rewrite Q in E by lia; exact E|].
    rewrite E, !zget_out by lia. reflexivity.
  - destruct (A2 k Hk) as (s & I & E & Q). destruct (A3 k Hk) as (s' & I' & E' & Q'). destruct (G s I) as (_ & _ & F1 & _). destruct (G s' I') as (_ & _ & F2 & _).
    destruct (Z.lt_ge_cases k (zlen (r_mv r))) as [L|L]; [rewrite Q in E by lia; rewrite Q' in E' by lia; apply slot_ext; assumption|].
    apply slot_ext; [rewrite E|rewrite E']; rewrite !zget_out by lia; reflexivity.
  - destruct (A4 k Hk) as (s & I & E & Q). destruct (G s I) as (_ & _ & _ & F1). destruct (Z.lt_ge_cases k (r_app_len r)) as [L|L]; [rewrite Q in E by lia; exact E|].
    rewrite E, !zget_out by lia. reflexivity.
Qed.

(** ** the theorems *)
Lemma kprog_ctl w a : match a with ARun c _ => only_control (cli w c) | _ => True end -> each mctl (kprog w a).
Proof. destruct a; intros H; cbn [kprog]; try apply ea_ret; [apply c_open|]. destruct (c_live _); [apply c_section, H|apply ea_ret]. Qed.
Lemma kprog_geo w a : each mgeo (kprog w a).
Proof. destruct a; cbn [kprog]; try apply ea_ret; [apply mcg, c_open|]. destruct (c_live _); [apply g_section|apply ea_ret]. Qed.
Lemma point_like r w evs u a m : dreach faultless r w evs u -> contract w a -> point (kprog w a) (shared w) m -> like_kill w a (sh_ring m).
Proof.
  intros D C [[l X]|[x X]]; [left; eauto|right].
  assert (L : LI w) by (destruct D as (fsz & _ & D & _); eapply dexec_LI, D).
  pose proof (faultless_reach _ _ _ (dreach_reach _ _ _ _ _ D)) as R. 
  destruct (f_total r w evs a R C) as (w' & ev & S). exists w', ev. split; [exact S|].
  destruct a as [e f p|c y|c e|c|c|c fd|c]; cbn [kprog] in X; try (injection X as <- _; symmetry; refine (proj1 (other_ring _ _ _ _ S _ _)); discriminate).
  - destruct C as (_ & _ & C3). cbn [step] in S. apply obind_ok in S. destruct S as ([w1 o] & E & S). pose proof (open_exec _ _ _ _ _ _ L C3 E) as Y. rewrite X in Y. injection Y as -> _.
    destruct o; injection S as <- _; reflexivity.
  - cbn [step] in S. destruct (c_live (cli w c)); [|injection S as <- _; injection X as <- _; reflexivity]. rewrite (section_exec _ _ _ _ _ L S) in X. injection X as <- _. reflexivity.
Qed.
Theorem d_control r w evs u a x : dreach faultless r w evs u -> has (r_gflags r) SHR_SYNC = true -> was_opened evs -> contract w a ->
  match a with ARun c _ => only_control (cli w c) | _ => True end -> fails_in w u a x -> like_kill w a (im_ring x).
Proof.
  intros D SY O C OC F. destruct (fails_points _ _ _ _ _ _ D SY O F) as (h & S & P).
  destruct (reach_sizes r w evs (faultless_reach _ _ _ (dreach_reach _ _ _ _ _ D))) as (N1 & N2 & N3).
  destruct (pages_ctl h x (w_ring w) N1 N2 N3) as (s0 & I0 & E); [|exact S|].
  - intros s I. destruct (P s I) as (m1 & P1 & ->). exact (each_point mctl _ _ _ (fun s => ctl_r _) mctl_t (kprog_ctl w a OC) P1).
  - rewrite E. destruct (P s0 I0) as (m1 & P1 & ->). eapply point_like; eassumption.
Qed.
Lemma reach_lens r w evs : reach contract r w evs -> let g := w_ring w in
  0 <= r_n g /\ 0 <= r_pad_len g /\ 0 <= r_mv_len g /\ 0 <= r_app_len g /\ zlen (r_d g) = r_n g /\ SIZEOF_MSG * zlen (r_mv g) = r_mv_len g /\ zlen (r_app g) = r_app_len g
  /\ r_n g = r_n r /\ r_pad_len g = r_pad_len r /\ r_mv_len g = r_mv_len r /\ r_app_len g = r_app_len r.
Proof.
  intros H g. destruct (reach_inv _ _ _ _ id_contract H) as (fsz & F & _ & _ & W & _). destruct (fresh_sizes _ _ F) as (A & B & C & _ & M & _).
  destruct (wi_dims _ _ _ W) as (_ & En & Em & Ev & Ep & Ea). cbn [world0 w_ring] in *. fold g in En, Em, Ev, Ep, Ea.
  pose proof (i_win _ _ (i_inv0 _ _ (wi_ring _ _ _ W))) as V. pose proof (w_d _ _ _ V) as Ld. pose proof (w_mv _ _ _ V) as Lm. pose proof (wi_app _ _ _ W) as La.
  fold g in Ld, Lm, La. pose proof (zlen_nonneg (r_app g)). repeat split; try assumption; try lia.
Qed.
Theorem d_one_page r w evs u a x : dreach faultless r w evs u -> has (r_gflags r) SHR_SYNC = true -> was_opened evs -> contract w a ->
  SIZEOF_CTRL + r_n r + r_pad_len r + r_mv_len r + r_app_len r <= PAGE -> fails_in w u a x -> like_kill w a (im_ring x).
Proof.
  intros D SY O C FS F. destruct (fails_points _ _ _ _ _ _ D SY O F) as (h & S & P).
  destruct (reach_lens r w evs (faultless_reach _ _ _ (dreach_reach _ _ _ _ _ D))) as (N1 & N2 & N3 & N4 & L1 & L2 & L3 & Q1 & Q2 & Q3 & Q4).
  destruct (pages_one h x (w_ring w) N1 N2 N3 N4 L1 L2 L3) as (s0 & I0 & E); [lia| |exact S|].
  - intros s I. destruct (P s I) as (m1 & P1 & ->). exact (each_point mgeo _ _ _ (fun s => geo_r _) mgeo_t (kprog_geo w a) P1).
  - rewrite E. destruct (P s0 I0) as (m1 & P1 & ->). eapply point_like; eassumption.
Qed.
