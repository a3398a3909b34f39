(** * Facts about Disk.v, concluded: what is unread after a power failure during shr_write (C84) *)
From Verif Require Import MicroFacts Crash Effects Final Pending PollFacts StepInv WorldFacts FineStep FineSect RingFacts QueueFacts KillFacts.
From Verif Require Export DiskFacts6.

Lemma zget_len {A} (l : list A) n : 0 <= n -> (forall k, 0 <= k -> zget l k = UB <-> n <= k) -> zlen l = n.
Proof.
  intros Hn H. pose proof (zlen_nonneg l) as Z0. assert (K : forall k, 0 <= k -> zget l k = UB <-> zlen l <= k).
  { intros k Hk. split; [|apply zget_out]. intros E. destruct (Z.lt_ge_cases k (zlen l)) as [L|L]; [|exact L]. exfalso.
    destruct l as [|a l]; [cbn in L; lia|]. rewrite (zget_ok a) in E by lia. discriminate E. }
  pose proof (proj1 (H (zlen l) Z0) (proj2 (K _ Z0) (Z.le_refl _))). pose proof (proj1 (K n Hn) (proj2 (H _ Hn) (Z.le_refl _))). lia.
Qed.
Lemma walk_split r : forall a p b, 0 < r_mm r -> 0 <= p < r_mm r -> walk r p (a + b) = walk r p a ++ walk r ((p + Z.of_nat a) mod r_mm r) b.
Proof.
  induction a as [|a IH]; intros p b Hm Hp; cbn [walk Nat.add app].
  - replace (p + Z.of_nat 0) with p by lia. rewrite Z.mod_small by lia. reflexivity.
  - rewrite IH by (try apply Z.mod_pos_bound; lia). do 3 f_equal. rewrite Zplus_mod_idemp_l. f_equal. lia.
Qed.
Lemma walk_len r : forall a p, length (walk r p a) = a.
Proof. induction a as [|a IH]; intros p; cbn [walk length]; [reflexivity|]. rewrite IH. reflexivity. Qed.
Lemma omap_ub {A B} (f : A -> B) o : omap f o = UB <-> o = UB.
Proof. destruct o; cbn; split; congruence. Qed.

Lemma write_pages h x r hist iov : Inv0 r hist -> 0 <= r_pad_len r -> 0 <= r_mv_len r -> (forall s, In s h -> geo r (im_ring s) /\ keeps r hist iov (im_ring s)) -> survives (Some h) x ->
  exists extra, ring_unread (im_ring x) = ring_unread r ++ extra /\ (extra = [] \/ length extra = length iov).
Proof.
  intros I N2 N3 G S. pose proof (i_win _ _ I) as W. pose proof (i_m _ _ I) as M. pose proof (w_old _ _ _ W) as O. pose proof (w_n _ _ _ W) as Wn. pose proof (w_mm _ _ _ W) as Wm.
  destruct (pages h x r ltac:(lia) N2 N3 (fun s Hs => proj1 (G s Hs)) S) as (s0 & I0 & C & A1 & A2 & A3 & _).
  set (X := im_ring x) in *. destruct (G s0 I0) as [(D0 & _) (K1 & K2 & _)]. destruct D0 as (_ & Dn & Dm & _).
  destruct C as (_ & Cn & _ & _ & Cm & _ & Cr & _ & _ & _ & Cmm & _).
  set (Y := r <| r_mv := r_mv X |> <| r_d := r_d X |>).
  assert (WY : Win Y hist (zlen hist - r_m r)).
  { apply (win_frame r); try reflexivity.
    - apply (win_shrink r hist (zlen hist - r_mp r)); [exact W|lia].
    - cbn [Y r_d set]. apply zget_len; [apply zlen_nonneg|]. intros k Hk. destruct (A1 k Hk) as (s & Is & E & _). destruct (G s Is) as [(_ & L & _) _]. rewrite E, <- L.
      split; [|apply zget_out]. intros F. destruct (Z.lt_ge_cases k (zlen (r_d (im_ring s)))) as [Lt|Lt]; [rewrite (zget_ok 0) in F by lia; discriminate F|exact Lt].
    - cbn [Y r_mv set]. apply zget_len; [apply zlen_nonneg|]. intros k Hk. destruct (A2 k Hk) as (s & Is & E & _). destruct (G s Is) as [(_ & _ & L & _) _].
      rewrite <- (omap_ub sl_pos), E, (omap_ub sl_pos), <- L.
      split; [|apply zget_out]. intros F. destruct (Z.lt_ge_cases k (zlen (r_mv (im_ring s)))) as [Lt|Lt]; [rewrite (zget_ok slot0) in F by lia; discriminate F|exact Lt].
    - intros k Hk. pose proof (Z.mod_pos_bound k (r_mm r) ltac:(lia)) as B. cbn [Y r_mv set].
      assert (Ek : znth slot0 (r_mv r) (k mod r_mm r) = mkslot (start hist k mod r_n r) (zlen (hmsg hist k))) by (apply (w_slot _ _ _ W); lia).
      assert (V : forall s, In s h -> zget (r_mv (im_ring s)) (k mod r_mm r) = Ok (znth slot0 (r_mv r) (k mod r_mm r))).
      { intros s Is. destruct (G s Is) as [(_ & _ & L & _) (_ & _ & Q & _)]. rewrite (zget_ok slot0) by (rewrite L, (w_mv _ _ _ W); lia). rewrite Q by lia. rewrite Ek. reflexivity. }
      assert (E : zget (r_mv X) (k mod r_mm r) = Ok (znth slot0 (r_mv r) (k mod r_mm r))).
      { destruct (A2 (k mod r_mm r) ltac:(lia)) as (s & Is & E & _). destruct (A3 (k mod r_mm r) ltac:(lia)) as (s' & Is' & E' & _). rewrite (V _ Is) in E. rewrite (V _ Is') in E'. apply slot_ext; assumption. }
      unfold zget in E. destruct (0 <=? k mod r_mm r); [|discriminate E]. destruct (nth_error (r_mv X) (Z.to_nat (k mod r_mm r))) eqn:En; [|discriminate E]. injection E as E. rewrite <- E. exact (nth_error_nth _ _ slot0 En).
    - intros b Hb. pose proof (Z.mod_pos_bound b (r_n r) ltac:(lia)) as B. cbn [Y r_d set].
      assert (Ek : znth 0 (r_d r) (b mod r_n r) = znth 0 (concat hist) b).
      { apply (w_data _ _ _ W). assert (start hist (zlen hist - r_mp r) <= start hist (zlen hist - r_m r)) by (apply start_mono; lia). lia. }
      assert (V : forall s, In s h -> zget (r_d (im_ring s)) (b mod r_n r) = Ok (znth 0 (r_d r) (b mod r_n r))).
      { intros s Is. destruct (G s Is) as [(_ & L & _) (_ & _ & _ & Q)]. rewrite (zget_ok 0) by (rewrite L, (w_d _ _ _ W); lia). rewrite Q by lia. rewrite Ek. reflexivity. }
      assert (E : zget (r_d X) (b mod r_n r) = Ok (znth 0 (r_d r) (b mod r_n r))) by (destruct (A1 (b mod r_n r) ltac:(lia)) as (s & Is & E & _); rewrite E; apply V, Is).
      unfold zget in E. destruct (0 <=? b mod r_n r); [|discriminate E]. destruct (nth_error (r_d X) (Z.to_nat (b mod r_n r))) eqn:En; [|discriminate E]. injection E as E. rewrite <- E. exact (nth_error_nth _ _ 0 En). }
  assert (WE : forall c p, walk X p c = walk Y p c).
  { intros c p. apply walk_agree; [|reflexivity|reflexivity]. cbn [Y r_mm set]. fold X in Cmm. rewrite Cmm. exact Dm. }
  assert (OLD : walk Y (r_r r) (Z.to_nat (r_m r)) = ring_unread r).
  { rewrite (unread_eq _ _ I), (i_r _ _ I). change (r_mm r) with (r_mm Y). rewrite (walk_ok Y hist _ WY) by lia. apply firstn_all_zlen. rewrite zlen_lastn by lia. lia. }
  unfold ring_unread at 1. rewrite WE, Cr, K1, Cm. destruct K2 as [[E _]|[E _]]; rewrite E.
  - exists []. rewrite app_nil_r. split; [exact OLD|left; reflexivity].
  - pose proof (zlen_nonneg iov). rewrite Z2Nat.inj_add by lia. rewrite walk_split; [|cbn [Y r_mm set]; lia|cbn [Y r_mm set]; rewrite (i_r _ _ I); apply Z.mod_pos_bound; lia].
    rewrite OLD. eexists. split; [reflexivity|right]. rewrite walk_len. unfold zlen. lia.
Qed.

(** ** the theorems *)
(** the process is in shr_write (or shr_flush), storing [iov] *)
Lemma writer_reach r w evs : reach contract r w evs -> exists w0, WI w0 w evs /\ r_drop (w_ring w) = r_drop r.
Proof.
  intros H. pose proof (gflags_reach r w evs H) as G. destruct (reach_inv _ _ _ _ id_contract H) as (fsz & _ & _ & _ & W & _). exists (world0 r fsz). split; [exact W|]. unfold r_drop. rewrite G. reflexivity.
Qed.
Theorem d_write r w evs u c e x k iov len nb : dreach faultless r w evs u -> has (r_gflags r) SHR_SYNC = true -> was_opened evs -> r_drop r = false ->
  c_pc (cli w c) = RunW k iov len nb -> fails_in w u (ARun c e) x ->
  exists extra, ring_unread (im_ring x) = ring_unread (w_ring w) ++ extra /\ (extra = [] \/ length extra = length iov).
Proof.
  intros D SY O ND Ep F. destruct (fails_points _ _ _ _ _ _ D SY O F) as (h & S & P). cbn [kprog] in P.
  pose proof (faultless_reach _ _ _ (dreach_reach _ _ _ _ _ D)) as R. destruct (writer_reach _ _ _ R) as (w0 & W & E). rewrite <- E in ND.
  destruct (reach_sizes r w evs R) as (N1 & N2 & N3).
  assert (Hl : c_live (cli w c) = true).
  { destruct (c_live (cli w c)) eqn:Hl; [reflexivity|]. pose proof (wi_dead _ _ _ W c Hl) as Z0. congruence. }
  rewrite Hl in P. apply (write_pages h x (w_ring w) (committed evs) iov (i_inv0 _ _ (wi_ring _ _ _ W)) N2 N3); [|exact S].
  intros s Is. destruct (P s Is) as (m1 & P1 & ->). split.
  - exact (each_point mgeo _ _ _ (fun s => geo_r _) mgeo_t (g_section e (cli w c)) P1).
  - eapply writer_points; eassumption.
Qed.
Theorem d_write_page r w evs u c e x k iov len nb : dreach faultless r w evs u -> has (r_gflags r) SHR_SYNC = true -> was_opened evs -> r_drop r = false ->
  SIZEOF_CTRL + r_n r + r_pad_len r + r_mv_len r + r_app_len r <= PAGE ->
  c_pc (cli w c) = RunW k iov len nb -> fails_in w u (ARun c e) x ->
  ring_unread (im_ring x) = ring_unread (w_ring w) \/ ring_unread (im_ring x) = ring_unread (w_ring w) ++ iov.
Proof.
  intros D SY O ND FS Ep F. destruct (fails_points _ _ _ _ _ _ D SY O F) as (h & S & P). cbn [kprog] in P.
  pose proof (faultless_reach _ _ _ (dreach_reach _ _ _ _ _ D)) as R. destruct (writer_reach _ _ _ R) as (w0 & W & E). rewrite <- E in ND.
  destruct (reach_lens r w evs R) as (N1 & N2 & N3 & N4 & L1 & L2 & L3 & Q1 & Q2 & Q3 & Q4).
  assert (Hl : c_live (cli w c) = true).
  { destruct (c_live (cli w c)) eqn:Hl; [reflexivity|]. pose proof (wi_dead _ _ _ W c Hl) as Z0. congruence. }
  rewrite Hl in P. destruct (pages_one h x (w_ring w) N1 N2 N3 N4 L1 L2 L3) as (s0 & I0 & X); [lia| |exact S|].
  - intros s Is. destruct (P s Is) as (m1 & P1 & ->). exact (each_point mgeo _ _ _ (fun s => geo_r _) mgeo_t (g_section e (cli w c)) P1).
  - rewrite X. destruct (P s0 I0) as (m1 & P1 & ->). destruct (writer_points _ _ _ _ _ _ _ _ _ _ W Hl Ep ND P1) as (_ & [[_ K]|[_ K]] & _); auto.
Qed.
