(** * shr_readv as a call (C07-C09, C11). *)
From Verif Require Export Counters.

Lemma rq_eq r h : Inv0 r h -> zlen h < W64 -> r_q r = zlen h - r_mp r.
Proof.
  intros I H. rewrite (i_q _ _ I). apply u64_small. pose proof (w_old _ _ _ (i_win _ _ I)). pose proof (i_m _ _ I). lia.
Qed.

Lemma available_eq r h q : Inv0 r h -> (r_farm r = true -> zlen h < W64 /\ 0 <= q <= zlen h) ->
  available r q = skipn (Z.to_nat (Z.max (rpos r h q) (zlen h - r_mp r))) h.
Proof.
  intros I H. pose proof (w_old _ _ _ (i_win _ _ I)) as Ho. pose proof (i_m _ _ I) as Hm.
  unfold available, rpos. destruct (r_farm r) eqn:Hf.
  - destruct (H eq_refl) as [H1 H2]. rewrite (rq_eq _ _ I H1), (retained_eq _ _ I). unfold lastn. rewrite skipn_skipn. f_equal. lia.
  - rewrite (unread_eq _ _ I). unfold lastn. f_equal. lia.
Qed.
Lemma clamp_usable buf : clamp (zlen buf) = usable buf.
Proof. unfold clamp, usable. destruct (Z.gtb_spec (zlen buf) SSIZE_MAX); lia. Qed.

Lemma run_pc w evs c buf niov : PI w evs -> pending c evs = Some (CRead buf niov) -> asleep w c = false ->
  c_pc (cli w c) = RunR buf niov.
Proof.
  intros HP E A. specialize (HP c). rewrite E in HP. unfold asleep in A.
  destruct (c_pc (cli w c)) as [ |[| | |] ? ? ?|[| | |] ? ? ?|? ?| | | | |]; cbn [pc_for] in HP; try discriminate;
    try (destruct HP as (? & HP & ?); discriminate); try (destruct HP as [HP ?]; discriminate).
  injection HP as -> ->. reflexivity.
Qed.
Lemma pend_live w0 w evs c x : WI w0 w evs -> PI w evs -> pending c evs = Some x -> c_live (cli w c) = true.
Proof.
  intros W HP E. destruct (c_live (cli w c)) eqn:L; [reflexivity|].
  specialize (HP c). rewrite (wi_dead _ _ _ W c L), E in HP. discriminate.
Qed.

(** one pass of shr_readv under the lock *)
Theorem read_step w0 w evs c e buf niov w' ev :
  WI w0 w evs -> PI w evs -> seq_bound (w_ring w) evs ->
  pending c evs = Some (CRead buf niov) -> asleep w c = false ->
  step w (ARun c e) = Ok (w', ev) -> e_lock e = true ->
  let av := available (w_ring w) (c_q (cli w c)) in
  let taken := take_fit (Z.to_nat niov) (usable buf) av in
  0 < zlen buf /\ 0 < niov /\
  ring_retained (w_ring w') = ring_retained (w_ring w)
  /\ (forall c', c' <> c -> cli w' c' = cli w c')
  /\ r_q (w_ring w') = r_q (w_ring w)
  /\ (r_farm (w_ring w) = true -> ring_unread (w_ring w') = ring_unread (w_ring w))
  /\ ((av = [] /\ w_ring w' = w_ring w /\ (r_farm (w_ring w) = true -> c_q (cli w' c) = zlen (committed evs))
       /\ (if has (c_flags (cli w c)) SHR_NONBLOCK
           then ev = [ERet c (RetRead 0 buf [])] /\ asleep w' c = false
           else ev = [] /\ asleep w' c = true))
      \/ (av <> [] /\ available (w_ring w') (c_q (cli w' c)) = skipn (length taken) av
          /\ asleep w' c = false
          /\ ev = [ERet c (RetRead (match taken with [] => -2 | _ => nbytes taken end)
                     (blit 0 (concat taken) buf) (tile 0 taken))])).
Proof.
  intros W HP HB Pd As HS He av taken.
  pose proof (run_pc _ _ _ _ _ HP Pd As) as Hpc. pose proof (pend_live _ _ _ _ _ W HP Pd) as Hl.
  destruct (wi_cl _ _ _ W c Hl) as [ms C]. pose proof (ci_pc _ _ _ _ C) as P. unfold pc_ok in P. rewrite Hpc in P.
  destruct P as (Hr & Hb & Hn). pose proof (CI_qok _ _ _ _ C HB) as Hq. pose proof (wi_ring _ _ _ W) as I.
  pose proof (i_inv0 _ _ I) as I0.
  destruct (ring_read_ok _ _ _ (c_md (cli w c)) buf niov I Hq Hb Hn) as [Q1 Q2].
  assert (EA : skipn (Z.to_nat (Z.max (rpos (w_ring w) (committed evs) (c_q (cli w c))) (zlen (committed evs) - r_mp (w_ring w)))) (committed evs) = av).
  { symmetry. apply available_eq; [exact I0|exact Hq]. }
  rewrite !EA in Q1, Q2. rewrite clamp_usable in Q2. fold taken in Q2.
  pose proof (live_bound _ _ Hl) as LB.
  split; [exact Hb|]. split; [exact Hn|].
  assert (OTH : forall w1 cl1 c', w_cl w1 = w_cl w -> c' <> c -> cli (setc w1 c cl1) c' = cli w c').
  { intros w1 cl1 c' E N. rewrite cli_setc_other by exact N. unfold cli. rewrite E. reflexivity. }
  assert (SAME : forall w1 cl1, w_cl w1 = w_cl w -> cli (setc w1 c cl1) c = cl1).
  { intros w1 cl1 E. apply cli_setc_same. rewrite E. exact LB. }
  cbn [step] in HS. rewrite Hl in HS. unfold run_client in HS. rewrite Hpc in HS. unfold crit_read in HS.
  rewrite He in HS. cbn [negb] in HS.
  destruct (ci_rd _ _ _ _ C Hr) as [(n & sid & pl & Ewr) (sq & cs & Erw)].
  destruct (list_eq_dec (list_eq_dec Z.eq_dec) av []) as [Eav|Nav].
  - assert (KQ : forall q', q' = (if r_farm (w_ring w) then
        Z.max (rpos (w_ring w) (committed evs) (c_q (cli w c))) (zlen (committed evs) - r_mp (w_ring w)) else c_q (cli w c)) ->
        r_farm (w_ring w) = true -> q' = zlen (committed evs)).
    { intros q' -> Hf. rewrite Hf. rewrite Eav in EA. apply (f_equal (@length _)) in EA. rewrite skipn_length in EA. cbn [length] in EA.
      destruct (Hq Hf) as [Hq1 Hq2]. unfold rpos in *. rewrite Hf in *. pose proof (w_old _ _ _ (i_win _ _ I0)). pose proof (i_m _ _ I0).
      unfold zlen in *. lia. }
    rewrite (Q1 Eav) in HS. cbn [obind c_w2r c_flags set] in HS. rewrite Ewr in HS.
    destruct (has (c_flags (cli w c)) SHR_NONBLOCK).
    + apply obind_ok in HS. destruct HS as (res & E1 & HS). apply obind_ok in E1. destruct E1 as ([ks ok] & _ & E1).
      inj E1. inj HS. cbn [w_ring setc set]. repeat (split; [auto|]). left. unfold asleep. rewrite SAME by reflexivity. repeat (split; [auto; apply KQ; reflexivity|]); auto.
    + cbn [obind] in HS. inj HS. cbn [w_ring setc set]. repeat (split; [auto|]). left. unfold asleep. rewrite SAME by reflexivity. repeat (split; [auto; apply KQ; reflexivity|]); auto.
  - destruct (Q2 Nav) as (x & cur' & E & I' & S' & U & RT & Emp & ST & Bf & Io & Nr & Zi & _).
    rewrite E in HS. cbn [obind c_w2r c_r2w c_flags set] in HS. rewrite Erw in HS.
    pose proof (i_inv0 _ _ I') as I0'.
    assert (HBq : r_q (rd_ring x) = r_q (w_ring w)) by (rewrite (i_q _ _ I0), (i_q _ _ I0'), Emp; reflexivity).
    assert (HF : r_farm (rd_ring x) = r_farm (w_ring w)).
    { apply same_dims_farm. apply same_fixed_dims. exact S'. }
    assert (AV : forall q', q' = (if r_farm (w_ring w)
        then Z.max (rpos (w_ring w) (committed evs) (c_q (cli w c))) (zlen (committed evs) - r_mp (w_ring w)) + zlen taken
        else c_q (cli w c)) -> available (rd_ring x) q' = skipn (length taken) av).
    { intros q' ->. unfold available, av, available. rewrite HF, RT, HBq, U. unfold rpos. destruct (r_farm (w_ring w)) eqn:Hf.
      - destruct (Hq Hf) as [Hq1 Hq2]. rewrite (rq_eq _ _ I0 Hq1). rewrite skipn_skipn. f_equal.
        assert (HT : zlen taken = Z.of_nat (length taken)) by reflexivity. pose proof (w_old _ _ _ (i_win _ _ I0)). lia.
      - unfold zlen. rewrite Nat2Z.id. reflexivity. }
    assert (RV : match taken with [] => -2 | _ => nbytes taken end = (if (if zlen (rd_iov x) >? 0 then 0 else -2) =? 0 then rd_nr x else (if zlen (rd_iov x) >? 0 then 0 else -2))).
    { rewrite Zi, Nr. destruct taken as [|m t]; [reflexivity|]. rewrite zlen_cons. pose proof (zlen_nonneg t).
      destruct (Z.gtb_spec (zlen t + 1) 0); [reflexivity|lia]. }
    apply obind_ok in HS. destruct HS as (res & E1 & HS). apply obind_ok in E1. destruct E1 as ([w1 cl1] & E1 & E2).
    assert (W1 : w_ring w1 = rd_ring x /\ w_cl w1 = w_cl w /\ c_w2r cl1 = Some (Wait n sid pl)
      /\ c_q cl1 = (if r_farm (w_ring w)
        then Z.max (rpos (w_ring w) (committed evs) (c_q (cli w c))) (zlen (committed evs) - r_mp (w_ring w)) + zlen taken
        else c_q (cli w c))).
    { destruct (rd_nr x >? 0).
      - apply obind_ok in E1. destruct E1 as ([[[ks bh] hh] ok] & _ & E1). inj E1. auto.
      - inj E1. auto. }
    destruct W1 as (W1 & W2 & W3 & W4). rewrite W3 in E2. apply obind_ok in E2. destruct E2 as ([ks2 ok2] & _ & E2).
    inj E2. inj HS. cbn [w_ring setc set]. rewrite W1.
    split; [exact RT|]. split; [intros c' N; apply OTH; assumption|]. split; [exact HBq|].
    split; [intros Hf; rewrite U, Hf; reflexivity|]. right. split; [exact Nav|].
    unfold asleep. rewrite !(SAME (w1 <| w_ks := ks2 |>)) by exact W2. cbn [c_q c_pc set].
    split; [apply AV; exact W4|]. split; [reflexivity|]. rewrite RV, <- Bf, <- Io. reflexivity.
Qed.
