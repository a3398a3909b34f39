(** * A reader of a FARM ring that keeps reading falls behind no message for ever (C91) *)
From Verif Require Export FairPoll.

(** the reading position of a FARM reader never goes back *)
Lemma q_mono w0 w evs a w' ev c : WI w0 w evs -> contract w a -> step w a = Ok (w', ev) -> r_farm (w_ring w) = true ->
  zlen (committed evs) < W64 -> c_live (cli w c) = true -> c_live (cli w' c) = true -> c_q (cli w c) <= c_q (cli w' c).
Proof.
  intros W HC HS SF HBw L L'.
  destruct (step_qstep _ _ _ _ _ _ _ W HC HS L') as
        [flags A1 A2 A3 A4|A1 A2 A3 A4 A5 A6|A1 A2 A3 A4 A5 A6|buf niov q md res A1 A2 B1 B2 A3 A4 A5 A6 A7]; try lia.
  - apply live_bound in L. lia.
  - destruct (wi_cl _ _ _ W c A2) as [ms C].
    assert (Hq : qok (w_ring w) (committed evs) (c_q (cli w c))) by (apply (CI_qok _ _ _ _ C); intros _; lia).
    destruct (ring_read_ok _ _ _ (c_md (cli w c)) buf niov (wi_ring _ _ _ W) Hq B1 B2) as [Q1 Q2].
    destruct (Hq SF) as [Hq1 Hq2]. unfold rpos in Q1, Q2. rewrite SF in Q1, Q2. cbn [andb] in Q1, Q2.
    set (h := committed evs) in *. set (q0 := c_q (cli w c)) in *. set (old := zlen h - r_mp (w_ring w)) in *.
    set (k := Z.max q0 old) in *.
    destruct (list_eq_dec (list_eq_dec Z.eq_dec) (skipn (Z.to_nat k) h) []) as [Ee|Ne].
    + rewrite (Q1 Ee) in A3. injection A3 as Aq _ _. lia.
    + destruct (Q2 Ne) as (x & cur' & Er & _). rewrite Er in A3. injection A3 as Aq _ _.
      match type of Aq with context[zlen ?l] => pose proof (zlen_nonneg l) end. lia.
Qed.

Lemma follow_got h old q0 got k q : follow h old q0 got k q -> 0 <= q0 -> k = 0 ->
  got = firstn (Z.to_nat (q - q0)) (skipn (Z.to_nat q0) h).
Proof.
  induction 1 as [|got k q FO IH B|got k q j FO IH B1 B2]; intros P K.
  - rewrite Z.sub_diag. reflexivity.
  - specialize (IH P K). destruct (follow_count _ _ _ _ _ _ FO) as [C _]. pose proof (zlen_nonneg got).
    replace (Z.to_nat (q + 1 - q0)) with (Z.to_nat (q - q0) + 1)%nat by lia.
    rewrite IH. rewrite <- (firstn_skipn (Z.to_nat (q - q0)) (firstn (Z.to_nat (q - q0) + 1) (skipn (Z.to_nat q0) h))).
    rewrite firstn_firstn, Nat.min_l by lia. f_equal. rewrite skipn_firstn_comm. replace (Z.to_nat (q - q0) + 1 - Z.to_nat (q - q0))%nat with 1%nat by lia.
    rewrite skipn_skipn. replace (Z.to_nat q0 + Z.to_nat (q - q0))%nat with (Z.to_nat q) by lia.
    rewrite (skipn_cons_nth [] (Z.to_nat q) h) by (unfold zlen in B; lia). cbn [firstn]. reflexivity.
  - destruct (follow_count _ _ _ _ _ _ FO) as [_ C]. assert (j = 0) by lia. subst j. rewrite Z.add_0_r. apply IH; [exact P|lia].
Qed.

Section Run.
Variables (r : ring) (W : nat -> world) (A : nat -> action) (V : nat -> list event).
Hypothesis FV : forever steady r W A V.
Notation rp := (rp W V). Notation avail := (avail W).
Hypothesis Hf : r_farm r = true.
Notation q c i := (c_q (cli (W i) c)).

Lemma f_mono d j : c_live (cli (W j) d) = true -> c_live (cli (W (S j)) d) = true -> q d j <= q d (S j).
Proof.
  intros L L'. destruct (reach_inv _ _ _ _ steady_contract (fv_reach _ _ _ _ FV j)) as (fsz & F & X & B & WW & HP & HB & EF & _).
  apply (q_mono _ _ _ _ _ _ _ WW (steady_contract _ _ (fv_act _ _ _ _ _ FV j)) (fv_step _ _ _ _ _ FV j)); [congruence|apply HB; congruence|exact L|exact L'].
Qed.
Lemma f_kept j : ring_retained (w_ring (W j)) = [] -> committed (upto V j) = [].
Proof.
  induction j as [|j IH]; [reflexivity|]. intros H. cbn [upto]. rewrite committed_app.
  destruct (fv_facts _ _ _ _ FV j) as (_ & _ & _ & _ & _ & _ & _ & EE). revert H.
  destruct EE as [ev r' D1 D2 D3 U RT _|c v so t r' U RT _ _ _ _|c iov0 rs dropped wok r' D1 D2 D3 D4 D5 D6 U RT _|c v buf iov0 av ln niov r' D1 D2 D3 taken D4 D5 D6 U RT _]; intros H; rewrite RT in H.
  - rewrite (IH H), D1. reflexivity.
  - rewrite (IH H). reflexivity.
  - apply app_eq_nil in H. destruct H as [_ H]. destruct D4 as [D4 _]. contradiction.
  - rewrite (IH H). reflexivity.
Qed.
Lemma f_room d j : avail j d <> [] -> 0 < r_n r /\ exists m t, avail j d = m :: t /\ zlen m <= r_n r.
Proof.
  intros NA. destruct (fv_facts _ _ _ _ FV j) as (J & _ & _ & E & _).
  destruct (reach_inv _ _ _ _ steady_contract (fv_reach _ _ _ _ FV j)) as (fsz & _ & _ & _ & WW & _). destruct (wi_dims _ _ _ WW) as (_ & E2 & _). cbn in E2.
  pose proof (f_farm_unread r _ _ (fv_contract _ _ _ _ FV j) Hf) as UR.
  unfold Fair.avail, available in *. rewrite E, Hf in *. rewrite <- UR in *.
  destruct (skipn _ (ring_unread (w_ring (W j)))) as [|m t] eqn:ES; [contradiction|].
  assert (IU : In m (ring_unread (w_ring (W j)))).
  { rewrite <- (firstn_skipn (Z.to_nat (q d j - r_q (w_ring (W j)))) (ring_unread (w_ring (W j)))), ES. apply in_or_app. right. left. reflexivity. }
  assert (BM : zlen m <= r_n (w_ring (W j))).
  { pose proof (unread_bounds _ _ (i_inv0 _ _ J)) as [UB _]. apply in_split in IU. destruct IU as (l1 & l2 & IU). rewrite IU in UB. unfold nbytes in UB.
    rewrite concat_app, zlen_app in UB. cbn [concat] in UB. rewrite zlen_app in UB. pose proof (zlen_nonneg (concat l1)). pose proof (zlen_nonneg (concat l2)). lia. }
  assert (0 < zlen m).
  { assert (HI : In m (committed (upto V j))).
    { rewrite (unread_eq _ _ (i_inv0 _ _ J)) in IU. unfold lastn in IU. rewrite <- (firstn_skipn (Z.to_nat (zlen (committed (upto V j)) - r_m (w_ring (W j)))) (committed (upto V j))). apply in_or_app. right. exact IU. }
    pose proof (w_ne _ _ _ (i_win _ _ (i_inv0 _ _ J))) as NN. unfold nonempty in NN. rewrite Forall_forall in NN. apply (NN _ HI). }
  split; [lia|]. exists m, t. split; [reflexivity|lia].
Qed.

Lemma f_end d i0 buf niov j : keeps_reading r W A V d i0 -> (i0 <= j)%nat -> rp d buf niov j -> ends d (V j) ->
  q d j < q d (S j) \/ (asleep (W j) d = true /\ pending d (upto V (S j)) = None).
Proof.
  intros K Hj [Pd NA] HE. pose proof (fv_step _ _ _ _ _ FV j) as HS. pose proof (ends_actor _ _ _ _ _ HS HE) as AC.
  destruct (kr_live _ _ _ _ _ _ K j Hj) as [L _]. destruct (kr_live _ _ _ _ _ _ K (S j) ltac:(lia)) as [L' _].
  destruct (kr_calls _ _ _ _ _ _ K j _ Hj Pd) as (b0 & n0 & E & Hb & Hn). injection E as <- <-.
  destruct (reach_inv _ _ _ _ steady_contract (fv_reach _ _ _ _ FV j)) as (fsz & F & X & B & WW & HP & HB & EF & _).
  assert (NI : c_pc (cli (W j) d) <> Idle) by (intros E; specialize (HP d); rewrite E, Pd in HP; discriminate).
  destruct (A j) as [e fl pid|c1 y|c1 e|c1|c1|c1 fd|c1] eqn:Ea; cbn [actor] in AC; try discriminate AC; injection AC as ->.
  - cbn [step] in HS. rewrite L in HS. cbn [negb] in HS. exfalso. destruct (c_pc (cli (W j) d)); try contradiction; injection HS as _ EV; rewrite <- EV in HE; destruct HE as [[x []]|[]].
  - destruct (asleep (W j) d) eqn:As.
    { exfalso. cbn [step] in HS. rewrite L in HS. unfold run_client in HS. unfold asleep in As. destruct (c_pc (cli (W j) d)); try discriminate As; injection HS as _ EV; rewrite <- EV in HE; destruct HE as [[x []]|[]]. }
    left. pose proof (kr_lock _ _ _ _ _ _ K j e Hj Ea) as He.
    destruct (read_step _ _ _ _ _ _ _ _ _ WW HP HB Pd As HS He) as (_ & _ & RT & _ & _ & _ & [(EA & _)|(_ & EA & _ & EV)]); [contradiction|].
    destruct (f_room d j NA) as (_ & m & t & EM & Hm).
    pose proof (f_next _ _ _ d (fv_contract _ _ _ _ FV j) Hf L) as N1.
    pose proof (f_next _ _ _ d (fv_contract _ _ _ _ FV (S j)) Hf L') as N2.
    change (available (w_ring (W j)) (q d j)) with (avail j d) in *. rewrite EA in N2. clear EA.
    assert (EC : committed (upto V (S j)) = committed (upto V j)) by (cbn [upto]; rewrite EV, committed_app; cbn; apply app_nil_r).
    assert (EE : eldest (upto V (S j)) (w_ring (W (S j))) = eldest (upto V j) (w_ring (W j))) by (unfold eldest; rewrite EC, RT; reflexivity).
    rewrite EC, EE in N2. set (h := committed (upto V j)) in *. set (old := eldest (upto V j) (w_ring (W j))) in *.
    destruct (Z.lt_ge_cases (q d j) (q d (S j))) as [|GE]; [assumption|exfalso].
    assert (LT : (0 < length (take_fit (Z.to_nat niov) (usable buf) (avail j d)))%nat).
    { rewrite EM. replace (Z.to_nat niov) with (S (Z.to_nat (niov - 1))) by lia. cbn [take_fit]. assert (LE : zlen m <=? usable buf = true) by (apply Z.leb_le; lia). rewrite LE. cbn. lia. }
    apply (f_equal (@length _)) in N2. rewrite N1 in N2 at 2. rewrite !skipn_length in N2.
    assert (0 < length (avail j d))%nat by (rewrite EM; cbn; lia). rewrite N1 in H. rewrite skipn_length in H. rewrite N1 in LT, N2. rewrite ?skipn_length in N2. lia.
  - exfalso. apply step_inv in HS. inversion HS; subst;
      try (match goal with H : AWake _ = _ /\ _ \/ _ |- _ => destruct H as [[? _]|[[? ?] _]]; discriminate end);
      match goal with H : [] = V j |- _ => rewrite <- H in HE; destruct HE as [[x []]|[]] end.
  - right. cbn [step] in HS. unfold wait_failed in HS. specialize (HP d). unfold asleep. destruct (c_pc (cli (W j) d)) as [ |k iov len nb|k iov len nb|? ?|? ?| | |?|g0 s0 z0] eqn:Epc;
      try (exfalso; injection HS as _ EV; rewrite <- EV in HE; destruct HE as [[x []]|[]]; fail).
    + exfalso. cbn [pc_for] in HP. rewrite Pd in HP. destruct k; destruct HP as [? HQ]; try discriminate. destruct HQ; discriminate.
    + split; [reflexivity|]. injection HS as _ EV. cbn [upto]. rewrite <- EV, pending_app. cbn [fold_left]. rewrite is_refl. reflexivity.
  - right. cbn [step] in HS. destruct (wait_sid (cli (W j) d)) as [[s p]|]; [|exfalso; injection HS as _ EV; rewrite <- EV in HE; destruct HE as [[x []]|[]]].
    destruct (existsb _ p); [|exfalso; injection HS as _ EV; rewrite <- EV in HE; destruct HE as [[x []]|[]]].
    unfold wait_failed in HS. specialize (HP d). unfold asleep. destruct (c_pc (cli (W j) d)) as [ |k iov len nb|k iov len nb|? ?|? ?| | |?|g0 s0 z0] eqn:Epc;
      try (exfalso; injection HS as _ EV; rewrite <- EV in HE; destruct HE as [[x []]|[]]; fail).
    + exfalso. cbn [pc_for] in HP. rewrite Pd in HP. destruct k; destruct HP as [? HQ]; try discriminate. destruct HQ; discriminate.
    + split; [reflexivity|]. injection HS as _ EV. cbn [upto]. rewrite <- EV, pending_app. cbn [fold_left]. rewrite is_refl. reflexivity.
  - exfalso. cbn [step] in HS. rewrite L in HS. cbn [negb] in HS. injection HS as EW _. rewrite <- EW in L'. rewrite cli_setc_same in L' by (apply live_bound; exact L). discriminate.
Qed.

(** the next read takes something *)
Lemma f_drain d i : keeps_reading r W A V d i -> forall j, (i <= j)%nat -> avail j d <> [] -> exists k, (j <= k)%nat /\ q d k < q d (S k).
Proof.
  intros K. pose proof (kr_fair _ _ _ _ _ _ K) as F.
  assert (LV : forall j, (i <= j)%nat -> c_live (cli (W j) d) = true) by (intros j Hj; apply (kr_live _ _ _ _ _ _ K j Hj)).
  assert (RQ : forall k, rq r W V d k -> ends d (V k)) by (intros k [Q|(Q & _)]; [exact Q|congruence]).
  assert (B2 : forall j, (i <= j)%nat -> avail j d <> [] -> pending d (upto V j) <> None -> asleep (W j) d = false -> exists k, (j <= k)%nat /\ q d k < q d (S k)).
  { intros j Hj NE Pd As. destruct (pending d (upto V j)) as [x|] eqn:Px; [|contradiction]. destruct (kr_calls _ _ _ _ _ _ K j x Hj Px) as (buf & niov & -> & _).
    destruct (l_awake _ _ _ _ FV d buf niov j F) as (k & Hk & Rk & Ak & Q); [split; assumption|exact As|].
    destruct (f_end d i buf niov k K) as [Q'|[Q' _]]; [lia|exact Rk|apply RQ; exact Q|exists k; auto|congruence]. }
  assert (STAY : forall j, (i <= j)%nat -> avail j d <> [] -> q d j < q d (S j) \/ avail (S j) d <> []).
  { intros j Hj NE. pose proof (f_mono d j (LV j Hj) (LV (S j) ltac:(lia))). destruct (Z.eq_dec (q d (S j)) (q d j)) as [E|N]; [|left; lia].
    destruct (fv_avail _ _ _ _ FV j d (LV j Hj) E NE) as [Q|(Q & _)]; [auto|congruence]. }
  assert (B1 : forall j, (i <= j)%nat -> avail j d <> [] -> pending d (upto V j) = None -> exists k, (j <= k)%nat /\ q d k < q d (S k)).
  { intros j Hj NE Pd. destruct (kr_again _ _ _ _ _ _ K j) as (k & Hk & D).
    assert (ST : forall n, (i <= n)%nat -> avail n d <> [] -> pending d (upto V n) = None -> (exists k, (n <= k)%nat /\ q d k < q d (S k)) \/ (avail (S n) d <> [] /\ pending d (upto V (S n)) = None)).
    { intros n Hn NEn Pn. destruct (STAY n Hn NEn) as [Q|NE']; [left; exists n; auto|].
      destruct (pending d (upto V (S n))) as [x|] eqn:Px; [left|right; auto].
      destruct (idle_step r W A V FV d n) as [Q|Q]; [apply LV; lia|apply LV; lia|exact Pn|congruence|].
      destruct (B2 (S n)) as (k' & Hk' & Q'); [lia|exact NE'|congruence|exact Q|exists k'; split; [lia|exact Q']]. }
    destruct (until (fun n => (i <= n)%nat /\ avail n d <> [] /\ pending d (upto V n) = None) (fun n => exists k, (n <= k)%nat /\ q d k < q d (S k))) with (n := (k - j)%nat) (i := j) as [(n & Hn & k' & Hk' & Q)|(Hn & NEk & Pk)].
    - intros n (Hn & NEn & Pn). destruct (ST n Hn NEn Pn) as [Q|Q]; [left; exact Q|right; split; [lia|exact Q]].
    - auto.
    - exists k'. split; [lia|exact Q].
    - replace (j + (k - j))%nat with k in * by lia. destruct D as [D|[(buf & niov & Ea & Hb & Hn')|(NBk & NR)]]; [contradiction| |].
      2: { exfalso. destruct (kr_live _ _ _ _ _ _ K k Hn) as [Lk RDk]. destruct (reader_registered r (W k) (upto V k) d) as (s & Hs); [apply (fv_contract _ _ _ _ FV)|exact Lk|exact RDk|].
           apply (NR s Hs). apply (f_ready r _ _ d s (fv_reach _ _ _ _ FV k) Hs NBk). exact NEk. }
      destruct (ST k Hn NEk Pk) as [(k' & Hk' & Q)|[NE' P']]; [exists k'; split; [lia|exact Q]|]. exfalso.
      destruct (kr_live _ _ _ _ _ _ K k Hn) as [L RD]. pose proof (fv_step _ _ _ _ _ FV k) as HS. rewrite Ea in HS. cbn [step] in HS. rewrite L in HS. cbn [negb] in HS.
      destruct (fv_facts _ _ _ _ FV k) as (J & HP & _). specialize (HP d). rewrite Pk in HP.
      destruct (c_pc (cli (W k) d)) as [ |[| | |] ? ? ?|[| | |] ? ? ?|? ?|? ?| | |?|g0 s0 z0] eqn:Hpc; cbn [pc_for] in HP; try discriminate; try (destruct HP as [? ?]; discriminate); try (destruct HP as (? & ? & ?); discriminate).
      cbn [start_call] in HS. rewrite RD in HS.
      destruct (f_room d k NEk) as (RN & _).
      assert (ZB : (zlen buf =? 0) || (niov =? 0) = false).
      { apply orb_false_intro; apply Z.eqb_neq; [unfold usable in Hb|]; lia. }
      rewrite ZB in HS. cbn [obind] in HS. injection HS as _ EV. cbn [upto] in P'. rewrite <- EV, pending_app in P'. cbn [fold_left rets map] in P'. rewrite is_refl in P'. discriminate. }
  intros j Hj NE. destruct (pending d (upto V j)) as [x|] eqn:Px; [|apply B1; assumption].
  destruct (kr_calls _ _ _ _ _ _ K j x Hj Px) as (buf & niov & -> & _).
  destruct (l_read _ _ _ _ FV d buf niov j F) as (k & Hk & Rk & Q); [split; assumption|].
  destruct (f_end d i buf niov k K) as [Q'|[_ Q']]; [lia|exact Rk|apply RQ; exact Q|exists k; auto|].
  destruct (STAY k) as [Q2|Q2]; [lia|apply Rk|exists k; auto|].
  destruct (B1 (S k)) as (k' & Hk' & Q3); [lia|exact Q2|exact Q'|exists k'; split; [lia|exact Q3]].
Qed.

Lemma f_past d i0 : keeps_reading r W A V d i0 -> forall i, (i0 <= i)%nat ->
  exists j, (i <= j)%nat /\ zlen (committed (upto V i)) <= q d j.
Proof.
  intros K i Hi. set (N := zlen (committed (upto V i))).
  assert (LV : forall j, (i0 <= j)%nat -> c_live (cli (W j) d) = true) by (intros j Hj; apply (kr_live _ _ _ _ _ _ K j Hj)).
  assert (UP : forall j k, (i0 <= j)%nat -> (j <= k)%nat -> q d j <= q d k).
  { intros j k Hj Hk. induction Hk as [|k Hk IH]; [lia|]. pose proof (f_mono d k (LV k ltac:(lia)) (LV (S k) ltac:(lia))). lia. }
  assert (MAIN : forall n j, (i <= j)%nat -> N <= q d j + Z.of_nat n -> exists k, (j <= k)%nat /\ N <= q d k).
  { induction n as [|n IH]; intros j Hj HL; [exists j; split; lia|].
    destruct (avail j d) eqn:EA.
    - exists j. split; [lia|]. pose proof (f_next _ _ _ d (fv_contract _ _ _ _ FV j) Hf (LV j ltac:(lia))) as N1.
      change (available (w_ring (W j)) (q d j)) with (avail j d) in N1. rewrite EA in N1.
      destruct (upto_app V i j Hj) as (l & EL).
      apply (f_equal (@length _)) in N1. rewrite skipn_length in N1. cbn [length] in N1.
      assert (LN : N <= zlen (committed (upto V j))) by (rewrite EL, committed_app, zlen_app; pose proof (zlen_nonneg (committed l)); subst N; lia).
      destruct (Z.le_gt_cases N (q d j)) as [|GT]; [assumption|exfalso].
      destruct (fv_facts _ _ _ _ FV j) as (_ & _ & _ & _ & HQ & _). specialize (HQ d (LV j ltac:(lia)) Hf).
      assert (NR : ring_retained (w_ring (W j)) = []).
      { unfold eldest, zlen in *. destruct (ring_retained (w_ring (W j))); [reflexivity|cbn [length] in *; lia]. }
      pose proof (f_kept _ NR) as EC. rewrite EC in LN. change (zlen []) with 0 in LN.
      lia.
    - destruct (f_drain d i0 K j ltac:(lia)) as (k & Hk & SH); [congruence|].
      pose proof (UP j k ltac:(lia) Hk). destruct (IH (S k)) as (k' & Hk' & Q); [lia|lia|]. exists k'. split; [lia|exact Q]. }
  apply (MAIN (Z.to_nat (N - q d i)) i); lia.
Qed.

(** in terms of what the reader sees *)
Theorem f_farm_past d i0 : keeps_reading r W A V d i0 -> forall i, (i0 <= i)%nat ->
  exists j pre flags post w1, (i <= j)%nat /\ upto V j = pre ++ EOpen flags (Some d) :: post /\ reach contract r w1 pre
    /\ zlen (committed (upto V i)) <= eldest pre (w_ring w1) + zlen (delivered_to d (upto V j)) + (lost_reported d (upto V j) + c_md (cli (W j) d))
    /\ (lost_reported d (upto V j) + c_md (cli (W j) d) = 0 ->
        exists more, delivered_to d (upto V j) = skipn (Z.to_nat (eldest pre (w_ring w1))) (committed (upto V i)) ++ more).
Proof.
  intros K i Hi. destruct (f_past d i0 K i Hi) as (j & Hj & Q).
  destruct (kr_live _ _ _ _ _ _ K j ltac:(lia)) as [L _].
  destruct (f_follow r _ _ d (fv_contract _ _ _ _ FV j) Hf L) as (pre & flags & post & w1 & E & R1 & FO).
  exists j, pre, flags, post, w1. split; [exact Hj|]. split; [exact E|]. split; [exact R1|].
  destruct (follow_count _ _ _ _ _ _ FO) as [FC _]. split; [lia|]. intros Z0.
  assert (E0 : 0 <= eldest pre (w_ring w1)).
  { destruct (reach_inv _ _ _ _ id_contract R1) as (fsz & _ & _ & _ & WW & _). rewrite (eldest_mp _ _ _ WW).
    pose proof (w_old _ _ _ (i_win _ _ (i_inv0 _ _ (wi_ring _ _ _ WW)))). pose proof (i_m _ _ (i_inv0 _ _ (wi_ring _ _ _ WW))). lia. }
  rewrite Z0 in FO. pose proof (follow_got _ _ _ _ _ _ FO E0 eq_refl) as G.
  destruct (upto_app V i j Hj) as (l & EL). rewrite EL, committed_app in G. rewrite skipn_app in G.
  set (s := skipn (Z.to_nat (eldest pre (w_ring w1))) (committed (upto V i))) in *.
  rewrite firstn_app in G. rewrite firstn_all2 in G.
  - rewrite EL. eexists. exact G.
  - unfold s. rewrite skipn_length. unfold zlen in *. lia.
Qed.
End Run.

Theorem f_farm_loop r W A V : forever steady r W A V -> r_farm r = true -> forall d i0, event_loop r W A V d i0 ->
  forall i, (i0 <= i)%nat -> exists j pre flags post w1, (i <= j)%nat
    /\ upto V j = pre ++ EOpen flags (Some d) :: post /\ reach contract r w1 pre
    /\ zlen (committed (upto V i)) <= eldest pre (w_ring w1) + zlen (delivered_to d (upto V j)) + (lost_reported d (upto V j) + c_md (cli (W j) d))
    /\ (lost_reported d (upto V j) + c_md (cli (W j) d) = 0 ->
        exists more, delivered_to d (upto V j) = skipn (Z.to_nat (eldest pre (w_ring w1))) (committed (upto V i)) ++ more).
Proof. intros FV Hf d i0 E. apply (f_farm_past r W A V FV Hf d i0 (el_reads r W A V FV d i0 E)). Qed.
