(** * A reader that keeps reading lets the only writer's calls end *)
From Verif Require Export Fair.

Lemma rets_in c x c0 rs : In (ERet c x) (rets c0 rs) -> c0 = c.
Proof. unfold rets. intros H. apply in_map_iff in H. destruct H as (? & H & _). congruence. Qed.
Lemma rets_nocrash c c0 rs : ~ In (ECrash c) (rets c0 rs).
Proof. unfold rets. intros H. apply in_map_iff in H. destruct H as (? & H & _). congruence. Qed.
Lemma ends_actor w a w' ev c : step w a = Ok (w', ev) -> ends c ev -> actor a = Some c.
Proof.
  intros HS HE. apply step_inv in HS.
  assert (GO : forall c0 l rs, (forall e, In e l -> match e with ERet c1 _ => c1 = c0 | ECrash c1 => c1 = c0 | _ => True end) -> ends c (l ++ rets c0 rs) -> Some c0 = Some c).
  { intros c0 l rs G [[x H]|H]; apply in_app_or in H; destruct H as [H|H].
    - apply G in H. congruence.
    - apply rets_in in H. congruence.
    - apply G in H. congruence.
    - elim (rets_nocrash _ _ _ H). }
  inversion HS; subst; cbn [actor];
    try (match goal with H : a = AEintr _ /\ _ \/ _ |- _ => destruct H as [[-> _]|[[fd ->] _]] end; cbn [actor]);
    try (destruct HE as [[? [HE|[]]]|[HE|[]]]; congruence);
    try (destruct HE as [[? []]|[]]; fail);
    try (apply (GO _ [] rs); [intros ? []|exact HE]).
  - apply (GO _ [ECall c0 x] rs); [intros ? [<-|[]]; exact Logic.I|exact HE].
  - apply (GO _ [ECommit c0 iov] rs); [intros ? [<-|[]]; exact Logic.I|exact HE].
Qed.

(** *** progress of a call that is not a read *)
Definition rank (p : pc) : nat :=
  match p with
  | Idle | RunR _ _ | WaitR _ _ => 0
  | RunClose | RunStat _ | RunApp _ _ _ => 1
  | RunW (KThen _ _) _ _ _ | WaitW (KThen _ _) _ _ _ | RunOpenR2W => 3
  | RunW _ _ _ _ | WaitW _ _ _ _ => 2
  end%nat.
Definition isW (p : pc) : bool := match p with RunW _ _ _ _ => true | _ => false end.

Lemma ends_ret c l y rs : ends c (l ++ rets c (y :: rs)).
Proof. left. exists y. apply in_or_app. right. left. reflexivity. Qed.
Lemma rank_end cl k iov v cl' rs : end_write cl k iov v = Ok (cl', rs) -> rs = [] -> (rank (c_pc cl') < rank (RunW k iov 0 false))%nat.
Proof.
  intros E ->. destruct k as [|iov' len'| |]; cbn [end_write] in E; try discriminate E.
  - destruct (v <=? 0); [discriminate|]. unfold go_write in E. cbn [c_flags set] in E.
    destruct (has (c_flags cl) SHR_BUFFERED); [|inj E; cbn; lia].
    destruct (_ && _); [apply obind_ok in E; destruct E as (? & _ & E); discriminate|]. cbn [c_cache set clear_cache ca_n] in E. cbn [Z.eqb] in E. inj E. cbn. lia.
  - inj E. cbn. lia.
Qed.
Lemma run_rank0 w c e w' ev x : (forall b n, x <> CRead b n) -> c_live (cli w c) = true -> asleep w c = false -> pc_for (c_flags (cli w c)) (c_pc (cli w c)) (Some x) ->
  step w (ARun c e) = Ok (w', ev) ->
  ends c ev \/ ((rank (c_pc (cli w' c)) <= rank (c_pc (cli w c)))%nat
    /\ ((exists ms, In (ECommit c ms) ev) \/ isW (c_pc (cli w c)) = false -> (rank (c_pc (cli w' c)) < rank (c_pc (cli w c)))%nat)).
Proof.
  intros NR L As HP HS. pose proof (live_bound _ _ L) as LB. pose proof HS as HS0. cbn [step] in HS. rewrite L in HS.
  unfold asleep in As. destruct (c_pc (cli w c)) as [ |k iov len nb|k iov len nb|b n|b n| | |t|g0 s0 z0] eqn:Hpc; cbn [pc_for] in HP; try discriminate.
  - apply step_inv in HS0. inversion HS0; subst;
      try (match goal with H : ARun _ _ = _ /\ _ \/ _ |- _ => destruct H as [[? _]|[[? ?] _]]; discriminate end); try congruence.
    + right. rewrite Hpc. split; [lia|]. intros [(? & [])|?]; discriminate.
    + match goal with H : c_pc (cli w c) = RunW ?k1 ?i1 _ _ |- _ => rewrite Hpc in H; injection H as <- <- <- <- end.
      destruct rs as [|y rs]; [|left; apply (ends_ret c [])]. right. rewrite cli_setc_same by exact LB.
      match goal with H : end_write _ _ _ _ = _ |- _ => pose proof (rank_end _ _ _ _ _ _ H eq_refl) as RE end. destruct k; cbn [rank] in *; split; intros; lia.
    + match goal with H : c_pc (cli w c) = RunW ?k1 ?i1 _ _ |- _ => rewrite Hpc in H; injection H as <- <- <- end.
      right. rewrite cli_setc_same by exact LB. cbn [c_pc set]. split; [destruct k; cbn [rank]; lia|]. intros [(? & [])|?]; discriminate.
    + match goal with H : c_pc (cli w c) = RunW ?k1 ?i1 _ _ |- _ => rewrite Hpc in H; injection H as <- <- <- <- end.
      destruct rs as [|y rs]; [|left; apply (ends_ret c [_])]. right. rewrite cli_setc_same by exact LB.
      match goal with H : end_write _ _ _ _ = _ |- _ => pose proof (rank_end _ _ _ _ _ _ H eq_refl) as RE end. destruct k; cbn [rank] in *; split; intros; lia.
  - exfalso. injection HP as E. apply (NR _ _ E).
  - unfold run_client in HS. rewrite Hpc in HS. destruct (e_lock e); cbn [negb] in HS; [|inj HS; left; apply (ends_ret c [] _ [])].
    destruct (bw_open_wait _ _ _ _ _) as [[ks h] [b|]]; [|inj HS; left; apply (ends_ret c [] _ [])].
    apply obind_ok in HS. destruct HS as ([cl rs] & E & HS). injection HS as <- <-. destruct rs as [|y rs]; [|left; apply (ends_ret c [])]. right.
    rewrite cli_setc_same by exact LB. unfold flush_write in E. apply obind_ok in E. destruct E as (ms & _ & E). destruct (wr_check _ _ _); [|discriminate]. inj E. cbn [c_pc set rank]. split; intros; lia.
  - unfold run_client in HS. rewrite Hpc in HS. inj HS. left. apply (ends_ret c [] _ []).
  - unfold run_client in HS. rewrite Hpc in HS. destruct (do_stat _ _ _ _). inj HS. left. apply (ends_ret c [] _ []).
  - unfold run_client in HS. rewrite Hpc in HS. apply obind_ok in HS. destruct HS as ([? ?] & _ & HS). inj HS. left. apply (ends_ret c [] _ []).
Qed.

Section Run.
Variables (r : ring) (W : nat -> world) (A : nat -> action) (V : nat -> list event).
Hypothesis FV : forever steady r W A V.
Notation rp := (rp W V). Notation rq := (rq r W V). Notation shrunk := (shrunk W). Notation avail := (avail W).

Lemma nf_avail i c : r_farm r = false -> avail i c = ring_unread (w_ring (W i)).
Proof. intros Hf. unfold Fair.avail, available. destruct (fv_facts _ _ _ _ FV i) as (_ & _ & _ & E & _). rewrite E, Hf. reflexivity. Qed.

(** the read of a client that keeps reading ends well, or is interrupted in its sleep *)
Lemma rd_end d i0 buf niov j : keeps_reading r W A V d i0 -> r_farm r = false -> (i0 <= j)%nat -> rp d buf niov j -> ends d (V j) ->
  shrunk j \/ (asleep (W j) d = true /\ pending d (upto V (S j)) = None).
Proof.
  intros K Hf Hj [Pd NA] HE. pose proof (fv_step _ _ _ _ _ FV j) as HS. pose proof (ends_actor _ _ _ _ _ HS HE) as AC.
  destruct (kr_live _ _ _ _ _ _ K j Hj) as [L _]. destruct (kr_live _ _ _ _ _ _ K (S j) ltac:(lia)) as [L' _].
  destruct (kr_calls _ _ _ _ _ _ K j _ Hj Pd) as (b0 & n0 & E & Hb & Hn). injection E as <- <-.
  destruct (reach_inv _ _ _ _ steady_contract (fv_reach _ _ _ _ FV j)) as (fsz & F & X & B & WW & HP & HB & EF & _).
  assert (NI : c_pc (cli (W j) d) <> Idle) by (intros E; specialize (HP d); rewrite E, Pd in HP; discriminate).
  destruct (A j) as [e fl pid|c1 y|c1 e|c1|c1|c1 fd|c1] eqn:Ea; cbn [actor] in AC; try discriminate AC; injection AC as ->.
  - cbn [step] in HS. rewrite L in HS. cbn [negb] in HS. exfalso. destruct (c_pc (cli (W j) d)); try contradiction; injection HS as _ EV; rewrite <- EV in HE; destruct HE as [[x []]|[]].
  - destruct (asleep (W j) d) eqn:As.
    { exfalso. cbn [step] in HS. rewrite L in HS. unfold run_client in HS. unfold asleep in As. destruct (c_pc (cli (W j) d)); try discriminate As; injection HS as _ EV; rewrite <- EV in HE; destruct HE as [[x []]|[]]. }
    left. pose proof (kr_lock _ _ _ _ _ _ K j e Hj Ea) as He.
    destruct (read_step _ _ _ _ _ _ _ _ _ WW HP HB Pd As HS He) as (_ & _ & _ & _ & _ & _ & [(EA & _)|(_ & EA & _ & _)]); [contradiction|].
    change (avail (S j) d = skipn (length (take_fit (Z.to_nat niov) (usable buf) (avail j d))) (avail j d)) in EA. rewrite !(nf_avail _ _ Hf) in EA.
    rewrite (nf_avail _ _ Hf) in NA. unfold Fair.shrunk. rewrite EA, skipn_length.
    destruct (ring_unread (w_ring (W j))) as [|m t] eqn:EU; [contradiction|].
    assert (Hm : zlen m <= usable buf).
    { pose proof (unread_bounds _ _ (i_inv0 _ _ (wi_ring _ _ _ WW))) as [UB _]. rewrite EU in UB. unfold nbytes in UB. cbn [concat] in UB. rewrite zlen_app in UB. pose proof (zlen_nonneg (concat t)).
      destruct (wi_dims _ _ _ WW) as (_ & E2 & _). cbn in E2. lia. }
    replace (Z.to_nat niov) with (S (Z.to_nat (niov - 1))) by lia. cbn [take_fit length]. apply Z.leb_le in Hm. rewrite Hm. cbn [length]. lia.
  - exfalso. apply step_inv in HS. inversion HS; subst;
      try (match goal with H : AWake _ = _ /\ _ \/ _ |- _ => destruct H as [[? _]|[[? ?] _]]; discriminate end);
      match goal with H : [] = V j |- _ => rewrite <- H in HE; destruct HE as [[x []]|[]] end.
  - right. cbn [step] in HS. unfold wait_failed in HS. specialize (HP d). unfold asleep. destruct (c_pc (cli (W j) d)) as [ |k iov len nb|k iov len nb|? ?|? ?| | |?|g0 s0 z0] eqn:Epc;
      try (exfalso; injection HS as _ EV; rewrite <- EV in HE; destruct HE as [[x []]|[]]; fail).
    + exfalso. cbn [pc_for] in HP. rewrite Pd in HP. destruct k; destruct HP as [? ?]; try discriminate. destruct H; discriminate.
    + split; [reflexivity|]. injection HS as _ EV. cbn [upto]. rewrite <- EV, pending_app. cbn [fold_left]. rewrite is_refl. reflexivity.
  - right. cbn [step] in HS. destruct (wait_sid (cli (W j) d)) as [[s p]|]; [|exfalso; injection HS as _ EV; rewrite <- EV in HE; destruct HE as [[x []]|[]]].
    destruct (existsb _ p); [|exfalso; injection HS as _ EV; rewrite <- EV in HE; destruct HE as [[x []]|[]]].
    unfold wait_failed in HS. specialize (HP d). unfold asleep. destruct (c_pc (cli (W j) d)) as [ |k iov len nb|k iov len nb|? ?|? ?| | |?|g0 s0 z0] eqn:Epc;
      try (exfalso; injection HS as _ EV; rewrite <- EV in HE; destruct HE as [[x []]|[]]; fail).
    + exfalso. cbn [pc_for] in HP. rewrite Pd in HP. destruct k; destruct HP as [? ?]; try discriminate. destruct H; discriminate.
    + split; [reflexivity|]. injection HS as _ EV. cbn [upto]. rewrite <- EV, pending_app. cbn [fold_left]. rewrite is_refl. reflexivity.
  - exfalso. cbn [step] in HS. rewrite L in HS. cbn [negb] in HS. injection HS as EW _. rewrite <- EW in L'. rewrite cli_setc_same in L' by (apply live_bound; exact L). discriminate.
Qed.

(** from idle to inside a call, awake *)
Lemma idle_step d j : c_live (cli (W j) d) = true -> c_live (cli (W (S j)) d) = true -> pending d (upto V j) = None ->
  pending d (upto V (S j)) = None \/ asleep (W (S j)) d = false.
Proof.
  intros L L' Pd. pose proof (fv_step _ _ _ _ _ FV j) as HS.
  destruct (reach_inv _ _ _ _ steady_contract (fv_reach _ _ _ _ FV j)) as (fsz & F & X & B & WW & HP & HB & EF & _).
  assert (Hpc : c_pc (cli (W j) d) = Idle).
  { specialize (HP d). rewrite Pd in HP. destruct (c_pc (cli (W j) d)) as [ |[| | |] ? ? ?|[| | |] ? ? ?|? ?|? ?| | |?|g0 s0 z0]; cbn [pc_for] in HP; try reflexivity; try discriminate;
      destruct HP as [? ?]; try discriminate; destruct H; discriminate. }
  assert (As : asleep (W j) d = false) by (unfold asleep; rewrite Hpc; reflexivity).
  assert (SAME : V j = [] -> pending d (upto V (S j)) = None) by (intros E; cbn [upto]; rewrite E, app_nil_r; exact Pd).
  assert (HA : actor (A j) = Some d \/ actor (A j) <> Some d).
  { destruct (actor (A j)) as [c1|]; [|right; discriminate]. destruct (Nat.eq_dec c1 d) as [->|N]; [left; reflexivity|right; congruence]. }
  destruct HA as [HA|HA].
  2: { left. destruct (step_other _ _ _ _ _ _ _ WW (steady_contract _ _ (fv_act _ _ _ _ _ FV j)) HS HA (live_bound _ _ L)) as (_ & P & _). cbn [upto]. rewrite P. exact Pd. }
  destruct (A j) as [e fl pid|c1 y|c1 e|c1|c1|c1 fd|c1] eqn:Ea; cbn [actor] in HA; try discriminate HA; injection HA as ->; cbn [step] in HS.
  - rewrite L, Hpc in HS. cbn [negb] in HS. apply obind_ok in HS. destruct HS as ([cl rs] & E & HS). injection HS as EW _. right.
    pose proof (start_call_notSl _ _ _ _ Hpc E) as NS. unfold asleep. rewrite <- EW, cli_setc_same by (apply live_bound; exact L). destruct (c_pc cl); try reflexivity; destruct NS.
  - left. apply SAME. rewrite L in HS. unfold run_client in HS. rewrite Hpc in HS. injection HS as _ <-. reflexivity.
  - left. apply SAME. unfold wait_sid in HS. rewrite Hpc in HS. injection HS as _ <-. reflexivity.
  - left. apply SAME. unfold wait_failed in HS. rewrite Hpc in HS. injection HS as _ <-. reflexivity.
  - left. apply SAME. unfold wait_sid in HS. rewrite Hpc in HS. injection HS as _ <-. reflexivity.
  - exfalso. rewrite L in HS. cbn [negb] in HS. injection HS as EW _. rewrite <- EW in L'. rewrite cli_setc_same in L' by (apply live_bound; exact L). discriminate.
Qed.

Lemma drain d i : keeps_reading r W A V d i -> r_farm r = false -> forall j, (i <= j)%nat -> ring_unread (w_ring (W j)) <> [] ->
  exists k, (j <= k)%nat /\ shrunk k.
Proof.
  intros K Hf. pose proof (kr_fair _ _ _ _ _ _ K) as F.
  assert (B2 : forall j, (i <= j)%nat -> ring_unread (w_ring (W j)) <> [] -> pending d (upto V j) <> None -> asleep (W j) d = false -> exists k, (j <= k)%nat /\ shrunk k).
  { intros j Hj NE Pd As. destruct (pending d (upto V j)) as [x|] eqn:Px; [|contradiction]. destruct (kr_calls _ _ _ _ _ _ K j x Hj Px) as (buf & niov & -> & _).
    destruct (l_awake _ _ _ _ FV d buf niov j F) as (k & Hk & Rk & Ak & [Q|(_ & _ & Q)]); [split; [exact Px|rewrite (nf_avail _ _ Hf); exact NE]|exact As| |exists k; auto].
    destruct (rd_end d i buf niov k K Hf) as [Q'|[Q' _]]; [lia|exact Rk|exact Q|exists k; auto|congruence]. }
  assert (STAY : forall j, (i <= j)%nat -> ring_unread (w_ring (W j)) <> [] -> shrunk j \/ ring_unread (w_ring (W (S j))) <> []).
  { intros j Hj NE. destruct (ring_unread (w_ring (W (S j)))) eqn:E; [left|right; discriminate]. unfold Fair.shrunk. rewrite E. destruct (ring_unread (w_ring (W j))); [contradiction|]. cbn. lia. }
  assert (B1 : forall j, (i <= j)%nat -> ring_unread (w_ring (W j)) <> [] -> pending d (upto V j) = None -> exists k, (j <= k)%nat /\ shrunk k).
  { intros j Hj NE Pd. destruct (kr_again _ _ _ _ _ _ K j) as (k & Hk & D).
    assert (ST : forall n, (i <= n)%nat -> ring_unread (w_ring (W n)) <> [] -> pending d (upto V n) = None -> (exists k, (n <= k)%nat /\ shrunk k) \/ (ring_unread (w_ring (W (S n))) <> [] /\ pending d (upto V (S n)) = None)).
    { intros n Hn NEn Pn. destruct (STAY n Hn NEn) as [Q|NE']; [left; exists n; auto|].
      destruct (pending d (upto V (S n))) as [x|] eqn:Px; [left|right; auto].
      destruct (idle_step d n) as [Q|Q]; [apply (kr_live _ _ _ _ _ _ K); lia|apply (kr_live _ _ _ _ _ _ K); lia|exact Pn|congruence|].
      destruct (B2 (S n)) as (k' & Hk' & Q'); [lia|exact NE'|congruence|exact Q|exists k'; split; [lia|exact Q']]. }
    destruct (until (fun n => (i <= n)%nat /\ ring_unread (w_ring (W n)) <> [] /\ pending d (upto V n) = None) (fun n => exists k, (n <= k)%nat /\ shrunk k)) with (n := (k - j)%nat) (i := j) as [(n & Hn & k' & Hk' & Q)|(Hn & NEk & Pk)].
    - intros n (Hn & NEn & Pn). destruct (ST n Hn NEn Pn) as [Q|Q]; [left; exact Q|right; split; [lia|exact Q]].
    - auto.
    - exists k'. split; [lia|exact Q].
    - replace (j + (k - j))%nat with k in * by lia. destruct D as [D|[(buf & niov & Ea & Hb & Hn')|(NBk & NR)]]; [contradiction| |].
      2: { exfalso. destruct (kr_live _ _ _ _ _ _ K k Hn) as [Lk RDk]. destruct (reader_registered r (W k) (upto V k) d) as (s & Hs); [apply (fv_contract _ _ _ _ FV)|exact Lk|exact RDk|].
           apply (NR s Hs). apply (f_ready r _ _ d s (fv_reach _ _ _ _ FV k) Hs NBk). change (avail k d <> []). rewrite (nf_avail _ _ Hf). exact NEk. }
      destruct (ST k Hn NEk Pk) as [(k' & Hk' & Q)|[NE' P']]; [exists k'; split; [lia|exact Q]|]. exfalso.
      destruct (kr_live _ _ _ _ _ _ K k Hn) as [L RD]. pose proof (fv_step _ _ _ _ _ FV k) as HS. rewrite Ea in HS. cbn [step] in HS. rewrite L in HS. cbn [negb] in HS.
      destruct (fv_facts _ _ _ _ FV k) as (J & HP & _). specialize (HP d). rewrite Pk in HP.
      destruct (c_pc (cli (W k) d)) as [ |[| | |] ? ? ?|[| | |] ? ? ?|? ?|? ?| | |?|g0 s0 z0] eqn:Hpc; cbn [pc_for] in HP; try discriminate; try (destruct HP as [? ?]; discriminate); try (destruct HP as (? & ? & ?); discriminate).
      cbn [start_call] in HS. rewrite RD in HS.
      assert (RN : 0 < r_n r).
      { destruct (reach_inv _ _ _ _ steady_contract (fv_reach _ _ _ _ FV k)) as (fsz & _ & _ & _ & WW & _). destruct (wi_dims _ _ _ WW) as (_ & E2 & _). cbn in E2.
        destruct (ring_unread (w_ring (W k))) as [|m t] eqn:EU; [contradiction|].
        pose proof (unread_bounds _ _ (i_inv0 _ _ J)) as [UB _]. rewrite EU in UB. unfold nbytes in UB. cbn [concat] in UB. rewrite zlen_app in UB. pose proof (zlen_nonneg (concat t)).
        assert (0 < zlen m); [|lia]. assert (HI : In m (committed (upto V k))).
        { rewrite (unread_eq _ _ (i_inv0 _ _ J)) in EU. unfold lastn in EU. rewrite <- (firstn_skipn (Z.to_nat (zlen (committed (upto V k)) - r_m (w_ring (W k)))) (committed (upto V k))). apply in_or_app. right. rewrite EU. left. reflexivity. }
        pose proof (w_ne _ _ _ (i_win _ _ (i_inv0 _ _ J))) as NN. unfold nonempty in NN. rewrite Forall_forall in NN. apply (NN _ HI). }
      assert (ZB : (zlen buf =? 0) || (niov =? 0) = false).
      { apply orb_false_intro; apply Z.eqb_neq; [unfold usable in Hb|]; lia. }
      rewrite ZB in HS. cbn [obind] in HS. injection HS as _ EV. cbn [upto] in P'. rewrite <- EV, pending_app in P'. cbn [fold_left rets map] in P'. rewrite is_refl in P'. discriminate. }
  intros j Hj NE. destruct (pending d (upto V j)) as [x|] eqn:Px; [|apply B1; assumption].
  destruct (kr_calls _ _ _ _ _ _ K j x Hj Px) as (buf & niov & -> & _).
  destruct (l_read _ _ _ _ FV d buf niov j F) as (k & Hk & Rk & [Q|(_ & _ & Q)]); [split; [exact Px|rewrite (nf_avail _ _ Hf); exact NE]| |exists k; auto].
  destruct (rd_end d i buf niov k K Hf) as [Q'|[_ Q']]; [lia|exact Rk|exact Q|exists k; auto|].
  destruct (STAY k) as [Q2|Q2]; [lia|destruct Rk as [_ Rk]; rewrite (nf_avail _ _ Hf) in Rk; exact Rk|exists k; auto|].
  destruct (B1 (S k)) as (k' & Hk' & Q3); [lia|exact Q2|exact Q'|exists k'; split; [lia|exact Q3]].
Qed.


Notation rk c i := (rank (c_pc (cli (W i) c))).
Notation len i := (length (ring_unread (w_ring (W i)))).
Lemma rank_step c x k : (forall b n, x <> CRead b n) -> pending c (upto V k) = Some x ->
  ends c (V k) \/ (pending c (upto V (S k)) = Some x /\ (rk c (S k) <= rk c k)%nat
     /\ ((exists ms, In (ECommit c ms) (V k)) \/ ((exists e, A k = ARun c e) /\ asleep (W k) c = false /\ isW (c_pc (cli (W k) c)) = false) -> (rk c (S k) < rk c k)%nat)).
Proof.
  intros NR Pd. destruct (fv_in_call _ _ _ _ FV k c x Pd) as [E|[P' D]]; [left; exact E|].
  pose proof (fv_live _ _ _ _ FV _ _ _ Pd) as L. destruct (fv_facts _ _ _ _ FV k) as (_ & HP & _). specialize (HP c). rewrite Pd in HP.
  pose proof (fv_step _ _ _ _ _ FV k) as HS.
  assert (RUN : forall e, A k = ARun c e -> asleep (W k) c = false -> ends c (V k) \/ (pending c (upto V (S k)) = Some x /\ (rk c (S k) <= rk c k)%nat
     /\ ((exists ms, In (ECommit c ms) (V k)) \/ ((exists e, A k = ARun c e) /\ asleep (W k) c = false /\ isW (c_pc (cli (W k) c)) = false) -> (rk c (S k) < rk c k)%nat))).
  { intros e Ea As. rewrite Ea in HS. destruct (run_rank0 _ _ _ _ _ _ NR L As HP HS) as [Q|[Q1 Q2]]; [left; exact Q|right]. split; [exact P'|]. split; [exact Q1|]. intros [H|(_ & _ & H)]; apply Q2; auto. }
  destruct (asleep (W k) c) eqn:As.
  - right. split; [exact P'|]. assert (NC : ~ exists ms, In (ECommit c ms) (V k)).
    { intros (ms & HI). destruct (commit_run _ _ _ _ _ _ HS HI) as (e & kk & ln & nb & _ & _ & Hpc). unfold asleep in As. rewrite Hpc in As. discriminate. }
    split; [|intros [H|(_ & H & _)]; [contradiction|discriminate]].
    destruct D as [E|[(_ & _ & E & _)|[(e & _ & E)|(_ & E)]]].
    + rewrite E. lia.
    + rewrite E. unfold resume. unfold asleep in As. destruct (c_pc (cli (W k) c)) as [ |[| | |] ? ? ?|[| | |] ? ? ?|? ?|? ?| | |?|g0 s0 z0] eqn:Hpc; try discriminate As; cbn; rewrite ?Hpc; cbn; lia.
    + discriminate.
    + rewrite E. unfold asleep in As. destruct (c_pc (cli (W k) c)) as [ |[| | |] ? ? ?|[| | |] ? ? ?|? ?|? ?| | |?|g0 s0 z0] eqn:Hpc; try discriminate As; cbn [rank]; try lia. cbn [pc_for] in HP. injection HP as HP. elim (NR _ _ HP).
  - destruct D as [E|[(_ & E & _)|[(e & Ea & _)|(E & _)]]]; try discriminate; [|apply (RUN e Ea eq_refl)].
    assert (HA : (exists e, A k = ARun c e) \/ ~ exists e, A k = ARun c e).
    { destruct (A k) as [| |c1 e1| | | |]; try (right; intros [? ?]; discriminate). destruct (Nat.eq_dec c1 c) as [->|N]; [left; eauto|right; intros [? ?]; congruence]. }
    destruct HA as [[e Ea]|HA]; [apply (RUN e Ea eq_refl)|]. right. split; [exact P'|]. split; [rewrite E; lia|].
    intros [(ms & HI)|(H & _)]; [|contradiction]. destruct (commit_run _ _ _ _ _ _ HS HI) as (e & _ & _ & _ & Ea & _). elim HA. eauto.
Qed.

Lemma len_step k : (forall c ms, ~ In (ECommit c ms) (V k)) -> (len (S k) <= len k)%nat.
Proof.
  intros NC. destruct (fv_facts _ _ _ _ FV k) as (_ & _ & _ & _ & _ & _ & _ & EE). revert NC.
  destruct EE as [ev r' D1 D2 D3 U RT _|c v so t r' U RT _ _ _ _|c iov0 rs dropped wok r' D1 D2 D3 D4 D5 D6 U RT _|c v buf iov0 av ln niov r' D1 D2 D3 taken D4 D5 D6 U RT _]; intros NC.
  - rewrite U. lia.
  - rewrite U. lia.
  - elim (NC c iov0). left. reflexivity.
  - rewrite U. destruct (r_farm _); [lia|]. rewrite skipn_length. lia.
Qed.

Lemma track c x i0 i n : (forall b m, x <> CRead b m) -> (forall j, (i0 <= j)%nat -> ~ written_by_other c (V j)) -> (i0 <= i)%nat -> pending c (upto V i) = Some x ->
  (exists k, (i <= k < i + n)%nat /\ (ends c (V k) \/ (pending c (upto V (S k)) = Some x /\ (rk c (S k) < rk c i)%nat)))
  \/ (pending c (upto V (i + n)) = Some x /\ (rk c (i + n) <= rk c i)%nat /\ (len (i + n) <= len i)%nat).
Proof.
  intros NR ONLY Hi Pd.
  destruct (until (fun k => (i <= k)%nat /\ pending c (upto V k) = Some x /\ (rk c k <= rk c i)%nat /\ (len k <= len i)%nat)
    (fun k => ends c (V k) \/ (pending c (upto V (S k)) = Some x /\ (rk c (S k) < rk c i)%nat))) with (n := n) (i := i) as [Q|(_ & Q)]; [|auto|left; exact Q|right; exact Q].
  intros k (Hk & Pk & Rk & Lk). destruct (rank_step c x k NR Pk) as [Q|(P' & R' & S')]; [left; left; exact Q|].
  destruct (commit_or (V k)) as [(c' & ms & HI)|HC].
  - destruct (Nat.eq_dec c' c) as [->|N].
    + left. right. split; [exact P'|]. assert (rk c (S k) < rk c k)%nat by (apply S'; left; eauto). lia.
    + elim (ONLY k ltac:(lia)). exists c', ms. auto.
  - right. split; [lia|]. split; [exact P'|]. split; [lia|]. assert (len (S k) <= len k)%nat; [|lia]. apply len_step.
    intros c' ms HI. destruct (fv_facts _ _ _ _ FV k) as (_ & _ & _ & _ & _ & _ & _ & EE). revert HC HI.
    pose proof (step_inv _ _ _ _ (fv_step _ _ _ _ _ FV k)) as SI. intros HC HI.
    destruct (commit_run _ _ _ _ _ _ (fv_step _ _ _ _ _ FV k) HI) as (e & kk & ln & nb & Ea & L & Hpc).
    destruct (reach_inv _ _ _ _ steady_contract (fv_reach _ _ _ _ FV k)) as (fsz & _ & _ & _ & WW & _). destruct (wi_cl _ _ _ WW c' L) as [ms' C]. pose proof (ci_pc _ _ _ _ C) as P. unfold pc_ok in P. rewrite Hpc in P.
    destruct P as (_ & (NE & _) & _). apply in_split in HI. destruct HI as (l1 & l2 & HI). rewrite HI, committed_app in HC. apply app_eq_nil in HC. destruct HC as [_ HC]. cbn in HC. apply app_eq_nil in HC. destruct HC as [HC _]. contradiction.
Qed.

Theorem pipe c d i0 : keeps_reading r W A V d i0 -> fair W A V c -> (forall j, (i0 <= j)%nat -> ~ written_by_other c (V j)) ->
  forall x i, (forall b n, x <> CRead b n) -> (i0 <= i)%nat -> pending c (upto V i) = Some x -> exists j, (i <= j)%nat /\ ends c (V j).
Proof.
  intros K F ONLY x.
  assert (MAIN : forall n m i, (forall b n, x <> CRead b n) -> (i0 <= i)%nat -> pending c (upto V i) = Some x -> (rk c i < n)%nat -> (len i < m)%nat -> exists j, (i <= j)%nat /\ ends c (V j)).
  2: { intros i NR Hi Pd. apply (MAIN (S (rk c i)) (S (len i)) i); auto. }
  induction n as [|n IHn]; [intros; lia|]. induction m as [|m IHm]; [intros; lia|]. intros i NR Hi Pd Hr Hm.
  (* what to do when the rank has gone down *)
  assert (DOWN : forall k, (i <= k)%nat -> pending c (upto V (S k)) = Some x -> (rk c (S k) < rk c i)%nat -> exists j, (i <= j)%nat /\ ends c (V j)).
  { intros k Hk Pk Rk. destruct (IHn (S (len (S k))) (S k) NR ltac:(lia) Pk ltac:(lia) ltac:(lia)) as (j & Hj & Q). exists j. split; [lia|exact Q]. }
  destruct (reach_inv _ _ _ _ steady_contract (fv_reach _ _ _ _ FV i)) as (fsz & _ & _ & _ & WW & HP & _). pose proof (pend_live _ _ _ _ _ WW HP Pd) as L.
  assert (TURN : asleep (W i) c = false -> isW (c_pc (cli (W i) c)) = false -> exists j, (i <= j)%nat /\ ends c (V j)).
  { intros As NW. destruct (l_turn _ _ _ _ FV c x i F Pd As) as (j & Hj & [Q|(Pj & Ej & e & Ea)]); [eauto|].
    destruct (rank_step c x j NR Pj) as [Q|(P' & _ & S')]; [eauto|]. apply (DOWN j Hj P').
    assert (rk c (S j) < rk c j)%nat; [|rewrite Ej in *; assumption]. apply S'. right. unfold asleep in *. rewrite Ej. eauto. }
  specialize (HP c). rewrite Pd in HP.
  assert (WR : adding (W i) c <> [] -> exists j, (i <= j)%nat /\ ends c (V j)).
  { intros NE. assert (DEC : fits W i (adding (W i) c) \/ (r_drop (w_ring (W i)) = false /\ room (r_n (w_ring (W i))) (r_mm (w_ring (W i))) (adding (W i) c) (ring_unread (w_ring (W i))) = false)).
    { unfold fits. destruct (r_drop (w_ring (W i))); [left; left; reflexivity|]. destruct (room _ _ _ _); auto. }
    destruct DEC as [FT|[D1 D2]].
    - destruct (l_writer _ _ _ _ FV c i F NE FT) as (j & Hj & Q). destruct (track c x i0 i (j - i) NR ONLY Hi Pd) as [(k & Hk & [T|[T1 T2]])|(T1 & T2 & _)].
      + exists k. split; [lia|exact T].
      + apply (DOWN k); [lia|exact T1|exact T2].
      + replace (i + (j - i))%nat with j in * by lia. destruct Q as [Q|[Q|Q]]; [|eauto|elim (ONLY j ltac:(lia) Q)].
        destruct (rank_step c x j NR T1) as [Q'|(P' & _ & S')]; [eauto|]. apply (DOWN j Hj P'). assert (rk c (S j) < rk c j)%nat by (apply S'; left; eauto). lia.
    - assert (Hf : r_farm r = false).
      { destruct (fv_facts _ _ _ _ FV i) as (J & _ & _ & E & _). destruct (r_farm r) eqn:Hf; [|reflexivity]. destruct (i_farm _ _ J E) as [_ Q]. congruence. }
      assert (NU : ring_unread (w_ring (W i)) <> []).
      { intros E. rewrite E in D2. destruct (wi_cl _ _ _ WW c L) as [ms C]. pose proof (ci_pc _ _ _ _ C) as P. unfold pc_ok in P. unfold adding in *.
        assert (I : iov_ok (r_n (w_ring (W i))) (r_mm (w_ring (W i))) (match c_pc (cli (W i) c) with RunW _ iov _ _ | WaitW _ iov _ _ => iov | _ => [] end)) by (destruct (c_pc (cli (W i) c)); try contradiction; apply P).
        destruct I as (_ & _ & I1 & I2). assert (room (r_n (w_ring (W i))) (r_mm (w_ring (W i))) (match c_pc (cli (W i) c) with RunW _ iov _ _ | WaitW _ iov _ _ => iov | _ => [] end) [] = true); [|congruence].
        apply room_iff. change (nbytes []) with 0. change (zlen (@nil bytes)) with 0. lia. }
      destruct (drain d i0 K Hf i Hi NU) as (k & Hk & SH).
      destruct (track c x i0 i (k - i) NR ONLY Hi Pd) as [(k' & Hk' & [T|[T1 T2]])|(T1 & T2 & T3)].
      + exists k'. split; [lia|exact T].
      + apply (DOWN k'); [lia|exact T1|exact T2].
      + replace (i + (k - i))%nat with k in * by lia. destruct (rank_step c x k NR T1) as [Q'|(P' & R' & _)]; [eauto|].
        unfold Fair.shrunk in SH. destruct (IHm (S k) NR ltac:(lia) P' ltac:(lia) ltac:(lia)) as (j & Hj & Q). exists j. split; [lia|exact Q]. }
  unfold asleep in TURN. unfold adding in WR. destruct (wi_cl _ _ _ WW c L) as [ms C]. pose proof (ci_pc _ _ _ _ C) as P. unfold pc_ok in P.
  destruct (c_pc (cli (W i) c)) as [ |k iov ln nb|k iov ln nb|b n0|b n0| | |t|g0 s0 z0] eqn:Hpc; cbn [pc_for] in HP; try discriminate HP; try (apply TURN; reflexivity).
  - apply WR. destruct P as (_ & (NE & _) & _). exact NE.
  - apply WR. destruct P as (_ & (NE & _) & _). exact NE.
  - exfalso. injection HP as E. apply (NR _ _ E).
Qed.

(** ** delivery *)
Lemma upto_app i j : (i <= j)%nat -> exists l, upto V j = upto V i ++ l.
Proof.
  induction 1 as [|j H (l & IH)]; [exists []; rewrite app_nil_r; reflexivity|]. cbn [upto]. rewrite IH. exists (l ++ V j). rewrite app_assoc. reflexivity.
Qed.
Theorem delivery d i0 : r_drop r = false -> keeps_reading r W A V d i0 -> forall i, (i0 <= i)%nat ->
  exists j more, (i <= j)%nat /\ delivered (upto V j) = committed (upto V i) ++ more.
Proof.
  intros Hd K i Hi.
  assert (Hf : r_farm r = false).
  { destruct (fv_facts _ _ _ _ FV O) as (J & _ & _ & E & _). destruct (r_farm r) eqn:Hf; [|reflexivity]. destruct (i_farm _ _ J E) as [_ Q]. rewrite (fv_drop _ _ _ _ FV) in Q. congruence. }
  assert (FF : forall j, committed (upto V j) = delivered (upto V j) ++ ring_unread (w_ring (W j))).
  { intros j. apply (f_fifo r); [apply (fv_contract _ _ _ _ FV)|exact Hd]. }
  assert (MAIN : forall n j, (i <= j)%nat -> (length (committed (upto V i)) <= length (delivered (upto V j)) + n)%nat ->
    exists k, (j <= k)%nat /\ (length (committed (upto V i)) <= length (delivered (upto V k)))%nat).
  { induction n as [|n IH]; intros j Hj HL; [exists j; split; lia|].
    destruct (ring_unread (w_ring (W j))) eqn:EU.
    - exists j. split; [lia|]. pose proof (FF j) as E. rewrite EU, app_nil_r in E. rewrite <- E. destruct (upto_app i j Hj) as (l & ->). rewrite committed_app, app_length. lia.
    - destruct (drain d i0 K Hf j ltac:(lia)) as (k & Hk & SH); [congruence|]. unfold Fair.shrunk in SH.
      pose proof (f_equal (@length _) (FF k)) as E1. pose proof (f_equal (@length _) (FF (S k))) as E2. rewrite app_length in E1, E2. cbn [upto] in E2. rewrite committed_app, app_length in E2.
      destruct (upto_app j k Hk) as (l' & E'). assert (length (delivered (upto V j)) <= length (delivered (upto V k)))%nat by (rewrite E', delivered_app, app_length; lia).
      destruct (IH (S k)) as (k' & Hk' & Q); [lia|cbn [upto]; lia|]. exists k'. split; [lia|exact Q]. }
  destruct (MAIN (length (committed (upto V i))) i) as (k & Hk & Q); [lia|lia|]. exists k.
  pose proof (FF k) as E. destruct (upto_app i k Hk) as (l & EL). rewrite EL in E at 1. rewrite committed_app in E.
  exists (skipn (length (committed (upto V i))) (delivered (upto V k))). split; [exact Hk|].
  rewrite <- (firstn_skipn (length (committed (upto V i))) (delivered (upto V k))) at 1. f_equal.
  apply (f_equal (firstn (length (committed (upto V i))))) in E. rewrite firstn_app, firstn_all, Nat.sub_diag, firstn_O, app_nil_r, firstn_app in E. replace (length (committed (upto V i)) - length (delivered (upto V k)))%nat with O in E by lia. rewrite firstn_O, app_nil_r in E. symmetry. exact E.
Qed.
End Run.
