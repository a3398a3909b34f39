(** * Registration and wake-ups in the world of processes. *)
From Verif Require Export BwInv.

Definition sim (ks ks' : socks) : Prop :=
  length ks' = length ks /\ forall s, k_name (sk ks' s) = k_name (sk ks s) /\ k_pid (sk ks' s) = k_pid (sk ks s)
    /\ k_open (sk ks' s) = k_open (sk ks s) /\ k_cap (sk ks' s) = k_cap (sk ks s) /\ 0 <= k_pend (sk ks' s).
Lemma sim_refl ks : KI ks -> sim ks ks.
Proof. intros K. split; [reflexivity|]. intros s. repeat split. apply K. Qed.
Lemma sim_KI ks ks' : sim ks ks' -> KI ks -> KI ks'.
Proof.
  intros [L S] [A B C]. constructor.
  - intros s s'. rewrite L. destruct (S s) as (-> & _), (S s') as (-> & _). apply A.
  - intros s. destruct (S s) as (_ & _ & _ & -> & _). apply B.
  - intros s. apply (S s).
Qed.
Lemma up_sim ks ks' : KI ks -> up ks ks' -> sim ks ks'.
Proof.
  intros K U. split; [apply U|]. intros s. rewrite (up_name _ _ U), (up_pid _ _ U), (up_open _ _ U), (up_cap _ _ U).
  pose proof (up_pend _ _ U s). pose proof (ki_pend _ K s). repeat split. lia.
Qed.
Lemma sim_trans a b c : sim a b -> sim b c -> sim a c.
Proof.
  intros [L1 S1] [L2 S2]. split; [congruence|]. intros s. destruct (S1 s) as (A1 & A2 & A3 & A4 & A5), (S2 s) as (B1 & B2 & B3 & B4 & B5).
  repeat (split; [congruence|]). exact B5.
Qed.
Lemma sim_upd ks s v : KI ks -> (0 <= v) -> sim ks (sk_upd ks s (fun x => x <| k_pend := v |>)).
Proof.
  intros K Hv. split; [apply sk_upd_len|]. intros s'. destruct (Nat.eq_dec s' s) as [->|N].
  - destruct (Nat.lt_ge_cases s (length ks)) as [L|L]; [rewrite sk_upd_same by exact L; cbn [k_name k_pid k_open k_cap k_pend set]; auto|].
    unfold sk_upd. rewrite set_nat_out by exact L. repeat split. apply K.
  - rewrite sk_upd_other by exact N. repeat split. apply K.
Qed.
Lemma sk_upd_ext ks s f g : f (sk ks s) = g (sk ks s) -> sk_upd ks s f = sk_upd ks s g.
Proof. unfold sk_upd. intros ->. reflexivity. Qed.
Lemma force_spec e ks h want ks' ok : KI ks -> e_force e = true -> bw_force e ks h want = Ok (ks', ok) ->
  exists n s p, h = Wait n s p /\ ok = true /\ sim ks ks' /\ (forall s', s' <> s -> sk ks' s' = sk ks s')
    /\ ((s < length ks)%nat -> if want then 0 < k_pend (sk ks' s) else k_pend (sk ks' s) = 0).
Proof.
  intros K F H. destruct h as [|n s p]; [discriminate|]. cbn [bw_force] in H. rewrite F in H. cbn [negb] in H. exists n, s, p. split; [reflexivity|].
  pose proof (ki_pend _ K s) as P.
  destruct want; cbn [negb andb] in H.
  - destruct (Z.gtb_spec (k_pend (sk ks s)) 0) as [G|G]; cbn [negb] in H; injection H as <- <-.
    + split; [reflexivity|]. split; [apply sim_refl; exact K|]. split; [reflexivity|intros; lia].
    + split; [reflexivity|]. rewrite (sk_upd_ext ks s _ (fun x => x <| k_pend := 1 |>)).
      2: { replace (k_pend (sk ks s)) with 0 by lia. reflexivity. }
      split; [apply sim_upd; [exact K|lia]|]. split; [intros s' N; apply sk_upd_other; exact N|].
      intros L. rewrite sk_upd_same by exact L. cbn. lia.
  - destruct (Z.gtb_spec (k_pend (sk ks s)) 0) as [G|G]; injection H as <- <-.
    + split; [reflexivity|]. split; [apply sim_upd; [exact K|lia]|]. split; [intros s' N; apply sk_upd_other; exact N|].
      intros L. rewrite sk_upd_same by exact L. reflexivity.
    + split; [reflexivity|]. split; [apply sim_refl; exact K|]. split; [reflexivity|intros; lia].
Qed.

Lemma bw_same_wait a n s p : bw_same a (Some (Wait n s p)) -> exists p0, a = Some (Wait n s p0).
Proof. destruct a as [[|n0 s0 p0]|]; cbn; try discriminate. intros [-> ->]. eauto. Qed.
Lemma bw_same_wake a q cs : bw_same a (Some (Wake q cs)) -> a = Some (Wake q cs).
Proof. destruct a as [[|n0 s0 p0]|]; cbn; auto; discriminate. Qed.

Lemma BI_quiet w w' c : BI w -> (forall c', c' <> c -> cli w' c' = cli w c') -> sim (w_ks w) (w_ks w') ->
  w_w2r w' = w_w2r w -> w_r2w w' = w_r2w w ->
  (c_live (cli w' c) = true -> c_live (cli w c) = true /\ bw_same (c_w2r (cli w c)) (c_w2r (cli w' c)) /\ bw_same (c_r2w (cli w c)) (c_r2w (cli w' c))) ->
  BI w'.
Proof.
  intros B HC [SL S] H1 H2 HS. assert (HB : forall b, whd b w' = whd b w) by (intros []; assumption).
  assert (HW : forall b n s p, c_live (cli w' c) = true -> hnd b (cli w' c) = Some (Wait n s p) -> wt b w c n s).
  { intros b n s p L E. destruct (HS L) as (L0 & E1 & E2). split; [exact L0|]. destruct b; cbn [hnd] in *; eapply bw_same_wait; rewrite <- E; assumption. }
  apply (BI_upd w w' c B HC).
  - apply (sim_KI (w_ks w)); [split; assumption|apply B].
  - lia.
  - intros s _. destruct (S s) as (A1 & A2 & _). auto.
  - intros b c' n s _ H. destruct (S s) as (_ & _ & -> & _). apply (bi_wt _ B _ _ _ _ H).
  - intros b. rewrite HB. apply hch_refl.
  - intros b n s p L E. pose proof (HW b n s p L E) as Ho. split; [|left; exists n; exact Ho].
    destruct (bi_wt _ B _ _ _ _ Ho) as (A1 & A2 & A3 & A4). unfold waits_at. rewrite HB. destruct (S s) as (-> & -> & -> & _). auto.
  - intros b q cs L E. rewrite HB. apply (waker_ks (w_ks w)); [lia|intros s _; apply S|].
    apply (bi_wk _ B b c). destruct (HS L) as (L0 & E1 & E2). split; [exact L0|]. destruct b; cbn [hnd] in *; apply bw_same_wake; rewrite <- E; assumption.
  - intros n n' s p p' L E1 E2. destruct (bi_own _ B _ _ _ _ _ _ _ (HW true _ _ _ L E1) (HW false _ _ _ L E2)). discriminate.
Qed.

(** ** opening *)
Record OB (e : env) (w w1 : world) (flags : Z) (hs : option (option bwt * option bwt)) : Prop := mkOB {
  ob_cl : w_cl w1 = w_cl w; ob_ring : w_ring w1 = w_ring w;
  ob_k : KI (w_ks w1);
  ob_len : (length (w_ks w) <= length (w_ks w1))%nat;
  ob_old : forall s, (s < length (w_ks w))%nat -> sk (w_ks w1) s = sk (w_ks w) s;
  ob_h : forall b, hch (slots b w) (whd b w) (whd b w1);
  ob_wt : forall h2, hs = Some h2 -> forall (b : bool) n s p, (if b then fst h2 else snd h2) = Some (Wait n s p) ->
     waits_at (w_ks w1) (whd b w1) n s /\ (length (w_ks w) <= s)%nat;
  ob_wk : forall h2, hs = Some h2 -> forall (b : bool) q cs, (if b then fst h2 else snd h2) = Some (Wake q cs) ->
     waker_ok (w_ks w1) (whd b w1) q cs;
  ob_rd : forall h2, hs = Some h2 -> has flags SHR_RDONLY = true -> exists n s, fst h2 = Some (Wait n s [])
     /\ (if r_u (w_ring w) =? 0 then k_pend (sk (w_ks w1) s) = 0 else 0 < k_pend (sk (w_ks w1) s)) /\ is_wake (snd h2);
  ob_wr : forall h2, hs = Some h2 -> has flags SHR_WRONLY = true -> is_wake (fst h2) }.

Lemma waits_at_ext ks ks' h n s : waits_at ks h n s -> sk ks' s = sk ks s -> waits_at ks' h n s.
Proof. unfold waits_at. intros H ->. exact H. Qed.
Lemma close_old ks h n s p ks' h' : bw_close ks h (Wait n s p) = (ks', h') ->
  length ks' = length ks /\ (forall s', s' <> s -> sk ks' s' = sk ks s') /\ (KI ks -> KI ks')
  /\ (forall W : nat -> Prop, ~ W n -> hch W h h') /\ k_open (sk ks' s) = false
  /\ (forall s', k_name (sk ks' s') = k_name (sk ks s') /\ k_pid (sk ks' s') = k_pid (sk ks s') /\ k_pend (sk ks' s') = k_pend (sk ks s')).
Proof.
  intros H. cbn [bw_close] in H. injection H as <- <-. split; [apply sk_upd_len|]. split; [intros s' N; apply sk_upd_other; exact N|].
  assert (F : forall s', k_name (sk (sk_upd ks s (fun x => x <| k_open := false |>)) s') = k_name (sk ks s')
    /\ k_pid (sk (sk_upd ks s (fun x => x <| k_open := false |>)) s') = k_pid (sk ks s')
    /\ k_pend (sk (sk_upd ks s (fun x => x <| k_open := false |>)) s') = k_pend (sk ks s')
    /\ k_cap (sk (sk_upd ks s (fun x => x <| k_open := false |>)) s') = k_cap (sk ks s')).
  { intros s'. destruct (Nat.eq_dec s' s) as [->|N]; [|rewrite sk_upd_other by exact N; auto].
    destruct (Nat.lt_ge_cases s (length ks)) as [L|L]; [rewrite sk_upd_same by exact L; auto|unfold sk_upd; rewrite set_nat_out by exact L; auto]. }
  split; [|split; [|split]].
  - intros [A B C]. constructor; rewrite ?sk_upd_len.
    + intros x y. destruct (F x) as (-> & _), (F y) as (-> & _). apply A.
    + intros x. destruct (F x) as (_ & _ & _ & ->). apply B.
    + intros x. destruct (F x) as (_ & _ & -> & _). apply C.
  - intros W NW. constructor; cbn [h_wr h_seq]; [apply zlen_set_nat|right; lia|]. intros n' Hn'.
    destruct (Nat.lt_ge_cases n (length (h_wr h))) as [L|L]; [|rewrite set_nat_out by exact L; reflexivity].
    rewrite nth_set_nat by exact L. destruct (Nat.eqb_spec n' n) as [->|]; [contradiction|reflexivity].
  - destruct (Nat.lt_ge_cases s (length ks)) as [L|L]; [rewrite sk_upd_same by exact L; reflexivity|].
    unfold sk_upd. rewrite set_nat_out by exact L. rewrite sk_out by exact L. reflexivity.
  - intros s'. destruct (F s') as (A & B & C & _). auto.
Qed.

Lemma open_bw e w flags pid w1 hs : BI w -> good_sockets (w_ks w) e -> (forall k, In k (w_ks w) -> k_name k <> e_name e) ->
  pid <> 0 -> has flags SHR_RDONLY = negb (has flags SHR_WRONLY) ->
  open_blockwake e w flags pid = Ok (w1, hs) -> OB e w w1 flags hs.
Proof.
  intros B G NN Hp Hro H.
  assert (N1 : forall s, (s < length (w_ks w))%nat -> k_name (sk (w_ks w) s) <> e_name e) by (intros s L; apply NN, nth_In; exact L).
  assert (GE : forall b, genv (w_ks w) (whd b w) (slots b w) e) by (intros b; rewrite <- (app_nil_r (w_ks w)); apply BI_genv; assumption).
  unfold open_blockwake in H. destruct (has flags SHR_WRONLY) eqn:Hw; cbn [negb] in Hro; rewrite Hro in H.
  - cbn [obind] in H. destruct (bw_open_wake e (w_ks w) (w_w2r w)) as [h1 a] eqn:Ea.
    destruct (open_wake_spec e (w_ks w) (w_w2r w) (slots true w) _ _ (GE true) (bi_len _ B true) (bi_seq _ B true) Ea) as (A1 & A2 & _).
    destruct a as [x|].
    2: { injection H as <- <-. constructor; cbn [w_cl w_ring w_ks w_w2r w_r2w set whd]; try reflexivity; try discriminate; try apply B; try lia; auto.
         intros []; [exact A1|apply hch_refl]. }
    destruct (A2 x eq_refl) as (q & cs & -> & WK). cbn [w_ring w_ks w_w2r w_r2w w_cl w_fsz set] in H.
    destruct (negb (has flags SHR_NONBLOCK) && negb (r_drop (w_ring w))).
    + destruct (bw_open_wait e (w_ks w) (w_r2w w) pid (e_name e)) as [[ks h2] b'] eqn:Eo.
      destruct (open_wait_spec _ _ _ _ _ _ _ _ _ (GE false) (bi_k _ B) (bi_len _ B false) Hp N1 Eo) as (C1 & C2 & C3 & C4 & _).
      destruct b' as [y|].
      * injection H as <- <-. destruct (C4 y eq_refl) as (n & x & -> & -> & O1 & O2 & O3 & O4 & WA & _).
        constructor; cbn [w_cl w_ring w_ks w_w2r w_r2w set whd]; try reflexivity; try discriminate; try assumption.
        -- rewrite app_length. lia.
        -- intros s L. apply sk_app1. exact L.
        -- intros []; assumption.
        -- intros h2' E b0 n0 s0 p0. injection E as <-. destruct b0; cbn [fst snd]; [discriminate|]. intros E. injection E as <- <- <-. split; [exact WA|lia].
        -- intros h2' E b0 q0 cs0. injection E as <-. destruct b0; cbn [fst snd]; [|discriminate]. intros E. injection E as <- <-.
           apply (waker_ks (w_ks w)); [rewrite app_length; lia|intros s L; rewrite sk_app1 by exact L; reflexivity|exact WK].
        -- intros h2x Ex Qx; congruence.
        -- intros h2' E _. injection E as <-. eexists _, _. reflexivity.
      * cbn [w_ks w_w2r w_r2w bw_close set obind] in H. injection H as <- <-.
        constructor; cbn [w_cl w_ring w_ks w_w2r w_r2w set whd]; try reflexivity; try discriminate; try assumption.
        -- destruct C3 as [->|[x ->]]; [lia|rewrite app_length; lia].
        -- intros s L. destruct C3 as [->|[x ->]]; [reflexivity|apply sk_app1; exact L].
        -- intros []; assumption.
    + injection H as <- <-. constructor; cbn [w_cl w_ring w_ks w_w2r w_r2w set whd]; try reflexivity; try discriminate; try apply B; try lia.
      * intros []; [exact A1|apply hch_refl].
      * intros h2' E b0 n0 s0 p0. injection E as <-. destruct b0; discriminate.
      * intros h2' E b0 q0 cs0. injection E as <-. destruct b0; cbn [fst snd]; [|discriminate]. intros E. injection E as <- <-. exact WK.
      * intros h2x Ex Qx; congruence.
      * intros h2' E _. injection E as <-. eexists _, _. reflexivity.
  - destruct (bw_open_wait e (w_ks w) (w_w2r w) pid (e_name e)) as [[ks h1] a] eqn:Eo.
    destruct (open_wait_spec _ _ _ _ _ _ _ _ _ (GE true) (bi_k _ B) (bi_len _ B true) Hp N1 Eo) as (C1 & C2 & C3 & C4 & _).
    cbn [w_ring w_ks w_w2r w_r2w w_cl w_fsz set] in H.
    assert (EX : exists l, ks = w_ks w ++ l) by (destruct C3 as [->|[x ->]]; [exists []; rewrite app_nil_r; reflexivity|eauto]).
    assert (LK : (length (w_ks w) <= length ks)%nat) by (destruct EX as [l ->]; rewrite app_length; lia).
    assert (OK : forall s, (s < length (w_ks w))%nat -> sk ks s = sk (w_ks w) s) by (intros s L; destruct EX as [l ->]; apply sk_app1; exact L).
    assert (GF : genv ks (w_r2w w) (slots false w) e) by (destruct EX as [l ->]; apply (BI_genv w false e l); assumption).
    destruct (bw_open_wake e ks (w_r2w w)) as [h2 b] eqn:Ea.
    destruct (open_wake_spec _ _ _ _ _ _ GF (bi_len _ B false) (bi_seq _ B false) Ea) as (A1 & A2 & _).
    cbn [w_ring w_ks w_w2r w_r2w w_cl w_fsz set] in H.
    destruct a as [x|]; [|destruct b as [y|]].
    2: { destruct (A2 y eq_refl) as (q & cs & -> & WK). cbn [obind bw_close w_ks w_w2r w_r2w set] in H. injection H as <- <-.
         constructor; cbn [w_cl w_ring w_ks w_w2r w_r2w set whd]; try reflexivity; try discriminate; try assumption. intros []; assumption. }
    2: { cbn [obind] in H. injection H as <- <-.
         constructor; cbn [w_cl w_ring w_ks w_w2r w_r2w set whd]; try reflexivity; try discriminate; try assumption. intros []; assumption. }
    destruct (C4 x eq_refl) as (n & sx & -> & Ek & O1 & O2 & O3 & O4 & WA & NW & _).
    destruct b as [y|].
    2: { cbn [obind w_ks w_w2r w_r2w set] in H. destruct (bw_close ks h1 (Wait n (length (w_ks w)) [])) as [ks' bh'] eqn:Ec.
         destruct (close_old _ _ _ _ _ _ _ Ec) as (D1 & D2 & D3 & D4 & D5 & D6). cbn [obind w_ks w_w2r w_r2w set] in H. injection H as <- <-.
         constructor; cbn [w_cl w_ring w_ks w_w2r w_r2w set whd]; try reflexivity; try discriminate; try (apply D3; exact C1); try lia.
         - intros s L. rewrite D2 by lia. apply OK. exact L.
         - intros []; [apply (hch_trans _ _ _ _ C2); apply D4; exact NW|exact A1]. }
    destruct (A2 y eq_refl) as (q & cs & -> & WK).
    destruct (bw_force e ks (Wait n (length (w_ks w)) []) (negb (r_u (w_ring w) =? 0))) as [[ks2 ok]| | |] eqn:Ef; try discriminate H.
    destruct (force_spec _ _ _ _ _ _ C1 (gs_force _ _ G) Ef) as (n' & s' & p' & E & -> & [SL SS] & F2 & F3). injection E as <- <- <-.
    cbn [obind] in H. injection H as <- <-.
    constructor; cbn [w_cl w_ring w_ks w_w2r w_r2w set whd]; try reflexivity.
    + apply (sim_KI ks); [split; assumption|exact C1].
    + lia.
    + intros s L. rewrite F2 by lia. apply OK. exact L.
    + intros []; assumption.
    + intros h2' E b0 n0 s0 p0. injection E as <-. destruct b0; cbn [fst snd]; [|discriminate]. intros E. injection E as <- <- <-. split; [|lia].
      destruct WA as (W1 & W2 & W3 & W4). unfold waits_at. destruct (SS (length (w_ks w))) as (-> & -> & -> & _). auto.
    + intros h2' E b0 q0 cs0. injection E as <-. destruct b0; cbn [fst snd]; [discriminate|]. intros E. injection E as <- <-.
      apply (waker_ks ks); [lia|intros s _; apply SS|exact WK].
    + intros h2' E _. injection E as <-. exists n, (length (w_ks w)). split; [reflexivity|]. split; [|eexists _, _; reflexivity].
      assert (LS : (length (w_ks w) < length ks)%nat) by (rewrite Ek, app_length; cbn; lia). specialize (F3 LS).
      destruct (r_u (w_ring w) =? 0); exact F3.
    + intros h2x Ex Qx; congruence.
Qed.
