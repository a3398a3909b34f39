(** * Slots are reclaimed (C23): an occupied slot whose socket is open is the
    slot of a live client. *)
From Verif Require Export BwFinal InitFacts.

Definition slot (h : bwh) (n : nat) : wslot := nth n (h_wr h) ws_free.
(** slots can only be given up *)
Definition shk (wr wr' : list wslot) : Prop := forall n, nth n wr' ws_free = nth n wr ws_free \/ ws_pid (nth n wr' ws_free) = 0.
Lemma shk_refl a : shk a a. Proof. intros n. auto. Qed.
Lemma shk_trans a b c : shk a b -> shk b c -> shk a c.
Proof. intros A B n. destruct (B n) as [->|Q]; [apply A|auto]. Qed.
Lemma shk_cons s s' t t' : s' = s \/ ws_pid s' = 0 -> shk t t' -> shk (s :: t) (s' :: t').
Proof. intros A B [|n]; cbn [nth]; [exact A|apply B]. Qed.
Lemma prune_shk e h : shk (h_wr h) (h_wr (prune_handle e h)).
Proof.
  unfold prune_handle. destruct (prune_slots e (h_wr h)) as [wr' c] eqn:E. destruct (prune_slots_spec _ _ _ _ E) as (_ & _ & _ & A).
  cbn [h_wr]. intros n. destruct (A n) as [[Q _]|[Q _]]; auto.
Qed.
Lemma sync_slot_shk e ks n s c s' c' ok inc : sync_slot e ks n s c = (s', c', ok, inc) -> s' = s \/ ws_pid s' = 0.
Proof.
  unfold sync_slot. set (c1 := match cn_fd c with Some _ => _ | None => c end). clearbody c1. intros H.
  destruct (cn_fd c1); [injection H as <- _ _ _; auto|]. destruct (ws_pid s =? 0); [injection H as <- _ _ _; auto|].
  destruct (negb (e_socket e n)); [injection H as <- _ _ _; auto|].
  destruct (if e_connect e n then sk_lookup ks (ws_name s) else None); [injection H as <- _ _ _; auto|].
  destruct (e_probe e (ws_pid s) (ws_name s) =? 0); injection H as <- _ _ _; auto.
Qed.
Lemma sync_slots_shk e ks : forall wr cs n wr' cs' ok inc, sync_slots e ks n wr cs = (wr', cs', ok, inc) -> shk wr wr'.
Proof.
  induction wr as [|s t IH]; intros [|c cs] n wr' cs' ok inc H; cbn [sync_slots] in H; try (injection H as <- _ _ _; apply shk_refl).
  destruct (sync_slot e ks n s c) as [[[s1 c1] ok1] inc1] eqn:E1. pose proof (sync_slot_shk _ _ _ _ _ _ _ _ _ E1) as S1.
  destruct ok1; [|injection H as <- _ _ _; apply shk_cons; [exact S1|apply shk_refl]].
  destruct (sync_slots e ks (n + 1) t cs) as [[[t1 cs1] ok2] inc2] eqn:E2. injection H as <- _ _ _. apply shk_cons; [exact S1|apply (IH _ _ _ _ _ _ E2)].
Qed.
Lemma bw_sync_shk e ks h q cs h' q' cs' ok : bw_sync e ks h q cs = (h', q', cs', ok) -> shk (h_wr h) (h_wr h').
Proof.
  unfold bw_sync. destruct (q =? h_seq h); [intros H; injection H as <- _ _ _; apply shk_refl|].
  destruct (sync_slots e ks 0 (h_wr h) cs) as [[[wr1 cs1] ok1] inc] eqn:E. intros H. injection H as <- _ _ _. cbn [h_wr]. apply (sync_slots_shk _ _ _ _ _ _ _ _ _ E).
Qed.
Lemma wake_slots_shk e : forall wr cs n ks wr' cs' ks' inc, wake_slots e n ks wr cs = (wr', cs', ks', inc) -> shk wr wr'.
Proof.
  induction wr as [|s t IH]; intros [|c cs] n ks wr' cs' ks' inc H; cbn [wake_slots] in H; try (injection H as <- _ _ _; apply shk_refl).
  destruct (wake_slot e n ks s c) as [[[s1 c1] ks1] inc1] eqn:E1. destruct (wake_slots e (n + 1) ks1 t cs) as [[[t1 cs1] ks2] inc2] eqn:E2.
  injection H as <- _ _ _. apply shk_cons; [|apply (IH _ _ _ _ _ _ _ E2)].
  unfold wake_slot in E1. destruct (cn_fd c) as [k|]; [|injection E1 as <- _ _ _; auto].
  destruct (k_open (sk ks k) && e_send e n); [|injection E1 as <- _ _ _; auto].
  destruct (_ <? _); injection E1 as <- _ _ _; auto.
Qed.
Lemma bw_wake_shk e ks h x ks' h' x' ok : bw_wake e ks h x = Ok (ks', h', x', ok) -> shk (h_wr h) (h_wr h').
Proof.
  destruct x as [q cs|n s p]; cbn [bw_wake]; [|discriminate]. destruct (bw_sync e ks h q cs) as [[[h1 q1] cs1] ok1] eqn:E.
  pose proof (bw_sync_shk _ _ _ _ _ _ _ _ _ E) as S. destruct ok1.
  - destruct (wake_slots e 0 ks (h_wr h1) cs1) as [[[wr2 cs2] ks2] inc] eqn:E2. intros H. injection H as _ <- _ _. cbn [h_wr].
    apply (shk_trans _ _ _ S). apply (wake_slots_shk _ _ _ _ _ _ _ _ _ E2).
  - intros H. injection H as _ <- _ _. exact S.
Qed.
Lemma shk_set wr n v : ws_pid v = 0 -> shk wr (set_nat wr n v).
Proof.
  intros Z0 n'. destruct (Nat.lt_ge_cases n (length wr)) as [L|L]; [|rewrite set_nat_out by exact L; auto].
  rewrite nth_set_nat by exact L. destruct (n' =? n)%nat; auto.
Qed.
Lemma bw_close_shk ks h x : shk (h_wr h) (h_wr (snd (bw_close ks h x))).
Proof. destruct x as [q cs|n s p]; cbn [bw_close snd h_wr]; [apply shk_refl|]. apply shk_set. reflexivity. Qed.
Lemma open_wake_shk e ks h h' o : bw_open_wake e ks h = (h', o) -> shk (h_wr h) (h_wr h').
Proof.
  unfold bw_open_wake. destruct (negb (e_alloc e)); [intros H; injection H as <- _; apply shk_refl|].
  destruct (bw_sync e ks (prune_handle e h) (-1) (repeat conn0 BW_WAITMAX)) as [[[h1 q] cs] ok] eqn:E. intros H. injection H as <- _.
  apply (shk_trans _ _ _ (prune_shk e h)). apply (bw_sync_shk _ _ _ _ _ _ _ _ _ E).
Qed.
(** the slots after an attempt to register *)
Definition grown (wr wr' : list wslot) (ks : socks) (o : option bwt) : Prop :=
  forall n, nth n wr' ws_free = nth n wr ws_free \/ ws_pid (nth n wr' ws_free) = 0
    \/ exists s p, o = Some (Wait n s p) /\ (s < length ks)%nat /\ k_name (sk ks s) = ws_name (nth n wr' ws_free).
Lemma shk_grown a b ks o : shk a b -> grown a b ks o.
Proof. intros S n. destruct (S n); auto. Qed.
Lemma grown_shk_l a b c ks o : shk a b -> grown b c ks o -> grown a c ks o.
Proof. intros S G n. destruct (G n) as [->|[Q|Q]]; [destruct (S n) as [Q|Q]; rewrite Q|..]; auto. Qed.
Lemma open_wait_grown e ks h pid name ks' h' o : bw_open_wait e ks h pid name = (ks', h', o) ->
  grown (h_wr h) (h_wr h') ks' o /\ exists l, ks' = ks ++ l.
Proof.
  unfold bw_open_wait. destruct (negb (e_alloc e)); [intros H; injection H as <- <- <-; split; [apply shk_grown, shk_refl|exists []; rewrite app_nil_r; reflexivity]|].
  pose proof (prune_shk e h) as S. set (h1 := prune_handle e h) in *. clearbody h1.
  destruct (find_free (h_wr h1) 0) as [n|] eqn:EF; [|intros H; injection H as <- <- <-; split; [apply shk_grown, S|exists []; rewrite app_nil_r; reflexivity]].
  destruct (if e_bind e then sk_lookup ks name else Some O) as [k|]; [intros H; injection H as <- <- <-; split; [apply shk_grown, S|exists []; rewrite app_nil_r; reflexivity]|].
  apply find_free_some in EF. rewrite Nat.sub_0_r in EF. destruct EF as (_ & L & _).
  destruct (e_self e); intros H; injection H as <- <- <-; (split; [|eexists; reflexivity]); cbn [h_wr set].
  - apply (grown_shk_l _ _ _ _ _ S). intros n'. rewrite nth_set_nat by exact L. destruct (Nat.eqb_spec n' n) as [->|]; [|auto].
    right. right. exists (length ks), []. split; [reflexivity|]. rewrite app_length, sk_app_last. cbn [length k_name ws_name]. split; [lia|reflexivity].
  - apply (grown_shk_l _ _ _ _ _ S). apply shk_grown. intros n'. rewrite nth_set_nat by (rewrite zlen_set_nat; exact L).
    destruct (Nat.eqb_spec n' n) as [->|N]; [right; reflexivity|]. rewrite nth_set_nat by exact L. destruct (Nat.eqb_spec n' n); [contradiction|auto].
Qed.

(** every occupied slot is that of a known socket, and of a live client if the socket is open *)
Definition OCC (w : world) : Prop := forall b n, ws_pid (slot (whd b w) n) <> 0 ->
  exists s, (s < length (w_ks w))%nat /\ k_name (sk (w_ks w) s) = ws_name (slot (whd b w) n)
    /\ (k_open (sk (w_ks w) s) = true -> exists c, wt b w c n s).

Lemma OCC_upd w w' : OCC w -> (length (w_ks w) <= length (w_ks w'))%nat ->
  (forall s, (s < length (w_ks w))%nat -> k_name (sk (w_ks w') s) = k_name (sk (w_ks w) s)) ->
  (forall s, (s < length (w_ks w))%nat -> k_open (sk (w_ks w') s) = true -> k_open (sk (w_ks w) s) = true) ->
  (forall b n, slot (whd b w') n = slot (whd b w) n \/ ws_pid (slot (whd b w') n) = 0
     \/ exists s c, (s < length (w_ks w'))%nat /\ k_name (sk (w_ks w') s) = ws_name (slot (whd b w') n) /\ wt b w' c n s) ->
  (forall b c n s, wt b w c n s -> k_open (sk (w_ks w') s) = true -> wt b w' c n s) -> OCC w'.
Proof.
  intros O HL HN HO HS HW b n Hp. destruct (HS b n) as [E|[E|(s & c & L & Q & T)]]; [|contradiction|exists s; split; [exact L|split; [exact Q|eauto]]].
  rewrite E in Hp. destruct (O b n Hp) as (s & L & N & T). exists s. split; [lia|]. split; [rewrite HN, E by exact L; exact N|].
  intros Op. destruct (T (HO s L Op)) as [c Q]. exists c. apply (HW _ _ _ _ Q Op).
Qed.

Lemma OCC_calm w w' c : OCC w -> sim (w_ks w) (w_ks w') -> (forall b, shk (h_wr (whd b w)) (h_wr (whd b w'))) ->
  (forall c', c' <> c -> cli w' c' = cli w c') ->
  (c_live (cli w c) = true -> c_live (cli w' c) = true /\ forall b n s p, hnd b (cli w c) = Some (Wait n s p) -> exists p', hnd b (cli w' c) = Some (Wait n s p')) -> OCC w'.
Proof.
  intros O [SL S] K HC HA. apply (OCC_upd w w'); [exact O|lia| | | |].
  - intros s _. apply S.
  - intros s _. destruct (S s) as (_ & _ & -> & _). auto.
  - intros b n. destruct (K b n); auto.
  - intros b c' n s H _. destruct (Nat.eq_dec c' c) as [->|N].
    + destruct H as [L [p H]]. destruct (HA L) as [L' Q]. split; [exact L'|]. apply (Q b n s p H).
    + apply (wt_same b w); [apply HC; exact N|exact H].
Qed.
Lemma same_wait a b n s p : bw_same a b -> a = Some (Wait n s p) -> exists p', b = Some (Wait n s p').
Proof. intros S ->. destruct b as [[|n0 s0 p0]|]; cbn in S; try discriminate. destruct S as [-> ->]. eauto. Qed.
Lemma same_id_wait a b : same_id a b -> forall d n s p, hnd d a = Some (Wait n s p) -> exists p', hnd d b = Some (Wait n s p').
Proof. intros I [] n s p H; cbn [hnd] in *; [apply (same_wait _ _ _ _ _ (id_w2r _ _ I) H)|apply (same_wait _ _ _ _ _ (id_r2w _ _ I) H)]. Qed.
Lemma shk_whd_refl b w w' : whd b w' = whd b w -> shk (h_wr (whd b w)) (h_wr (whd b w')).
Proof. intros ->. apply shk_refl. Qed.

Lemma open_bw_occ e w flags pid w1 hs : has flags SHR_RDONLY = negb (has flags SHR_WRONLY) ->
  open_blockwake e w flags pid = Ok (w1, hs) ->
  (forall b, grown (h_wr (whd b w)) (h_wr (whd b w1)) (w_ks w1) (match hs with Some h2 => if b then fst h2 else snd h2 | None => None end)).
Proof.
  intros Hro H b. unfold open_blockwake in H. destruct (has flags SHR_WRONLY) eqn:Hw; cbn [negb] in Hro; rewrite Hro in H.
  - cbn [obind] in H. destruct (bw_open_wake e (w_ks w) (w_w2r w)) as [h1 a] eqn:Ea. pose proof (open_wake_shk _ _ _ _ _ Ea) as S1.
    destruct a as [x|]; [|injection H as <- <-; destruct b; cbn [whd w_w2r w_r2w w_ks set]; apply shk_grown; [exact S1|apply shk_refl]].
    cbn [w_ring w_ks w_w2r w_r2w w_cl w_fsz set] in H. destruct (negb (has flags SHR_NONBLOCK) && negb (r_drop (w_ring w))).
    2: { injection H as <- <-. destruct b; cbn [whd w_w2r w_r2w w_ks set]; apply shk_grown; [exact S1|apply shk_refl]. }
    destruct (bw_open_wait e (w_ks w) (w_r2w w) pid (e_name e)) as [[ks h2] b'] eqn:Eb. destruct (open_wait_grown _ _ _ _ _ _ _ _ Eb) as [S2 _].
    destruct b' as [y|].
    + injection H as <- <-. destruct b; cbn [whd w_w2r w_r2w w_ks set fst snd]; [apply shk_grown; exact S1|exact S2].
    + assert (S2' : shk (h_wr (w_r2w w)) (h_wr h2)) by (intros n; destruct (S2 n) as [Q|[Q|(s & p & Q & _)]]; [auto|auto|discriminate]).
      pose proof (bw_close_shk ks h1 x) as SC. cbn [w_ring w_ks w_w2r w_r2w w_cl w_fsz set] in H. destruct (bw_close ks h1 x) as [ks3 h3]. cbn [snd] in SC.
      injection H as <- <-. destruct b; cbn [whd w_w2r w_r2w w_ks set]; apply shk_grown; [apply (shk_trans _ _ _ S1 SC)|exact S2'].
  - destruct (bw_open_wait e (w_ks w) (w_w2r w) pid (e_name e)) as [[ks h1] a] eqn:Ea. destruct (open_wait_grown _ _ _ _ _ _ _ _ Ea) as [S1 _].
    cbn [w_ring w_ks w_w2r w_r2w w_cl w_fsz set] in H.
    destruct (bw_open_wake e ks (w_r2w w)) as [h2 y] eqn:Eb. pose proof (open_wake_shk _ _ _ _ _ Eb) as S2.
    cbn [w_ring w_ks w_w2r w_r2w w_cl w_fsz set] in H.
    assert (SC : forall ks1, shk (h_wr (w_r2w w)) (h_wr (match y with Some z => snd (bw_close ks1 h2 z) | None => h2 end))).
    { intros ks1. destruct y as [z|]; [apply (shk_trans _ _ _ S2), bw_close_shk|exact S2]. }
    destruct a as [x|].
    + assert (SX : exists n s, x = Wait n s []).
      { unfold bw_open_wait in Ea. destruct (negb (e_alloc e)); [discriminate Ea|]. destruct (find_free _ _) as [n|]; [|discriminate Ea].
        destruct (if e_bind e then _ else _); [discriminate Ea|]. destruct (e_self e); [|discriminate Ea]. injection Ea as _ _ <-. eauto. }
      destruct SX as (n0 & s0 & ->).
      assert (S1' : forall ks1 v, ws_pid v = 0 -> grown (h_wr (w_w2r w)) (set_nat (h_wr h1) n0 v) ks1 None).
      { intros ks1 v Z0 n. destruct (Nat.lt_ge_cases n0 (length (h_wr h1))) as [L|L].
        - rewrite nth_set_nat by exact L. destruct (Nat.eqb_spec n n0) as [->|N]; [auto|]. destruct (S1 n) as [Q|[Q|(s & p & Q & _)]]; auto. injection Q as -> _ _. contradiction.
        - rewrite set_nat_out by exact L. destruct (S1 n) as [Q|[Q|(s & p & Q & _)]]; auto. injection Q as -> _ _. right. left. rewrite nth_overflow by exact L. reflexivity. }
      destruct y as [z|].
      * apply obind_ok in H. destruct H as ([w2 st] & H & H2). apply obind_ok in H. destruct H as ([ks2 ok] & Ef & H).
        cbn [w_ring w_ks w_w2r w_r2w w_cl w_fsz set] in H. destruct ok.
        -- injection H as <- <-. injection H2 as <- <-. destruct b; cbn [whd w_w2r w_r2w w_ks set fst snd]; [|apply shk_grown; exact S2].
           assert (SK : length ks2 = length ks /\ forall s, k_name (sk ks2 s) = k_name (sk ks s)).
           { cbn [bw_force] in Ef. destruct (negb (e_force e)); [injection Ef as <- _; auto|].
             assert (G : forall f, (forall x, k_name (f x) = k_name x) -> length (sk_upd ks s0 f) = length ks /\ forall s, k_name (sk (sk_upd ks s0 f) s) = k_name (sk ks s)).
             { intros f Hf. split; [apply sk_upd_len|]. intros s. destruct (Nat.eq_dec s s0) as [->|N]; [|rewrite sk_upd_other by exact N; reflexivity].
               destruct (Nat.lt_ge_cases s0 (length ks)) as [L|L]; [rewrite sk_upd_same by exact L; apply Hf|unfold sk_upd; rewrite set_nat_out by exact L; reflexivity]. }
             destruct (negb _ && _); [injection Ef as <-; apply G; reflexivity|]. destruct (_ && _); injection Ef as <-; [apply G; reflexivity|auto]. }
           destruct SK as [SK1 SK2]. intros n. destruct (S1 n) as [Q|[Q|(s & p & Q & Q1 & Q2)]]; [auto|auto|]. right. right. exists s, p. rewrite SK1, SK2. auto.
        -- pose proof (SC ks2) as SC2. destruct (bw_close ks2 h2 z) as [ks3 h3]. cbn [snd] in SC2. cbn [w_ring w_ks w_w2r w_r2w w_cl w_fsz set bw_close] in H.
           injection H as <- <-. injection H2 as <- <-. destruct b; cbn [whd w_w2r w_r2w w_ks set fst snd h_wr]; [apply S1'; reflexivity|apply shk_grown; exact SC2].
      * cbn [w_ring w_ks w_w2r w_r2w w_cl w_fsz set bw_close obind] in H. injection H as <- <-. destruct b; cbn [whd w_w2r w_r2w w_ks set fst snd h_wr]; [apply S1'; reflexivity|apply shk_grown; exact S2].
    + assert (S1' : shk (h_wr (w_w2r w)) (h_wr h1)) by (intros n; destruct (S1 n) as [Q|[Q|(s & p & Q & _)]]; [auto|auto|discriminate]).
      pose proof (SC ks) as SC2. destruct y as [z|]; cbn [w_ring w_ks w_w2r w_r2w w_cl w_fsz set obind] in H.
      * destruct (bw_close ks h2 z) as [ks3 h3]. cbn [snd] in SC2. cbn [obind] in H. injection H as <- <-. destruct b; cbn [whd w_w2r w_r2w w_ks set fst snd h_wr]; apply shk_grown; assumption.
      * injection H as <- <-. destruct b; cbn [whd w_w2r w_r2w w_ks set fst snd h_wr]; apply shk_grown; assumption.
Qed.

Lemma do_open_orderly e w flags pid w' o : e_lock e = true -> e_alloc e = true -> e_msync e = true -> do_open e w flags pid = Ok (w', o) ->
  (w' = w /\ o = None /\ (validate_flags flags = false \/ validate_ring (w_fsz w) true (w_ring w) < 0))
  \/ exists hs, validate_flags flags = true /\ open_blockwake e w flags pid = Ok (w', hs)
     /\ match o with None => hs = None | Some cl => hs = Some (c_w2r cl, c_r2w cl) /\ c_live cl = true end.
Proof.
  intros El Ea Em. unfold do_open. intros H. destruct (validate_flags flags); cbn [negb] in H; [|injection H as <- <-; auto].
  rewrite El in H. cbn [negb] in H.
  destruct (Z.ltb_spec (validate_ring (w_fsz w) true (w_ring w)) 0); [injection H as <- <-; auto|].
  rewrite Ea, andb_false_r in H.
  apply obind_ok in H. destruct H as ([w1 hs] & E & H). right. exists hs. split; [reflexivity|].
  destruct hs as [[a b]|]; [|injection H as <- <-; split; [exact E|reflexivity]].
  assert (CA : exists ca, init_cache e (w_ring w) flags = Some ca).
  { unfold init_cache. destruct (_ || _); [eauto|]. rewrite Ea. cbn [negb]. eauto. }
  destruct CA as [ca CA]. rewrite CA in H.
  assert (SY : shr_sync e (w_ring w) = true) by (unfold shr_sync; rewrite Em; apply orb_true_r). rewrite SY in H.
  injection H as <- <-. split; [exact E|]. cbn [c_w2r c_r2w c_live]. auto.
Qed.
Lemma orderly_steady : forall w a, orderly w a -> steady w a. Proof. intros w a [H _]. exact H. Qed.
Lemma orderly_contract : forall w a, orderly w a -> contract w a. Proof. intros w a [H _]. apply steady_contract. exact H. Qed.
Lemma close_one ks h x : 
  length (fst (bw_close ks h x)) = length ks
  /\ (forall s, k_name (sk (fst (bw_close ks h x)) s) = k_name (sk ks s))
  /\ (forall s, k_open (sk (fst (bw_close ks h x)) s) = true -> k_open (sk ks s) = true)
  /\ (forall n s p, x = Wait n s p -> k_open (sk (fst (bw_close ks h x)) s) = false).
Proof.
  destruct x as [q cs|n s p]; [cbn [bw_close fst]; repeat split; auto; discriminate|].
  destruct (close_old ks h n s p _ _ eq_refl) as (D1 & D2 & D3 & D4 & D5 & D6). cbn [bw_close fst] in *.
  split; [exact D1|]. split; [intros s'; apply (D6 s')|]. split.
  - intros s' Q. destruct (Nat.eq_dec s' s) as [->|N]; [congruence|]. rewrite D2 in Q by exact N. exact Q.
  - intros n1 s1 p1 Q. injection Q as <- <- <-. exact D5.
Qed.
Lemma drop_one ks h :
  length (drop_sock ks h) = length ks
  /\ (forall s, k_name (sk (drop_sock ks h) s) = k_name (sk ks s))
  /\ (forall s, k_open (sk (drop_sock ks h) s) = true -> k_open (sk ks s) = true)
  /\ (forall n s p, h = Some (Wait n s p) -> k_open (sk (drop_sock ks h) s) = false).
Proof.
  destruct (drop_sock_fields ks h) as [A B]. split; [exact A|]. split; [intros s; apply (B s)|].
  destruct h as [[q cs|n s p]|]; cbn [drop_sock]; (split; [|try discriminate]); auto.
  - intros s' Q. destruct (Nat.eq_dec s' s) as [->|N]; [|rewrite sk_upd_other in Q by exact N; exact Q].
    destruct (Nat.lt_ge_cases s (length ks)) as [L|L]; [rewrite sk_upd_same in Q by exact L; discriminate|].
    unfold sk_upd in Q. rewrite set_nat_out in Q by exact L. exact Q.
  - intros n1 s1 p1 Q. injection Q as <- <- <-. destruct (Nat.lt_ge_cases s (length ks)) as [L|L]; [rewrite sk_upd_same by exact L; reflexivity|].
    unfold sk_upd. rewrite set_nat_out, sk_out by exact L. reflexivity.
Qed.

(** what waking does to the sockets *)
Lemma sk_upd_sim ks k f : KI ks -> (forall x, k_name (f x) = k_name x /\ k_pid (f x) = k_pid x /\ k_open (f x) = k_open x /\ k_cap (f x) = k_cap x /\ (0 <= k_pend x -> 0 <= k_pend (f x))) ->
  sim ks (sk_upd ks k f).
Proof.
  intros K H. split; [apply sk_upd_len|]. intros s. pose proof (ki_pend _ K s) as P. destruct (Nat.eq_dec s k) as [->|N].
  - destruct (Nat.lt_ge_cases k (length ks)) as [L|L].
    + rewrite sk_upd_same by exact L. destruct (H (sk ks k)) as (Q1 & Q2 & Q3 & Q4 & Q5). repeat split; auto.
    + unfold sk_upd. rewrite set_nat_out by exact L. repeat split; exact P.
  - rewrite sk_upd_other by exact N. repeat split; exact P.
Qed.
Lemma wake_slot_sim e n ks s c s' c' ks' inc : KI ks -> wake_slot e n ks s c = (s', c', ks', inc) -> sim ks ks'.
Proof.
  intros K. unfold wake_slot. destruct (cn_fd c) as [k|]; [|intros H; injection H as _ _ <- _; apply sim_refl, K].
  destruct (k_open (sk ks k) && e_send e n); [|intros H; injection H as _ _ <- _; apply sim_refl, K].
  destruct (_ <? _); intros H; injection H as _ _ <- _; [|apply sim_refl, K].
  apply sk_upd_sim; [exact K|]. intros x. cbn. repeat split. lia.
Qed.
Lemma wake_slots_sim e : forall wr cs n ks wr' cs' ks' inc, KI ks -> wake_slots e n ks wr cs = (wr', cs', ks', inc) -> sim ks ks'.
Proof.
  induction wr as [|s t IH]; intros [|c cs] n ks wr' cs' ks' inc K H; cbn [wake_slots] in H; try (injection H as _ _ <- _; apply sim_refl, K).
  destruct (wake_slot e n ks s c) as [[[s1 c1] ks1] inc1] eqn:E1. destruct (wake_slots e (n + 1) ks1 t cs) as [[[t1 cs1] ks2] inc2] eqn:E2.
  injection H as _ _ <- _. pose proof (wake_slot_sim _ _ _ _ _ _ _ _ _ K E1) as S. apply (sim_trans _ _ _ S). apply (IH _ _ _ _ _ _ _ (sim_KI _ _ S K) E2).
Qed.
Lemma bw_wake_sim e ks h x ks' h' x' ok : KI ks -> bw_wake e ks h x = Ok (ks', h', x', ok) -> sim ks ks' /\ exists q cs, x' = Wake q cs.
Proof.
  intros K. destruct x as [q cs|n s p]; cbn [bw_wake]; [|discriminate]. destruct (bw_sync e ks h q cs) as [[[h1 q1] cs1] ok1].
  destruct ok1.
  - destruct (wake_slots e 0 ks (h_wr h1) cs1) as [[[wr2 cs2] ks2] inc] eqn:E2. intros H. injection H as <- _ <- _. split; [apply (wake_slots_sim _ _ _ _ _ _ _ _ _ K E2)|eauto].
  - intros H. injection H as <- _ <- _. split; [apply sim_refl, K|eauto].
Qed.
(** shr_open leaves the clients and the existing sockets alone *)
Definition only_new (ks ks' : socks) : Prop := (length ks <= length ks')%nat /\ forall s, (s < length ks)%nat -> sk ks' s = sk ks s.
Lemma only_new_refl ks : only_new ks ks. Proof. split; auto. Qed.
Lemma only_new_app ks l : only_new ks (ks ++ l).
Proof. split; [rewrite app_length; lia|]. intros s L. apply sk_app1, L. Qed.
Lemma only_new_upd ks ks' k f : only_new ks ks' -> (length ks <= k)%nat -> only_new ks (sk_upd ks' k f).
Proof. intros [A B] L. split; [rewrite sk_upd_len; exact A|]. intros s Hs. rewrite sk_upd_other by lia. apply B, Hs. Qed.
Lemma open_wait_is e ks h pid name ks' h' o : bw_open_wait e ks h pid name = (ks', h', o) -> only_new ks ks' /\ forall x, o = Some x -> exists n, x = Wait n (length ks) [].
Proof.
  intros H. split; [destruct (open_wait_grown _ _ _ _ _ _ _ _ H) as [_ [l ->]]; apply only_new_app|]. intros x ->. unfold bw_open_wait in H.
  destruct (negb (e_alloc e)); [discriminate H|]. destruct (find_free _ _) as [n|]; [|discriminate H].
  destruct (if e_bind e then _ else _); [discriminate H|]. destruct (e_self e); [|discriminate H]. injection H as _ _ <-. eauto.
Qed.
Lemma open_wake_is e ks h h' o : bw_open_wake e ks h = (h', o) -> forall x, o = Some x -> exists q cs, x = Wake q cs.
Proof.
  unfold bw_open_wake. destruct (negb (e_alloc e)); [intros H; injection H as _ <-; discriminate|].
  destruct (bw_sync _ _ _ _ _) as [[[h1 q] cs] ok]. intros H. injection H as _ <-. destruct ok; intros x Q; [injection Q as <-; eauto|discriminate].
Qed.
Lemma only_new_close ks ks' h x : only_new ks ks' -> (forall n s p, x = Wait n s p -> (length ks <= s)%nat) -> only_new ks (fst (bw_close ks' h x)).
Proof. intros O H. destruct x as [q cs|n s p]; cbn [bw_close fst]; [exact O|]. apply only_new_upd; [exact O|apply (H n s p eq_refl)]. Qed.
Lemma only_new_force e ks ks' n s p want ks2 ok : only_new ks ks' -> (length ks <= s)%nat -> bw_force e ks' (Wait n s p) want = Ok (ks2, ok) -> only_new ks ks2.
Proof.
  intros O L. cbn [bw_force]. destruct (negb (e_force e)); [intros H; injection H as <- _; exact O|].
  destruct (negb _ && _); [intros H; injection H as <- _; apply only_new_upd; assumption|]. destruct (_ && _); intros H; injection H as <- _; [apply only_new_upd; assumption|exact O].
Qed.
Lemma open_bw_old e w flags pid w1 hs : has flags SHR_RDONLY = negb (has flags SHR_WRONLY) -> open_blockwake e w flags pid = Ok (w1, hs) ->
  w_cl w1 = w_cl w /\ (length (w_ks w) <= length (w_ks w1))%nat /\ forall s, (s < length (w_ks w))%nat -> sk (w_ks w1) s = sk (w_ks w) s.
Proof.
  intros Hro H. enough (G : w_cl w1 = w_cl w /\ only_new (w_ks w) (w_ks w1)) by exact G.
  unfold open_blockwake in H. destruct (has flags SHR_WRONLY) eqn:Hw; cbn [negb] in Hro; rewrite Hro in H.
  - cbn [obind] in H. destruct (bw_open_wake e (w_ks w) (w_w2r w)) as [h1 a] eqn:Ea. pose proof (open_wake_is _ _ _ _ _ Ea) as S1.
    destruct a as [x|]; [|injection H as <- <-; split; [reflexivity|apply only_new_refl]]. destruct (S1 x eq_refl) as (q & cs & ->).
    cbn [w_ring w_ks w_w2r w_r2w w_cl w_fsz set] in H. destruct (negb (has flags SHR_NONBLOCK) && negb (r_drop (w_ring w))).
    2: { injection H as <- <-. split; [reflexivity|apply only_new_refl]. }
    destruct (bw_open_wait e (w_ks w) (w_r2w w) pid (e_name e)) as [[ks h2] b'] eqn:Eb. destruct (open_wait_is _ _ _ _ _ _ _ _ Eb) as [S2 _].
    destruct b' as [y|]; [injection H as <- <-|cbn [bw_close w_ks w_w2r set] in H; injection H as <- <-]; (split; [reflexivity|exact S2]).
  - destruct (bw_open_wait e (w_ks w) (w_w2r w) pid (e_name e)) as [[ks h1] a] eqn:Ea. destruct (open_wait_is _ _ _ _ _ _ _ _ Ea) as [S1 S1'].
    cbn [w_ring w_ks w_w2r w_r2w w_cl w_fsz set] in H.
    destruct (bw_open_wake e ks (w_r2w w)) as [h2 y] eqn:Eb. pose proof (open_wake_is _ _ _ _ _ Eb) as S2.
    cbn [w_ring w_ks w_w2r w_r2w w_cl w_fsz set] in H.
    assert (CL : forall ks1, only_new (w_ks w) ks1 -> forall s, (length (w_ks w) <= s)%nat -> only_new (w_ks w) (sk_upd ks1 s (fun x => x <| k_open := false |>)))
      by (intros; apply only_new_upd; assumption).
    destruct a as [x|].
    + destruct (S1' x eq_refl) as (n & ->). destruct y as [z|].
      * destruct (S2 z eq_refl) as (q & cs & ->). apply obind_ok in H. destruct H as ([w2 st] & H & H2). apply obind_ok in H. destruct H as ([ks2 ok] & Ef & H).
        pose proof (only_new_force _ _ _ _ _ _ _ _ _ S1 (le_n _) Ef) as S3.
        cbn [w_ring w_ks w_w2r w_r2w w_cl w_fsz set] in H. destruct ok.
        -- injection H as <- <-. injection H2 as <- <-. split; [reflexivity|exact S3].
        -- cbn [w_ring w_ks w_w2r w_r2w w_cl w_fsz set bw_close] in H. injection H as <- <-. injection H2 as <- <-. split; [reflexivity|]. apply CL; [exact S3|lia].
      * cbn [w_ring w_ks w_w2r w_r2w w_cl w_fsz set bw_close obind] in H. injection H as <- <-. split; [reflexivity|]. apply CL; [exact S1|lia].
    + destruct y as [z|]; cbn [w_ring w_ks w_w2r w_r2w w_cl w_fsz set obind] in H.
      * destruct (S2 z eq_refl) as (q & cs & ->). cbn [bw_close w_ks w_r2w set obind] in H. injection H as <- <-. split; [reflexivity|exact S1].
      * injection H as <- <-. split; [reflexivity|exact S1].
Qed.

Lemma step_OCC w0 w evs a w' ev : WI w0 w evs -> KI (w_ks w) -> OCC w -> orderly w a -> step w a = Ok (w', ev) -> OCC w'.
Proof.
  intros W B O [[[HC HG] HN] HO] HS. pose proof (wi_ring _ _ _ W) as I.
  assert (SQ : forall w1 c1 cl1, w_cl w1 = w_cl w -> forall c', c' <> c1 -> cli (setc w1 c1 cl1) c' = cli w c').
  { intros w1 c1 cl1 E c' N. rewrite cli_setc_other by exact N. unfold cli. rewrite E. reflexivity. }
  apply step_inv in HS.
  destruct HS as
   [ a
   | e flags pid w' E
   | e flags pid w' cl E
   | c1 x cl' rs Hl Hpc E
   | c1 e k iov len nb v cl' rs Hl Hpc Hv E
   | c1 e k iov len n s p Hl Hpc He E Er
   | c1 e k iov len nb r1 hw ks bh hw' wok r2 rv cl' rs Hl Hpc He E Ew Eb E2 Ev Ee
   | c1 e buf niov Hl Hpc He
   | c1 e buf niov q md h ks ok Hl Hpc He Hnb E Eh Ef
   | c1 e buf niov q md n s p Hl Hpc He Hnb E Eh
   | c1 e buf niov q md x cur' hr r2w' ks1 bh1 ks2 ok h Hl Hpc He E Eh Er Hn0 Hn1 Ef
   | c1 e w' Hl Hpc Hw'
   | c1 e ks h b cl' rs Hl Hpc He E Ee
   | c1 e Hl Hpc
   | c1 e reset r x Hl Hpc E
   | c1 e get st sz r x Hl Hpc E
   | c1 sid polls Hs Hp
   | a c1 sc k iov len nb cl' rs Ha Hpc E
   | a c1 sc buf niov Ha Hpc
   | c1 Hl ].
  all: try (pose proof (live_bound _ _ Hl) as LB; destruct (wi_cl _ _ _ W c1 Hl) as [ms C]; pose proof (ci_pc _ _ _ _ C) as P; unfold pc_ok in P; rewrite ?Hpc in P).
  all: try (assert (LB : (c1 < length (w_cl w))%nat) by (apply pc_bound; rewrite Hpc; discriminate)).
  - exact O.
  - (* open fails *)
    destruct HO as (El & Ea & Em). pose proof HC as (_ & HP0 & Hex). cbn [good_env new_names] in HG, HN. assert (Hp0 : pid <> 0) by lia.
    destruct (do_open_orderly _ _ _ _ _ _ El Ea Em E) as [[-> _]|(hs & Hv & Eo & ->)]; [exact O|].
    destruct (open_bw_old _ _ _ _ _ _ (roles_excl _ Hv Hex) Eo) as (O1 & O4 & O5).
    pose proof (open_bw_occ _ _ _ _ _ _ (roles_excl _ Hv Hex) Eo) as GR.
    apply (OCC_upd w w'); [exact O|exact O4| | | |].
    + intros s L. rewrite O5 by exact L. reflexivity.
    + intros s L. rewrite O5 by exact L. auto.
    + intros b n. destruct (GR b n) as [Q|[Q|(s & p & Q & _)]]; [auto|auto|discriminate].
    + intros b c n s H _. apply (wt_same b w); [unfold cli; rewrite O1; reflexivity|exact H].
  - (* open *)
    destruct HO as (El & Ea & Em). pose proof HC as (_ & HP0 & Hex). cbn [good_env new_names] in HG, HN. assert (Hp0 : pid <> 0) by lia.
    destruct (do_open_orderly _ _ _ _ _ _ El Ea Em E) as [(_ & Q & _)|(hs & Hv & Eo & -> & Hlv)]; [discriminate Q|].
    destruct (open_bw_old _ _ _ _ _ _ (roles_excl _ Hv Hex) Eo) as (O1 & O4 & O5).
    pose proof (open_bw_occ _ _ _ _ _ _ (roles_excl _ Hv Hex) Eo) as GR.
    set (c0 := length (w_cl w)).
    assert (CL : forall c, c <> c0 -> cli (w' <| w_cl := w_cl w' ++ [cl] |>) c = cli w c).
    { intros c N. unfold cli. cbn [w_cl set]. rewrite O1. destruct (Nat.lt_ge_cases c c0) as [L|L]; [apply app_nth1; exact L|].
      rewrite !nth_overflow; [reflexivity|unfold c0 in L; lia|rewrite app_length; cbn; unfold c0 in *; lia]. }
    assert (ME : cli (w' <| w_cl := w_cl w' ++ [cl] |>) c0 = cl).
    { unfold cli. cbn [w_cl set]. rewrite O1. unfold c0. rewrite app_nth2, Nat.sub_diag by lia. reflexivity. }
    assert (WHD : forall b, whd b (w' <| w_cl := w_cl w' ++ [cl] |>) = whd b w') by (intros []; reflexivity).
    apply (OCC_upd w _); [exact O|exact O4| | | |].
    + intros s L. cbn [w_ks set]. rewrite O5 by exact L. reflexivity.
    + intros s L. cbn [w_ks set]. rewrite O5 by exact L. auto.
    + intros b n. rewrite WHD. destruct (GR b n) as [Q|[Q|(s & p & Q & Q1 & Q2)]]; [auto|auto|]. right. right. exists s, c0. cbn [w_ks set].
      split; [exact Q1|]. split; [exact Q2|]. split; rewrite ME; [exact Hlv|]. exists p. destruct b; exact Q.
    + intros b c n s H _. apply (wt_same b w); [|exact H]. apply CL. destruct H as [L _]. apply live_bound in L. unfold c0. lia.
  - destruct (start_call_id _ _ _ _ E) as [ID _].
    apply (OCC_calm w _ c1); [exact O|apply sim_refl, B|intros []; apply shk_refl|apply SQ; reflexivity|].
    rewrite cli_setc_same by exact LB. intros L. split; [rewrite (id_live _ _ ID); exact L|apply (same_id_wait _ _ ID)].
  - destruct (end_write_id _ _ _ _ _ _ E) as [ID _].
    apply (OCC_calm w _ c1); [exact O|apply sim_refl, B|intros []; apply shk_refl|apply SQ; reflexivity|].
    rewrite cli_setc_same by exact LB. intros L. split; [rewrite (id_live _ _ ID); exact L|apply (same_id_wait _ _ ID)].
  - apply (OCC_calm w _ c1); [exact O|apply sim_refl, B|intros []; apply shk_refl|apply SQ; reflexivity|].
    rewrite cli_setc_same by exact LB. cbn [c_live set]. intros L. split; [exact L|]. intros b n0 s0 p0 Q. exists p0. destruct b; exact Q.
  - (* commit *)
    destruct P as (Hw & _). destruct (ci_wr _ _ _ _ C Hw) as ((qw & csw & Eqw) & _). rewrite Ew in Eqw. injection Eqw as ->.
    destruct (bw_wake_sim _ _ _ _ _ _ _ _ B Eb) as (U & q' & cs' & ->).
    destruct (end_write_id _ _ _ _ _ _ Ee) as [ID _].
    apply (OCC_calm w _ c1); [exact O|exact U| |apply SQ; reflexivity|].
    + intros []; cbn [whd w_w2r w_r2w setc set]; [apply (bw_wake_shk _ _ _ _ _ _ _ _ Eb)|apply shk_refl].
    + rewrite cli_setc_same by exact LB. intros L. split; [rewrite (id_live _ _ ID); exact L|].
      intros b n s p Q. apply (same_id_wait _ _ ID b n s p). destruct b; [cbn [hnd] in Q; congruence|exact Q].
  - apply (OCC_calm w _ c1); [exact O|apply sim_refl, B|intros []; apply shk_refl|apply SQ; reflexivity|].
    rewrite cli_setc_same by exact LB. cbn [c_live set]. intros L. split; [exact L|]. intros b n0 s0 p0 Q. exists p0. destruct b; exact Q.
  - destruct (force_spec _ _ _ _ _ _ B (gs_force _ _ HG) Ef) as (n & s & p & -> & -> & S & F2 & F3).
    apply (OCC_calm w _ c1); [exact O|exact S|intros []; apply shk_refl|apply SQ; reflexivity|].
    rewrite cli_setc_same by exact LB. cbn [c_live set]. intros L. split; [exact L|]. intros b n0 s0 p0 Q. exists p0. destruct b; exact Q.
  - apply (OCC_calm w _ c1); [exact O|apply sim_refl, B|intros []; apply shk_refl|apply SQ; reflexivity|].
    rewrite cli_setc_same by exact LB. cbn [c_live set]. intros L. split; [exact L|]. intros b n0 s0 p0 Q. exists p0. destruct b; exact Q.
  - (* read *)
    destruct P as (Hr & _). destruct (ci_rd _ _ _ _ C Hr) as ((n & s & p & Ews) & (q0 & cs0 & Erk)). rewrite Ews in Eh. injection Eh as <-.
    assert (S1 : sim (w_ks w) ks1 /\ shk (h_wr (w_r2w w)) (h_wr bh1) /\ (exists q1 cs1, r2w' = Some (Wake q1 cs1))).
    { destruct (rd_nr x >? 0) eqn:Enr.
      - destruct (Hn1 eq_refl) as (hh & hh' & wok & Q1 & Q2 & Q3). rewrite <- Er, Erk in Q1. injection Q1 as <-.
        destruct (bw_wake_sim _ _ _ _ _ _ _ _ B Q3) as (U & q1 & cs1 & ->).
        split; [exact U|]. split; [apply (bw_wake_shk _ _ _ _ _ _ _ _ Q3)|]. exists q1, cs1. exact Q2.
      - destruct (Hn0 eq_refl) as (-> & -> & ->). split; [apply sim_refl, B|]. split; [apply shk_refl|]. exists q0, cs0. rewrite <- Er. exact Erk. }
    destruct S1 as (U & HH & (q1 & cs1 & ->)).
    pose proof (sim_KI _ _ U B) as K1.
    destruct (force_spec _ _ _ _ _ _ K1 (gs_force _ _ HG) Ef) as (n' & s' & p' & Q & -> & S & F2 & F3).
    apply (OCC_calm w _ c1); [exact O|apply (sim_trans _ _ _ U S)| |apply SQ; reflexivity|].
    + intros []; [apply shk_refl|exact HH].
    + rewrite cli_setc_same by exact LB. cbn [c_live set]. intros L. split; [exact L|]. intros b n0 s0 p0 X. exists p0. destruct b; cbn [hnd c_w2r c_r2w set] in *; [exact X|congruence].
  - (* r2w fails *)
    destruct Hw' as [->|(ks & h & He & Eo & ->)].
    { apply (OCC_calm w _ c1); [exact O|apply sim_refl, B|intros []; apply shk_refl|apply SQ; reflexivity|].
      rewrite cli_setc_same by exact LB. cbn [c_live set]. intros L. split; [exact L|]. intros b n0 s0 p0 Q. exists p0. destruct b; exact Q. }
    destruct (open_wait_grown _ _ _ _ _ _ _ _ Eo) as [GR [l EX]].
    apply (OCC_upd w _); [exact O|cbn [w_ks setc set]; rewrite EX, app_length; lia| | | |].
    + intros s L. cbn [w_ks setc set]. rewrite EX, sk_app1 by exact L. reflexivity.
    + intros s L. cbn [w_ks setc set]. rewrite EX, sk_app1 by exact L. auto.
    + intros [] n; cbn [whd w_w2r w_r2w setc set]; [auto|]. destruct (GR n) as [Q|[Q|(s & p & Q & _)]]; [auto|auto|discriminate].
    + intros b c n s H _. destruct (Nat.eq_dec c c1) as [->|N]; [|apply (wt_same b w); [apply SQ; [reflexivity|exact N]|exact H]].
      destruct H as [L [p H]]. split; rewrite cli_setc_same by exact LB; [exact L|]. exists p. destruct b; exact H.
  - (* r2w *)
    destruct P as (Hw & Hne & Hr0). destruct (open_wait_grown _ _ _ _ _ _ _ _ E) as [GR [l EX]].
    destruct (flush_write_id _ _ _ _ _ Ee) as [ID _]. destruct (flush_write_h _ _ _ _ _ Ee) as [SH1 SH2]. cbn [c_w2r c_r2w set] in SH1, SH2.
    assert (ME : forall w1, w_cl w1 = w_cl w -> cli (setc w1 c1 cl') c1 = cl') by (intros w1 Q; apply cli_setc_same; rewrite Q; exact LB).
    assert (LV : c_live cl' = true) by (rewrite (id_live _ _ ID); exact Hl).
    apply (OCC_upd w _); [exact O|cbn [w_ks setc set]; rewrite EX, app_length; lia| | | |].
    + intros s L. cbn [w_ks setc set]. rewrite EX, sk_app1 by exact L. reflexivity.
    + intros s L. cbn [w_ks setc set]. rewrite EX, sk_app1 by exact L. auto.
    + intros [] n; cbn [whd w_w2r w_r2w setc set]; [auto|]. destruct (GR n) as [Q|[Q|(s & p & Q & Q1 & Q2)]]; [auto|auto|]. right. right. exists s, c1.
      split; [exact Q1|]. split; [exact Q2|]. split; rewrite ME by reflexivity; [exact LV|]. exists p. cbn [hnd]. congruence.
    + intros bb c n s H _. destruct (Nat.eq_dec c c1) as [->|N]; [|apply (wt_same bb w); [apply SQ; [reflexivity|exact N]|exact H]].
      destruct H as [L [p H]]. split; rewrite ME by reflexivity; [exact LV|]. exists p. destruct bb; cbn [hnd] in *; congruence.
  - (* close *)
    destruct HO as (-> & _). unfold close_handles.
    set (x1 := match c_w2r (cli w c1) with Some b => bw_close (w_ks w) (w_w2r w) b | None => (w_ks w, w_w2r w) end).
    assert (S1 : length (fst x1) = length (w_ks w) /\ (forall s, k_name (sk (fst x1) s) = k_name (sk (w_ks w) s))
      /\ (forall s, k_open (sk (fst x1) s) = true -> k_open (sk (w_ks w) s) = true)
      /\ (forall n s p, c_w2r (cli w c1) = Some (Wait n s p) -> k_open (sk (fst x1) s) = false) /\ shk (h_wr (w_w2r w)) (h_wr (snd x1))).
    { subst x1. destruct (c_w2r (cli w c1)) as [b|]; [|repeat split; auto; [discriminate|apply shk_refl]].
      destruct (close_one (w_ks w) (w_w2r w) b) as (A1 & A2 & A3 & A4). repeat (split; [assumption|]). split; [intros n s p Q; injection Q as Q; apply (A4 n s p Q)|apply bw_close_shk]. }
    destruct x1 as [ks1 h1]. cbn [fst snd] in S1. destruct S1 as (A1 & A2 & A3 & A4 & A5). cbn [w_ks w_r2w w_w2r set].
    set (x2 := match c_r2w (cli w c1) with Some b => bw_close ks1 (w_r2w w) b | None => (ks1, w_r2w w) end).
    assert (S1 : length (fst x2) = length ks1 /\ (forall s, k_name (sk (fst x2) s) = k_name (sk ks1 s))
      /\ (forall s, k_open (sk (fst x2) s) = true -> k_open (sk ks1 s) = true)
      /\ (forall n s p, c_r2w (cli w c1) = Some (Wait n s p) -> k_open (sk (fst x2) s) = false) /\ shk (h_wr (w_r2w w)) (h_wr (snd x2))).
    { subst x2. destruct (c_r2w (cli w c1)) as [b|]; [|repeat split; auto; [discriminate|apply shk_refl]].
      destruct (close_one ks1 (w_r2w w) b) as (B1 & B2 & B3 & B4). repeat (split; [assumption|]). split; [intros n s p Q; injection Q as Q; apply (B4 n s p Q)|apply bw_close_shk]. }
    destruct x2 as [ks2 h2]. cbn [fst snd] in S1. destruct S1 as (B1 & B2 & B3 & B4 & B5). cbn [w_ks w_r2w w_w2r set].
    apply (OCC_upd w _); [exact O|cbn [w_ks setc set]; lia| | | |].
    + intros s L. cbn [w_ks setc set]. rewrite B2, A2. reflexivity.
    + intros s L. cbn [w_ks setc set]. auto.
    + intros b n. destruct b; cbn [whd w_w2r w_r2w setc set]; [destruct (A5 n)|destruct (B5 n)]; auto.
    + intros b c n s H Ho. cbn [w_ks setc set] in Ho. destruct (Nat.eq_dec c c1) as [->|N]; [exfalso|apply (wt_same b w); [apply SQ; [reflexivity|exact N]|exact H]].
      destruct H as [_ [p H]]. destruct b; cbn [hnd] in H; [pose proof (B3 _ Ho) as Q; rewrite (A4 _ _ _ H) in Q|rewrite (B4 _ _ _ H) in Ho]; discriminate.
  - apply (OCC_calm w _ c1); [exact O|apply sim_refl, B|intros []; apply shk_refl|apply SQ; reflexivity|].
    rewrite cli_setc_same by exact LB. cbn [c_live set]. intros L. split; [exact L|]. intros b n0 s0 p0 Q. exists p0. destruct b; exact Q.
  - apply (OCC_calm w _ c1); [exact O|apply sim_refl, B|intros []; apply shk_refl|apply SQ; reflexivity|].
    rewrite cli_setc_same by exact LB. cbn [c_live set]. intros L. split; [exact L|]. intros b n0 s0 p0 Q. exists p0. destruct b; exact Q.
  - (* wake *)
    assert (NI : c_pc (cli w c1) <> Idle) by (intros Q; unfold wait_sid in Hs; rewrite Q in Hs; discriminate).
    assert (LB : (c1 < length (w_cl w))%nat) by (apply pc_bound; exact NI).
    apply (OCC_calm w _ c1); [exact O| |intros []; apply shk_refl|apply SQ; reflexivity|].
    + cbn [w_ks setc set]. unfold bw_recv. rewrite (sk_upd_ext _ _ _ (fun x => x <| k_pend := Z.max 0 (k_pend (sk (w_ks w) sid) - 1) |>)) by reflexivity.
      apply sim_upd; [apply B|lia].
    + rewrite cli_setc_same by exact LB. unfold resume. destruct (c_pc (cli w c1)) as [ | | | | | | | |g0 s0 z0]; cbn [c_live set]; intros L; (split; [exact L|]);
        intros b n1 s1 p1 Q; exists p1; destruct b; exact Q.
  - destruct (end_write_id _ _ _ _ _ _ E) as [ID _].
    apply (OCC_calm w _ c1); [exact O|apply sim_refl, B|intros []; apply shk_refl|apply SQ; reflexivity|].
    rewrite cli_setc_same by exact LB. intros L. split; [rewrite (id_live _ _ ID); exact L|apply (same_id_wait _ _ ID)].
  - apply (OCC_calm w _ c1); [exact O|apply sim_refl, B|intros []; apply shk_refl|apply SQ; reflexivity|].
    rewrite cli_setc_same by exact LB. cbn [c_live set]. intros L. split; [exact L|]. intros b n0 s0 p0 Q. exists p0. destruct b; exact Q.
  - (* crash *)
    destruct (drop_one (w_ks w) (c_w2r (cli w c1))) as (A1 & A2 & A3 & A4).
    destruct (drop_one (drop_sock (w_ks w) (c_w2r (cli w c1))) (c_r2w (cli w c1))) as (B1 & B2 & B3 & B4).
    apply (OCC_upd w _); [exact O|cbn [w_ks setc set]; lia| | | |].
    + intros s L. cbn [w_ks setc set]. rewrite B2, A2. reflexivity.
    + intros s L. cbn [w_ks setc set]. auto.
    + intros [] n; left; reflexivity.
    + intros b c n s H Ho. cbn [w_ks setc set] in Ho. destruct (Nat.eq_dec c c1) as [->|N]; [exfalso|apply (wt_same b w); [apply SQ; [reflexivity|exact N]|exact H]].
      destruct H as [_ [p H]]. destruct b; cbn [hnd] in H; [pose proof (B3 _ Ho) as Q; rewrite (A4 _ _ _ H) in Q|rewrite (B4 _ _ _ H) in Ho]; discriminate.
Qed.

Lemma reach_OCC r w evs : reach orderly r w evs -> PIDS w /\ BI w /\ OCC w.
Proof.
  intros R. destruct (reach_BI _ _ _ (reach_sub _ _ _ _ _ orderly_steady R)) as [PD BB]. split; [exact PD|]. split; [exact BB|].
  destruct R as (fsz & F & X & B).
  refine (proj2 (proj2 (exec_ind_inv orderly r fsz (fun w evs => PIDS w /\ BI w /\ OCC w) orderly_contract F _ _ w evs X B))).
  { split; [intros c; rewrite world0_cli; discriminate|]. split; [apply BI_start|]. intros b n Hp. elim Hp. unfold slot. 
    assert (E : h_wr (whd b (world0 r fsz)) = repeat ws_free BW_WAITMAX) by (destruct b; reflexivity). rewrite E, repeat_nth. reflexivity. }
  clear w evs X B PD BB. intros w evs a w' ev X W HP W' HB HC HS SI _ (Q1 & Q2 & Q3). split; [|split].
  - apply (step_PIDS _ _ _ _ _ _ W Q1 (orderly_contract _ _ HC) HS).
  - apply (ws_bi _ _ _ _ (step_WS _ _ _ _ _ _ W Q1 Q2 (orderly_steady _ _ HC) HS)).
  - apply (step_OCC _ _ _ _ _ _ W (bi_k _ Q2) Q3 HC HS).
Qed.

(** ** a free slot is found *)
Lemma pick {A B} (R : A -> B -> Prop) : forall l : list A, (forall x, In x l -> exists y, R x y) ->
  exists l', length l' = length l /\ Forall2 R l l'.
Proof.
  induction l as [|x l IH]; intros H; [exists []; split; [reflexivity|constructor]|].
  destruct (H x (or_introl eq_refl)) as [y Hy]. destruct IH as (l' & L & F); [intros z Hz; apply H; right; exact Hz|].
  exists (y :: l'). split; [cbn; congruence|constructor; assumption].
Qed.
Lemma forall2_in {A B} (R : A -> B -> Prop) : forall l l' y, Forall2 R l l' -> In y l' -> exists x, In x l /\ R x y.
Proof.
  intros l l' y F. induction F as [|a b l l' Hab F IH]; intros [].
  - subst b. exists a. split; [left; reflexivity|exact Hab].
  - destruct (IH H) as (x & Hx & HR). exists x. split; [right; exact Hx|exact HR].
Qed.
Lemma forall2_nodup {A B} (R : A -> B -> Prop) : (forall x x' y, R x y -> R x' y -> x = x') ->
  forall l l', NoDup l -> Forall2 R l l' -> NoDup l'.
Proof.
  intros HI l l' N F. induction F as [|a b l l' Hab F IH]; [constructor|]. inversion N; subst. constructor; [|apply IH; assumption].
  intros Hb. destruct (forall2_in _ _ _ _ F Hb) as (x & Hx & HR). rewrite (HI _ _ _ Hab HR) in *. contradiction.
Qed.
Definition registered_on (b : bool) (w : world) : list nat :=
  if b then readers w else waiting_writers w.
Lemma registered_on_in b w c n s : wt b w c n s -> In c (registered_on b w).
Proof.
  intros H. pose proof H as [L _]. apply live_bound in L. destruct b; cbn [registered_on].
  - unfold readers. apply filter_In. split; [apply in_seq; lia|]. replace (data_sock w c) with (Some s); [reflexivity|]. symmetry. apply data_sock_wt. eauto.
  - unfold waiting_writers. apply filter_In. split; [apply in_seq; lia|]. replace (space_sock w c) with (Some s); [reflexivity|]. symmetry. apply space_sock_wt. eauto.
Qed.
Lemma free_slot b w e : KI (w_ks w) -> length (h_wr (whd b w)) = BW_WAITMAX -> OCC w -> good_sockets (w_ks w) e -> (length (registered_on b w) < BW_WAITMAX)%nat ->
  find_free (h_wr (prune_handle e (whd b w))) 0 <> None.
Proof.
  intros B LEN O G LT F.
  assert (LN : length (h_wr (prune_handle e (whd b w))) = BW_WAITMAX).
  { unfold prune_handle. destruct (prune_slots e (h_wr (whd b w))) as [wr' k] eqn:E. destruct (prune_slots_spec _ _ _ _ E) as (A & _). cbn [h_wr]. rewrite A. exact LEN. }
  assert (ALL : forall n, In n (seq 0 BW_WAITMAX) -> exists c, exists s, wt b w c n s).
  { intros n Hn. apply in_seq in Hn. pose proof (find_free_none _ _ F n ltac:(lia)) as NZ.
    unfold prune_handle in NZ. destruct (prune_slots e (h_wr (whd b w))) as [wr' k] eqn:E. destruct (prune_slots_spec _ _ _ _ E) as (_ & _ & _ & A). cbn [h_wr] in NZ.
    destruct (A n) as [[Q1 Q2]|[Q1 Q2]]; [|contradiction]. rewrite Q1 in NZ. destruct Q2 as [Q2|Q2]; [contradiction|].
    destruct (O b n NZ) as (s & Ls & Ns & T). change (slot (whd b w) n) with (nth n (h_wr (whd b w)) ws_free) in Ns.
    assert (Ho : k_open (sk (w_ks w) s) = true).
    { destruct (k_open (sk (w_ks w) s)) eqn:Op; [reflexivity|exfalso]. apply Q2. apply (gs_probe _ _ G). intros (x & Hi & X1 & X2 & X3).
      apply (In_nth _ _ sock_dead) in Hi. destruct Hi as (s' & Ls' & Es'). assert (s' = s); [|subst s'; unfold sk in Op; congruence].
      apply (ki_names _ B); [exact Ls'|exact Ls|]. unfold sk at 1. rewrite Es'. congruence. }
    destruct (T Ho) as [c Hc]. exists c, s. exact Hc. }
  destruct (pick (fun n c => exists s, wt b w c n s) _ ALL) as (l' & LL & F2).
  assert (ND : NoDup l').
  { refine (forall2_nodup _ _ _ _ (seq_NoDup BW_WAITMAX 0) F2). intros n n' c [s H] [s' H']. apply (wt_fun _ _ _ _ _ _ _ H H'). }
  assert (IN : incl l' (registered_on b w)).
  { intros c Hc. destruct (forall2_in _ _ _ _ F2 Hc) as (n & _ & s & H). apply (registered_on_in _ _ _ _ _ H). }
  pose proof (NoDup_incl_length ND IN) as Q. rewrite LL, seq_length in Q. lia.
Qed.

(** ** opening succeeds while there is room *)
Lemma sk_lookup_new ks name : (forall k, In k ks -> k_name k <> name) -> sk_lookup ks name = None.
Proof.
  intros H. destruct (sk_lookup ks name) as [k|] eqn:E; [|reflexivity]. apply sk_lookup_some in E. destruct E as (_ & Q & L). elim (H (sk ks k)); [apply nth_In; exact L|exact Q].
Qed.
Lemma open_wait_ok e ks h pid name : e_alloc e = true -> e_bind e = true -> e_self e = true -> (forall k, In k ks -> k_name k <> name) ->
  find_free (h_wr (prune_handle e h)) 0 <> None -> exists ks' h' n, bw_open_wait e ks h pid name = (ks', h', Some (Wait n (length ks) [])).
Proof.
  intros A1 A2 A3 A4 A5. unfold bw_open_wait. rewrite A1, A2, A3, (sk_lookup_new _ _ A4). cbn [negb].
  destruct (find_free (h_wr (prune_handle e h)) 0) as [n|]; [|contradiction]. eauto.
Qed.
Lemma open_blockwake_ok w e flags pid w1 hs : KI (w_ks w) -> (forall b, length (h_wr (whd b w)) = BW_WAITMAX) -> (forall b, 0 <= h_seq (whd b w)) -> OCC w -> good_sockets (w_ks w) e -> (forall k, In k (w_ks w) -> k_name k <> e_name e) ->
  has flags SHR_RDONLY = negb (has flags SHR_WRONLY) -> e_alloc e = true -> e_bind e = true -> e_self e = true ->
  (has flags SHR_RDONLY = true -> (length (readers w) < BW_WAITMAX)%nat) ->
  (has flags SHR_WRONLY = true -> has flags SHR_NONBLOCK = false -> r_drop (w_ring w) = false -> (length (waiting_writers w) < BW_WAITMAX)%nat) ->
  open_blockwake e w flags pid = Ok (w1, hs) -> hs <> None.
Proof.
  intros B LEN SEQ O G NN Hro A1 A2 A3 R1 R2 H.
  assert (GE : forall b l, genv (w_ks w ++ l) (whd b w) (fun _ => False) e).
  { intros b l. constructor; try apply G; [contradiction|]. intros p name Hn. apply (good_gone (w_ks w) l); assumption. }
  unfold open_blockwake in H. destruct (has flags SHR_WRONLY) eqn:Hw; cbn [negb] in Hro; rewrite Hro in H.
  - cbn [obind] in H. destruct (bw_open_wake e (w_ks w) (w_w2r w)) as [h1 a] eqn:Ea.
    pose proof (GE true []) as G1. rewrite app_nil_r in G1.
    destruct (open_wake_spec e (w_ks w) (w_w2r w) (fun _ => False) _ _ G1 (LEN true) (SEQ true) Ea) as (_ & _ & NO). specialize (NO A1).
    destruct a as [x|]; [|contradiction]. cbn [w_ring w_ks w_w2r w_r2w w_cl w_fsz set] in H.
    destruct (has flags SHR_NONBLOCK) eqn:Hn; cbn [negb andb] in H; [injection H as _ <-; discriminate|].
    destruct (r_drop (w_ring w)) eqn:Hd; cbn [negb] in H; [injection H as _ <-; discriminate|].
    assert (FF : find_free (h_wr (prune_handle e (w_r2w w))) 0 <> None) by (apply (free_slot false w e B (LEN false) O G); apply R2; reflexivity).
    destruct (open_wait_ok e (w_ks w) (w_r2w w) pid (e_name e) A1 A2 A3 NN FF) as (ks' & h' & n & E). rewrite E in H.
    injection H as _ <-; discriminate.
  - assert (FF : find_free (h_wr (prune_handle e (w_w2r w))) 0 <> None) by (apply (free_slot true w e B (LEN true) O G); apply R1; exact Hro).
    destruct (open_wait_ok e (w_ks w) (w_w2r w) pid (e_name e) A1 A2 A3 NN FF) as (ks' & h' & n & E). rewrite E in H.
    destruct (open_wait_grown _ _ _ _ _ _ _ _ E) as [_ [l EX]].
    cbn [w_ring w_ks w_w2r w_r2w w_cl w_fsz set] in H. destruct (bw_open_wake e ks' (w_r2w w)) as [h2 y] eqn:Eb.
    pose proof (GE false l) as G1. rewrite <- EX in G1.
    destruct (open_wake_spec e ks' (w_r2w w) (fun _ => False) _ _ G1 (LEN false) (SEQ false) Eb) as (_ & _ & NO). specialize (NO A1).
    destruct y as [y|]; [|contradiction]. cbn [w_ring w_ks w_w2r w_r2w w_cl w_fsz set] in H.
    apply obind_ok in H. destruct H as ([w2 st] & H & H2). apply obind_ok in H. destruct H as ([ks2 ok] & Ef & H).
    assert (ok = true) as ->.
    { cbn [bw_force] in Ef. rewrite (gs_force _ _ G) in Ef. cbn [negb] in Ef. destruct (negb _ && _); [injection Ef as _ <-; reflexivity|]. destruct (_ && _); injection Ef as _ <-; reflexivity. }
    cbn [w_ring w_ks w_w2r w_r2w w_cl w_fsz set] in H. injection H as <- <-. injection H2 as _ <-. discriminate.
Qed.
Lemma reclaimed w0 w evs e flags pid : WI w0 w evs -> validate_ring (w_fsz w) true (w_ring w) = 0 ->
  (exists w' ev, step w (AOpen e flags pid) = Ok (w', ev)) -> KI (w_ks w) -> (forall b, length (h_wr (whd b w)) = BW_WAITMAX) -> (forall b, 0 <= h_seq (whd b w)) -> OCC w ->
  orderly w (AOpen e flags pid) -> e_bind e = true -> e_self e = true ->
  has flags SHR_RDONLY || has flags SHR_WRONLY = true -> flags mod SHR_OPEN_FENCE = 0 ->
  (has flags SHR_RDONLY = true -> (length (readers w) < BW_WAITMAX)%nat) ->
  (has flags SHR_WRONLY = true -> has flags SHR_NONBLOCK = false -> r_drop (w_ring w) = false -> (length (waiting_writers w) < BW_WAITMAX)%nat) ->
  exists w', step w (AOpen e flags pid) = Ok (w', [EOpen flags (Some (length (w_cl w)))]).
Proof.
  intros W VR (w' & ev & HS) K LEN SEQ OO Ha Hb Hs F1 F2 R1 R2. pose proof (orderly_contract _ _ Ha) as HC.
  exists w'. rewrite HS. f_equal. f_equal. cbn [step] in HS. apply obind_ok in HS. destruct HS as ([w1 o] & E & HS).
  destruct Ha as [[[_ HG] HN] (El & Ea & Em)]. cbn [good_env new_names] in HG, HN.
  destruct (do_open_ok e w flags pid _ (wi_ring _ _ _ W) HC) as (w2 & o2 & E' & _ & E2 & _). rewrite E in E'. injection E' as <- <-.
  assert (VF : validate_flags flags = true) by (apply validate_flags_iff; auto).
  destruct (do_open_orderly _ _ _ _ _ _ El Ea Em E) as [(_ & _ & [Q|Q])|(hs & _ & Eo & Q)]; [congruence|lia|].
  assert (NH : hs <> None) by (apply (open_blockwake_ok w e flags pid w1 hs); auto; apply roles_excl; [exact VF|apply HC]).
  destruct o as [cl|]; [|contradiction]. injection HS as _ <-. rewrite E2. reflexivity.
Qed.
Theorem f_reclaimed r w evs e flags pid : reach orderly r w evs -> orderly w (AOpen e flags pid) -> e_bind e = true -> e_self e = true ->
  has flags SHR_RDONLY || has flags SHR_WRONLY = true -> flags mod SHR_OPEN_FENCE = 0 ->
  (has flags SHR_RDONLY = true -> (length (readers w) < BW_WAITMAX)%nat) ->
  (has flags SHR_WRONLY = true -> has flags SHR_NONBLOCK = false -> r_drop (w_ring w) = false -> (length (waiting_writers w) < BW_WAITMAX)%nat) ->
  exists w', step w (AOpen e flags pid) = Ok (w', [EOpen flags (Some (length (w_cl w)))]).
Proof.
  intros R Ha. pose proof (reach_OCC _ _ _ R) as (PD & BB & OO). pose proof (reach_sub _ _ _ _ _ orderly_contract R) as RC.
  destruct (reach_inv _ _ _ _ id_contract RC) as (fsz & F & X & B & W & _).
  apply (reclaimed _ _ _ _ _ _ W (f_valid _ _ _ RC) (f_total _ _ _ _ RC (orderly_contract _ _ Ha)) (bi_k _ BB) (bi_len _ BB) (bi_seq _ BB) OO Ha).
Qed.

(** each registered client has its own slot, so there are at most 64 *)
Theorem f_max_waiters r w evs : reach steady r w evs -> (length (readers w) <= BW_WAITMAX)%nat /\ (length (waiting_writers w) <= BW_WAITMAX)%nat.
Proof.
  intros R. destruct (reach_BI _ _ _ R) as [_ BB].
  assert (G : forall b l, NoDup l -> (forall c, In c l -> exists n s, wt b w c n s) -> (length l <= BW_WAITMAX)%nat).
  { intros b l ND H. destruct (pick (fun c n => exists s, wt b w c n s) l H) as (l' & LL & F2).
    assert (ND' : NoDup l').
    { refine (forall2_nodup _ _ _ _ ND F2). intros c c' n [s H1] [s' H2]. apply (slot_owner _ _ _ _ _ _ _ BB H1 H2). }
    assert (IN : incl l' (seq 0 BW_WAITMAX)).
    { intros n Hn. destruct (forall2_in _ _ _ _ F2 Hn) as (c & _ & s & Q). destruct (bi_wt _ BB _ _ _ _ Q) as (LT & _). apply in_seq. lia. }
    pose proof (NoDup_incl_length ND' IN) as Q. rewrite LL, seq_length in Q. exact Q. }
  split; [refine (G true _ _ _)|refine (G false _ _ _)].
  - apply NoDup_filter, seq_NoDup.
  - intros c Hc. apply filter_In in Hc. destruct Hc as [_ Hc]. destruct (data_sock w c) as [s|] eqn:E; [|discriminate]. apply data_sock_wt in E. destruct E as [n E]. eauto.
  - apply NoDup_filter, seq_NoDup.
  - intros c Hc. apply filter_In in Hc. destruct Hc as [_ Hc]. destruct (space_sock w c) as [s|] eqn:E; [|discriminate]. apply space_sock_wt in E. destruct E as [n E]. eauto.
Qed.

(** ** bw_open alone, on any handle *)
Theorem f_bw_reserve e ks h pid name n : good_sockets ks e -> length (h_wr h) = BW_WAITMAX ->
  e_alloc e = true -> e_bind e = true -> e_self e = true -> (forall k, In k ks -> k_open k = true -> k_name k <> name) ->
  (n < BW_WAITMAX)%nat -> (ws_pid (slot_of h n) = 0 \/ ~ alive ks (slot_of h n)) ->
  exists ks' h' n', bw_open_wait e ks h pid name = (ks', h', Some (Wait n' (length ks) [])) /\ (n' < BW_WAITMAX)%nat
    /\ slot_of h' n' = mkws pid name /\ (ws_pid (slot_of h n') = 0 \/ ~ alive ks (slot_of h n'))
    /\ (forall m, m <> n' -> slot_of h' m = slot_of h m \/ (ws_pid (slot_of h' m) = 0 /\ ~ alive ks (slot_of h m))).
Proof.
  intros G L A1 A2 A3 NN Ln Hd. unfold bw_open_wait, prune_handle. rewrite A1, A2, A3. cbn [negb].
  destruct (prune_slots e (h_wr h)) as [wr' k] eqn:E. destruct (prune_slots_spec _ _ _ _ E) as (P1 & _ & _ & P4). cbn [h_wr h_seq].
  assert (LK : sk_lookup ks name = None).
  { destruct (sk_lookup ks name) as [j|] eqn:Q; [|reflexivity]. apply sk_lookup_some in Q. destruct Q as (Q1 & Q2 & Q3). elim (NN (sk ks j)); [apply nth_In; exact Q3|exact Q1|exact Q2]. }
  rewrite LK.
  destruct (find_free wr' 0) as [n'|] eqn:EF.
  - apply find_free_some in EF. rewrite Nat.sub_0_r in EF. destruct EF as (_ & F2 & F3). eexists _, _, n'. split; [reflexivity|].
    split; [lia|]. unfold slot_of. cbn [h_wr]. split; [rewrite nth_set_nat by exact F2; rewrite Nat.eqb_refl; reflexivity|]. split.
    + destruct (P4 n') as [[Q1 Q2]|[_ Q2]]; [left; congruence|right]. apply (gs_probe _ _ G) in Q2. exact Q2.
    + intros m Hm. rewrite nth_set_nat by exact F2. destruct (Nat.eqb_spec m n'); [contradiction|]. destruct (P4 m) as [[Q1 _]|[Q1 Q2]]; [left; exact Q1|right].
      split; [exact Q1|]. apply (gs_probe _ _ G) in Q2. exact Q2.
  - exfalso. pose proof (find_free_none _ _ EF n ltac:(lia)) as NZ. destruct (P4 n) as [[Q1 Q2]|[Q1 Q2]]; [|contradiction]. rewrite Q1 in NZ.
    unfold slot_of in Hd. destruct Hd as [Hd|Hd]; [contradiction|]. destruct Q2 as [Q2|Q2]; [contradiction|]. apply Q2. apply (gs_probe _ _ G). exact Hd.
Qed.
