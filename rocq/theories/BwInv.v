(** * Facts about block/wake handles: registration, synchronisation of wakers
    and what a wake-up reaches. *)
From Verif Require Export PollFacts.

(** ** sockets *)
Lemma sk_upd_len ks s f : length (sk_upd ks s f) = length ks.
Proof. apply zlen_set_nat. Qed.
Lemma sk_upd_same ks s f : (s < length ks)%nat -> sk (sk_upd ks s f) s = f (sk ks s).
Proof. intros H. unfold sk at 1, sk_upd. rewrite nth_set_nat by exact H. rewrite Nat.eqb_refl. reflexivity. Qed.
Lemma sk_upd_other ks s s' f : s' <> s -> sk (sk_upd ks s f) s' = sk ks s'.
Proof.
  intros H. unfold sk_upd. destruct (Nat.lt_ge_cases s (length ks)) as [L|L].
  - unfold sk at 1. rewrite nth_set_nat by exact L. destruct (Nat.eqb_spec s' s); [contradiction|reflexivity].
  - rewrite set_nat_out by exact L. reflexivity.
Qed.
Lemma sk_out ks s : (length ks <= s)%nat -> sk ks s = sock_dead.
Proof. apply nth_overflow. Qed.
Lemma sk_open_lt ks s : k_open (sk ks s) = true -> (s < length ks)%nat.
Proof. intros H. destruct (Nat.lt_ge_cases s (length ks)) as [L|L]; [exact L|]. rewrite sk_out in H by exact L. discriminate. Qed.
Lemma sk_app1 ks l s : (s < length ks)%nat -> sk (ks ++ l) s = sk ks s.
Proof. intros H. unfold sk. apply app_nth1. exact H. Qed.
Lemma sk_app_last ks x : sk (ks ++ [x]) (length ks) = x.
Proof. unfold sk. rewrite app_nth2, Nat.sub_diag by lia. reflexivity. Qed.

Lemma sk_find_some name : forall ks i k, sk_find ks i name = Some k ->
  (i <= k)%nat /\ (k - i < length ks)%nat /\ k_open (nth (k - i) ks sock_dead) = true /\ k_name (nth (k - i) ks sock_dead) = name.
Proof.
  induction ks as [|x t IH]; intros i k H; [discriminate|]. cbn [sk_find] in H.
  destruct (k_open x) eqn:Eo; [destruct (Z.eqb_spec (k_name x) name) as [En|En]|]; cbn [andb] in H.
  - injection H as <-. rewrite Nat.sub_diag. cbn [nth length]. repeat split; try lia; assumption.
  - destruct (IH _ _ H) as (A & B & C & D). replace (k - i)%nat with (S (k - S i)) by lia. cbn [nth length]. repeat split; try lia; assumption.
  - destruct (IH _ _ H) as (A & B & C & D). replace (k - i)%nat with (S (k - S i)) by lia. cbn [nth length]. repeat split; try lia; assumption.
Qed.
Lemma sk_lookup_some ks name k : sk_lookup ks name = Some k -> k_open (sk ks k) = true /\ k_name (sk ks k) = name /\ (k < length ks)%nat.
Proof. intros H. apply sk_find_some in H. rewrite Nat.sub_0_r in H. destruct H as (_ & A & B & C). auto. Qed.
Lemma sk_lookup_none ks name s : sk_lookup ks name = None -> k_open (sk ks s) = true -> k_name (sk ks s) <> name.
Proof.
  unfold sk_lookup, sk. generalize O. revert s. induction ks as [|x t IH]; intros s i H Ho En.
  - destruct s; discriminate.
  - cbn [sk_find] in H. destruct s as [|s]; cbn [nth] in *.
    + rewrite Ho, En, Z.eqb_refl in H. discriminate.
    + destruct (k_open x && (k_name x =? name)); [discriminate|]. apply (IH s (S i) H Ho En).
Qed.

(** socket names are unique, queues have room for one *)
Record KI (ks : socks) : Prop := mkKI {
  ki_names : forall s s', (s < length ks)%nat -> (s' < length ks)%nat -> k_name (sk ks s) = k_name (sk ks s') -> s = s';
  ki_cap : forall s, 1 <= k_cap (sk ks s);
  ki_pend : forall s, 0 <= k_pend (sk ks s) }.

(** [ks'] is [ks] with perhaps more datagrams queued *)
Record up (ks ks' : socks) : Prop := mkup {
  up_len : length ks' = length ks;
  up_name : forall s, k_name (sk ks' s) = k_name (sk ks s);
  up_pid : forall s, k_pid (sk ks' s) = k_pid (sk ks s);
  up_open : forall s, k_open (sk ks' s) = k_open (sk ks s);
  up_cap : forall s, k_cap (sk ks' s) = k_cap (sk ks s);
  up_pend : forall s, k_pend (sk ks s) <= k_pend (sk ks' s) }.
Lemma up_refl ks : up ks ks.
Proof. constructor; intros; reflexivity || lia. Qed.
Lemma up_trans a b c : up a b -> up b c -> up a c.
Proof.
  intros [A1 A2 A3 A4 A5 A6] [B1 B2 B3 B4 B5 B6]. constructor; intros; try congruence.
  specialize (A6 s). specialize (B6 s). lia.
Qed.
Lemma up_KI a b : up a b -> KI a -> KI b.
Proof.
  intros [A1 A2 A3 A4 A5 A6] [B1 B2 B3]. constructor.
  - intros s s'. rewrite A1, !A2. apply B1.
  - intros s. rewrite A5. apply B2.
  - intros s. specialize (A6 s). specialize (B3 s). lia.
Qed.
Lemma up_bump ks s : (s < length ks)%nat -> up ks (sk_upd ks s (fun x => x <| k_pend := k_pend x + 1 |>)).
Proof.
  intros L. constructor; [apply sk_upd_len| | | | |]; intros s'; (destruct (Nat.eq_dec s' s) as [->|N]; [rewrite sk_upd_same by exact L|rewrite sk_upd_other by exact N]); cbn [k_name k_pid k_open k_cap k_pend set]; lia || reflexivity.
Qed.

(** ** connections *)
Definition conn_ok (ks : socks) (c : conn) : Prop :=
  forall k, cn_fd c = Some k -> (k < length ks)%nat /\ k_name (sk ks k) = cn_name c.
Definition serves (s : wslot) (c : conn) : Prop :=
  ws_pid s <> 0 -> exists k, cn_fd c = Some k /\ cn_name c = ws_name s.
(** a waker's view of the handle *)
Record waker_ok (ks : socks) (h : bwh) (q : Z) (cs : list conn) : Prop := mkwk {
  wk_len : length cs = length (h_wr h);
  wk_seq : q <= h_seq h;
  wk_conn : forall n, conn_ok ks (nth n cs conn0);
  wk_sync : q = h_seq h -> forall n, serves (nth n (h_wr h) ws_free) (nth n cs conn0) }.

(** a change of the handle that the waiters in [W] do not notice *)
Record hch (W : nat -> Prop) (h h' : bwh) : Prop := mkhch {
  hc_len : length (h_wr h') = length (h_wr h);
  hc_seq : h_seq h' = h_seq h /\ h_wr h' = h_wr h \/ h_seq h < h_seq h';
  hc_slot : forall n, W n -> nth n (h_wr h') ws_free = nth n (h_wr h) ws_free }.
Lemma hch_refl W h : hch W h h.
Proof. constructor; auto. Qed.
Lemma hch_trans W a b c : hch W a b -> hch W b c -> hch W a c.
Proof.
  intros [A1 A2 A3] [B1 B2 B3]. constructor; [congruence| |intros n Hn; rewrite B3, A3 by exact Hn; reflexivity].
  destruct A2 as [[A4 A5]|A4], B2 as [[B4 B5]|B4]; [left; split; congruence|right; lia|right; lia|right; lia].
Qed.
Lemma hch_mono (W W' : nat -> Prop) a b : (forall n, W' n -> W n) -> hch W a b -> hch W' a b.
Proof. intros H [A1 A2 A3]. constructor; auto. Qed.
Lemma hch_seq_le W a b : hch W a b -> h_seq a <= h_seq b.
Proof. intros [_ [[A _]|A] _]; lia. Qed.
Lemma waker_hch W ks h h' q cs : hch W h h' -> waker_ok ks h q cs -> waker_ok ks h' q cs.
Proof.
  intros [A1 A2 A3] [B1 B2 B3 B4]. constructor; [congruence| |exact B3|].
  - destruct A2 as [[A4 _]|A4]; lia.
  - intros E. destruct A2 as [[A4 A5]|A4]; [|lia]. rewrite A5. apply B4. congruence.
Qed.
Lemma waker_ks ks ks' h q cs : (length ks <= length ks')%nat ->
  (forall s, (s < length ks)%nat -> k_name (sk ks' s) = k_name (sk ks s)) ->
  waker_ok ks h q cs -> waker_ok ks' h q cs.
Proof.
  intros A1 A2 [B1 B2 B3 B4]. constructor; try assumption. intros n k Hk. destruct (B3 n k Hk) as [L E].
  split; [lia|]. rewrite A2 by exact L. exact E.
Qed.

(** ** the environment, as these functions see it *)
Record genv (ks : socks) (h : bwh) (W : nat -> Prop) (e : env) : Prop := mkge {
  ge_socket : forall n, e_socket e n = true;
  ge_connect : forall n, e_connect e n = true;
  ge_send : forall n, e_send e n = true;
  ge_live : forall n, W n -> ws_pid (nth n (h_wr h) ws_free) <> 0
      /\ e_probe e (ws_pid (nth n (h_wr h) ws_free)) (ws_name (nth n (h_wr h) ws_free)) <> 0
      /\ sk_lookup ks (ws_name (nth n (h_wr h) ws_free)) <> None;
  ge_gone : forall pid name, sk_lookup ks name = None -> e_probe e pid name = 0 }.
Lemma genv_hch ks h h' W e : hch W h h' -> genv ks h W e -> genv ks h' W e.
Proof. intros [A1 A2 A3] [B1 B2 B3 B4 B5]. constructor; try assumption. intros n Hn. rewrite A3 by exact Hn. apply B4. exact Hn. Qed.

(** ** pruning *)
Lemma prune_slots_spec e : forall wr wr' c, prune_slots e wr = (wr', c) ->
  length wr' = length wr /\ 0 <= c /\ (c = 0 -> wr' = wr)
  /\ forall n, (nth n wr' ws_free = nth n wr ws_free
      /\ (ws_pid (nth n wr ws_free) = 0 \/ e_probe e (ws_pid (nth n wr ws_free)) (ws_name (nth n wr ws_free)) <> 0))
      \/ (ws_pid (nth n wr' ws_free) = 0 /\ e_probe e (ws_pid (nth n wr ws_free)) (ws_name (nth n wr ws_free)) = 0).
Proof.
  induction wr as [|s t IH]; intros wr' c H; cbn [prune_slots] in H.
  - injection H as <- <-. repeat split; try lia. intros n. left. split; [reflexivity|]. left. destruct n; reflexivity.
  - destruct (prune_slots e t) as [t' c'] eqn:E. destruct (IH _ _ eq_refl) as (A1 & A2 & A3 & A4).
    destruct (Z.eqb_spec (ws_pid s) 0) as [Z0|Z0]; [|destruct (Z.eqb_spec (e_probe e (ws_pid s) (ws_name s)) 0) as [P0|P0]]; injection H as <- <-; cbn [length]; (split; [lia|]); (split; [lia|]).
    + split; [intros H; rewrite A3 by exact H; reflexivity|]. intros [|n]; cbn [nth]; [left; auto|apply A4].
    + split; [intros H; lia|]. intros [|n]; cbn [nth]; [right; auto|apply A4].
    + split; [intros H; rewrite A3 by exact H; reflexivity|]. intros [|n]; cbn [nth]; [left; auto|apply A4].
Qed.
Lemma prune_hch ks h W e : genv ks h W e -> hch W h (prune_handle e h).
Proof.
  intros G. unfold prune_handle. destruct (prune_slots e (h_wr h)) as [wr' c] eqn:E.
  destruct (prune_slots_spec _ _ _ _ E) as (A1 & A2 & A3 & A4). constructor; cbn [h_wr h_seq].
  - exact A1.
  - destruct (Z.eq_dec c 0) as [C|C]; [left; rewrite C, A3 by exact C; split; [lia|reflexivity]|right; lia].
  - intros n Hn. destruct (A4 n) as [[Q _]|[_ Q]]; [exact Q|]. destruct (ge_live _ _ _ _ G n Hn) as (_ & P & _). contradiction.
Qed.

(** ** synchronising a waker *)
Lemma sync_slot_spec ks h W e n s c s' c' ok inc : genv ks h W e -> sync_slot e ks n s c = (s', c', ok, inc) ->
  ok = true /\ 0 <= inc /\ (inc = 0 -> s' = s) /\ (conn_ok ks c -> conn_ok ks c') /\ serves s' c'
  /\ (s' = s \/ sk_lookup ks (ws_name s) = None).
Proof.
  intros G H. unfold sync_slot in H.
  set (c1 := match cn_fd c with Some _ => if (ws_pid s =? 0) || negb (ws_name s =? cn_name c) then c <| cn_fd := None |> else c | None => c end) in H.
  assert (H1 : (cn_fd c1 = None) \/ (c1 = c /\ ws_pid s <> 0 /\ ws_name s = cn_name c /\ exists k, cn_fd c = Some k)).
  { unfold c1. destruct (cn_fd c) as [k|] eqn:Ef; [|left; exact Ef]. destruct (Z.eqb_spec (ws_pid s) 0); cbn [orb]; [left; reflexivity|].
    destruct (Z.eqb_spec (ws_name s) (cn_name c)); cbn [negb]; [right; eauto|left; reflexivity]. }
  clearbody c1. destruct H1 as [Hn|(-> & Hp & Hnm & k & Hk)].
  - rewrite Hn in H. destruct (Z.eqb_spec (ws_pid s) 0) as [Z0|Z0].
    + injection H as <- <- <- <-. repeat split; try lia; auto; try (intros; congruence).
    + rewrite (ge_socket _ _ _ _ G), (ge_connect _ _ _ _ G) in H. cbn [negb] in H.
      destruct (sk_lookup ks (ws_name s)) as [k|] eqn:L.
      * injection H as <- <- <- <-. apply sk_lookup_some in L. destruct L as (L1 & L2 & L3).
        split; [reflexivity|]. split; [lia|]. split; [reflexivity|].
        split; [intros _ k' Hk'; injection Hk' as <-; split; assumption|]. split; [intros _; exists k; split; reflexivity|left; reflexivity].
      * rewrite (ge_gone _ _ _ _ G _ _ L) in H. cbn [Z.eqb] in H. injection H as <- <- <- <-.
        split; [reflexivity|]. split; [lia|]. split; [lia|]. split; [intros _ k' Hk'; discriminate|].
        split; [intros Q; cbn in Q; contradiction|right; reflexivity].
  - rewrite Hk in H. injection H as <- <- <- <-. split; [reflexivity|]. split; [lia|]. split; [reflexivity|].
    split; [auto|]. split; [intros _; exists k; auto|left; reflexivity].
Qed.
Lemma sync_slots_spec ks h W e : genv ks h W e -> forall wr cs n wr' cs' ok inc, length cs = length wr ->
  sync_slots e ks n wr cs = (wr', cs', ok, inc) ->
  ok = true /\ length wr' = length wr /\ length cs' = length cs /\ 0 <= inc /\ (inc = 0 -> wr' = wr)
  /\ ((forall i, conn_ok ks (nth i cs conn0)) -> forall i, conn_ok ks (nth i cs' conn0))
  /\ (forall i, serves (nth i wr' ws_free) (nth i cs' conn0))
  /\ (forall i, nth i wr' ws_free = nth i wr ws_free \/ sk_lookup ks (ws_name (nth i wr ws_free)) = None).
Proof.
  intros G. induction wr as [|s t IH]; intros [|c cs] n wr' cs' ok inc L H; try discriminate L; cbn [sync_slots] in H.
  - injection H as <- <- <- <-. split; [reflexivity|]. split; [reflexivity|]. split; [reflexivity|]. split; [lia|]. split; [reflexivity|]. split; [auto|].
    split; [intros j Q; destruct j; cbn in Q; contradiction|left; reflexivity].
  - destruct (sync_slot e ks n s c) as [[[s1 c1] ok1] inc1] eqn:E1.
    destruct (sync_slot_spec _ _ _ _ _ _ _ _ _ _ _ G E1) as (-> & B2 & B3 & B4 & B5 & B6).
    destruct (sync_slots e ks (n + 1) t cs) as [[[t1 cs1] ok2] inc2] eqn:E2.
    destruct (IH cs (n + 1) _ _ _ _ ltac:(cbn in L; lia) E2) as (A1 & A2 & A3 & A4 & A5 & A6 & A7 & A8).
    injection H as <- <- <- <-. split; [exact A1|]. cbn [length]. split; [lia|]. split; [lia|]. split; [lia|].
    split; [intros Q; rewrite B3, A5 by lia; reflexivity|].
    split; [intros Q [|i]; cbn [nth]; [apply B4, (Q O)|apply A6; intros j; apply (Q (S j))]|].
    split; [intros [|i]; cbn [nth]; [exact B5|apply A7]|intros [|i]; cbn [nth]; [exact B6|apply A8]].
Qed.
Lemma bw_sync_spec ks h W e q cs h' q' cs' ok : genv ks h W e ->
  length cs = length (h_wr h) -> q <= h_seq h -> (forall n, conn_ok ks (nth n cs conn0)) ->
  (q = h_seq h -> forall n, serves (nth n (h_wr h) ws_free) (nth n cs conn0)) ->
  bw_sync e ks h q cs = (h', q', cs', ok) ->
  ok = true /\ hch W h h' /\ waker_ok ks h' q' cs' /\ q' = h_seq h'
  /\ (forall n, serves (nth n (h_wr h') ws_free) (nth n cs' conn0)).
Proof.
  intros G L Hq Hc Hs H. unfold bw_sync in H. destruct (Z.eqb_spec q (h_seq h)) as [E|E].
  - injection H as <- <- <- <-. split; [reflexivity|]. split; [apply hch_refl|].
    split; [constructor; assumption|]. split; [exact E|apply Hs; exact E].
  - destruct (sync_slots e ks 0 (h_wr h) cs) as [[[wr1 cs1] ok1] inc] eqn:E1.
    destruct (sync_slots_spec _ _ _ _ G _ _ _ _ _ _ _ L E1) as (-> & A2 & A3 & A4 & A5 & A6 & A7 & A8).
    injection H as <- <- <- <-. cbn [h_wr h_seq]. split; [reflexivity|]. split.
    { constructor; cbn [h_wr h_seq].
      - exact A2.
      - destruct (Z.eq_dec inc 0) as [C|C]; [left; rewrite C, A5 by exact C; split; [lia|reflexivity]|right; lia].
      - intros n Hn. destruct (A8 n) as [Q|Q]; [exact Q|]. destruct (ge_live _ _ _ _ G n Hn) as (_ & _ & P). contradiction. }
    split; [|split; [reflexivity|exact A7]]. constructor; cbn [h_wr h_seq]; [congruence|lia|apply A6; exact Hc|intros _; exact A7].
Qed.

(** ** sending wake-ups *)
Lemma wake_slots_spec e : (forall n, e_send e n = true) -> forall wr cs n ks wr' cs' ks' inc, KI ks -> length cs = length wr ->
  (forall i, conn_ok ks (nth i cs conn0)) ->
  wake_slots e n ks wr cs = (wr', cs', ks', inc) ->
  up ks ks' /\ length wr' = length wr /\ length cs' = length cs /\ 0 <= inc /\ (inc = 0 -> wr' = wr /\ cs' = cs)
  /\ (forall i, cn_fd (nth i cs' conn0) = None \/ nth i cs' conn0 = nth i cs conn0)
  /\ (forall i k, cn_fd (nth i cs conn0) = Some k -> k_open (sk ks k) = true ->
        nth i wr' ws_free = nth i wr ws_free /\ 0 < k_pend (sk ks' k))
  /\ (forall i, cn_fd (nth i cs conn0) = None -> nth i wr' ws_free = nth i wr ws_free).
Proof.
  intros GS. induction wr as [|s t IH]; intros [|c cs] n ks wr' cs' ks' inc K L Hc H; try discriminate L; cbn [wake_slots] in H.
  - injection H as <- <- <- <-. split; [apply up_refl|]. split; [reflexivity|]. split; [reflexivity|]. split; [lia|]. split; [auto|]. split; [auto|].
    split; [intros j k Q; destruct j; discriminate|reflexivity].

  - destruct (wake_slot e n ks s c) as [[[s1 c1] ks1] inc1] eqn:E1.
    assert (B : up ks ks1 /\ 0 <= inc1 /\ (inc1 = 0 -> s1 = s /\ c1 = c) /\ (cn_fd c1 = None \/ c1 = c)
      /\ (forall k, cn_fd c = Some k -> k_open (sk ks k) = true -> s1 = s /\ 0 < k_pend (sk ks1 k)) /\ (cn_fd c = None -> s1 = s)).
    { unfold wake_slot in E1. destruct (cn_fd c) as [k|] eqn:Ef.
      - destruct (Hc O k Ef) as [Lk _]. rewrite GS, andb_true_r in E1. destruct (k_open (sk ks k)) eqn:Eo.
        + destruct (Z.ltb_spec (k_pend (sk ks k)) (k_cap (sk ks k))) as [C|C]; injection E1 as <- <- <- <-.
          * split; [apply up_bump; exact Lk|]. split; [lia|]. split; [auto|]. split; [auto|]. split; [|discriminate].
            intros k' Hk' _. injection Hk' as <-. split; [reflexivity|]. rewrite sk_upd_same by exact Lk. cbn [k_pend set].
            pose proof (ki_pend _ K k). lia.
          * split; [apply up_refl|]. split; [lia|]. split; [auto|]. split; [auto|]. split; [|discriminate].
            intros k' Hk' _. injection Hk' as <-. split; [reflexivity|]. pose proof (ki_cap _ K k). lia.
        + injection E1 as <- <- <- <-. split; [apply up_refl|]. split; [lia|]. split; [lia|]. split; [left; reflexivity|].
          split; [intros k' Hk'; injection Hk' as <-; congruence|discriminate].
      - injection E1 as <- <- <- <-. split; [apply up_refl|]. split; [lia|]. split; [auto|]. split; [auto|]. split; [discriminate|reflexivity]. }
    destruct B as (B1 & B2 & B3 & B4 & B5 & B6).
    destruct (wake_slots e (n + 1) ks1 t cs) as [[[t1 cs1] ks2] inc2] eqn:E2.
    assert (Hc1 : forall i, conn_ok ks1 (nth i cs conn0)).
    { intros i k Hk. destruct (Hc (S i) k Hk) as [Q1 Q2]. split; [rewrite (up_len _ _ B1); exact Q1|rewrite (up_name _ _ B1); exact Q2]. }
    destruct (IH cs (n + 1) ks1 _ _ _ _ (up_KI _ _ B1 K) ltac:(cbn in L; lia) Hc1 E2) as (A1 & A2 & A3 & A4 & A5 & A6 & A7 & A8).
    injection H as <- <- <- <-. split; [apply (up_trans _ _ _ B1 A1)|]. cbn [length]. split; [lia|]. split; [lia|]. split; [lia|].
    split; [intros Q; destruct (B3 ltac:(lia)) as [-> ->]; destruct (A5 ltac:(lia)) as [-> ->]; auto|].
    split; [intros [|i]; cbn [nth]; [exact B4|apply A6]|].
    split.
    + intros [|i] k; cbn [nth]; intros Hk Ho.
      * destruct (B5 k Hk Ho) as [Q1 Q2]. split; [exact Q1|]. pose proof (up_pend _ _ A1 k). lia.
      * apply A7; [exact Hk|]. rewrite (up_open _ _ B1). exact Ho.
    + intros [|i]; cbn [nth]; [exact B6|apply A8].
Qed.

Lemma bw_wake_spec ks h W e q cs ks' h' w' ok : genv ks h W e -> KI ks -> waker_ok ks h q cs ->
  bw_wake e ks h (Wake q cs) = Ok (ks', h', w', ok) ->
  ok = true /\ up ks ks' /\ hch W h h'
  /\ (exists q' cs', w' = Wake q' cs' /\ waker_ok ks' h' q' cs')
  /\ (forall n s, W n -> ws_name (nth n (h_wr h) ws_free) = k_name (sk ks s) -> k_open (sk ks s) = true -> 0 < k_pend (sk ks' s)).
Proof.
  intros G K [L Hq Hc Hs] H. cbn [bw_wake] in H. destruct (bw_sync e ks h q cs) as [[[h1 q1] cs1] ok1] eqn:E1.
  destruct (bw_sync_spec _ _ _ _ _ _ _ _ _ _ G L Hq Hc Hs E1) as (-> & HC1 & [L1 Hq1 Hc1 Hs1] & Eq & Hsv).
  destruct (wake_slots e 0 ks (h_wr h1) cs1) as [[[wr2 cs2] ks2] inc] eqn:E2.
  destruct (wake_slots_spec _ (ge_send _ _ _ _ G) _ _ _ _ _ _ _ _ K L1 Hc1 E2) as (A1 & A2 & A3 & A4 & A5 & A6 & A7 & A8).
  injection H as <- <- <- <-. split; [reflexivity|]. split; [exact A1|].
  assert (GL := ge_live _ _ _ _ G).
  (* the connection serving a live waiter's slot leads to its socket *)
  assert (R : forall n s, W n -> ws_name (nth n (h_wr h) ws_free) = k_name (sk ks s) -> (s < length ks)%nat -> cn_fd (nth n cs1 conn0) = Some s).
  { intros n s Hn En Ls. pose proof (hc_slot _ _ _ HC1 n Hn) as Es. destruct (GL n Hn) as (P1 & _ & _).
    destruct (Hsv n) as (k & Hk & Ek); [rewrite Es; exact P1|]. destruct (Hc1 n k Hk) as [Lk Nk].
    rewrite Hk. f_equal. apply (ki_names _ K); [exact Lk|exact Ls|]. rewrite Nk, Ek, Es. exact En. }
  split.
  { apply (hch_trans _ _ h1 _ HC1). constructor; cbn [h_wr h_seq].
    - exact A2.
    - destruct (Z.eq_dec inc 0) as [C|C]; [left; destruct (A5 C) as [-> _]; split; [lia|reflexivity]|right; lia].
    - intros n Hn. destruct (GL n Hn) as (_ & _ & P). destruct (sk_lookup ks (ws_name (nth n (h_wr h) ws_free))) as [s|] eqn:El; [|contradiction].
      apply sk_lookup_some in El. destruct El as (Ho & En & Ls). apply (A7 n s); [apply R; [exact Hn|symmetry; exact En|exact Ls]|exact Ho]. }
  split.
  { exists q1, cs2. split; [reflexivity|]. constructor; cbn [h_wr h_seq].
    - congruence.
    - lia.
    - intros n k Hk. destruct (A6 n) as [Q|Q]; [congruence|]. rewrite Q in *. destruct (Hc1 n k Hk) as [Lk Nk].
      split; [rewrite (up_len _ _ A1); exact Lk|rewrite (up_name _ _ A1); exact Nk].
    - intros Q n. assert (C : inc = 0) by lia. destruct (A5 C) as [-> ->]. apply Hsv. }
  intros n s Hn En Ho. apply (A7 n s); [|exact Ho]. apply R; [exact Hn|exact En|apply sk_open_lt; exact Ho].
Qed.

(** ** opening and closing *)
(** socket [s] is registered in slot [n] *)
Definition waits_at (ks : socks) (h : bwh) (n s : nat) : Prop :=
  (n < BW_WAITMAX)%nat /\ k_open (sk ks s) = true /\ k_pid (sk ks s) <> 0
  /\ nth n (h_wr h) ws_free = mkws (k_pid (sk ks s)) (k_name (sk ks s)).
Lemma find_free_some : forall wr i n, find_free wr i = Some n ->
  (i <= n)%nat /\ (n - i < length wr)%nat /\ ws_pid (nth (n - i) wr ws_free) = 0.
Proof.
  induction wr as [|s t IH]; intros i n H; [discriminate|]. cbn [find_free] in H. destruct (Z.eqb_spec (ws_pid s) 0) as [Z0|Z0].
  - injection H as <-. rewrite Nat.sub_diag. cbn [nth length]. repeat split; try lia; assumption.
  - destruct (IH _ _ H) as (A & B & C). replace (n - i)%nat with (S (n - S i)) by lia. cbn [nth length]. repeat split; try lia; assumption.
Qed.
Lemma find_free_none : forall wr i, find_free wr i = None -> forall n, (n < length wr)%nat -> ws_pid (nth n wr ws_free) <> 0.
Proof.
  induction wr as [|s t IH]; intros i H n L; [cbn in L; lia|]. cbn [find_free] in H. destruct (Z.eqb_spec (ws_pid s) 0); [discriminate|].
  destruct n as [|n]; [assumption|]. cbn [nth length] in *. apply (IH _ H). lia.
Qed.

Lemma KI_app ks x : KI ks -> (forall s, (s < length ks)%nat -> k_name (sk ks s) <> k_name x) -> 1 <= k_cap x -> 0 <= k_pend x -> KI (ks ++ [x]).
Proof.
  intros [A B C] H1 H2 H3. constructor.
  - intros s s'. rewrite app_length. cbn [length]. intros L L'.
    destruct (Nat.eq_dec s (length ks)) as [->|N], (Nat.eq_dec s' (length ks)) as [->|N']; try rewrite sk_app_last; rewrite ?sk_app1 by lia; intros E.
    + reflexivity.
    + elim (H1 s' ltac:(lia)). congruence.
    + elim (H1 s ltac:(lia)). congruence.
    + apply A; [lia|lia|exact E].
  - intros s. destruct (Nat.lt_trichotomy s (length ks)) as [L|[->|L]].
    + rewrite sk_app1 by lia. apply B.
    + rewrite sk_app_last. exact H2.
    + rewrite sk_out by (rewrite app_length; cbn; lia). cbn. lia.
  - intros s. destruct (Nat.lt_trichotomy s (length ks)) as [L|[->|L]].
    + rewrite sk_app1 by lia. apply C.
    + rewrite sk_app_last. exact H3.
    + rewrite sk_out by (rewrite app_length; cbn; lia). cbn. lia.
Qed.

Lemma open_wait_spec e ks h (W : nat -> Prop) pid name ks' h' o : genv ks h W e -> KI ks -> length (h_wr h) = BW_WAITMAX -> pid <> 0 ->
  (forall s, (s < length ks)%nat -> k_name (sk ks s) <> name) ->
  bw_open_wait e ks h pid name = (ks', h', o) ->
  KI ks' /\ hch W h h' /\ (ks' = ks \/ exists x, ks' = ks ++ [x])
  /\ (forall b, o = Some b -> exists n x, b = Wait n (length ks) [] /\ ks' = ks ++ [x] /\ k_open x = true /\ k_pend x = 0 /\ k_name x = name /\ k_pid x = pid
        /\ waits_at ks' h' n (length ks) /\ ~ W n /\ h_seq h < h_seq h')
  /\ (o = None -> h_seq h' = h_seq h /\ h_wr h' = h_wr h \/ h_seq h < h_seq h').
Proof.
  intros G K L Hp Hn H. unfold bw_open_wait in H.
  destruct (e_alloc e); cbn [negb] in H; [|injection H as <- <- <-; split; [exact K|]; split; [apply hch_refl|]; split; [auto|]; split; [discriminate|auto]].
  pose proof (prune_hch _ _ _ _ G) as HC. set (h1 := prune_handle e h) in *. clearbody h1.
  assert (NO : KI ks /\ hch W h h1 /\ (ks = ks \/ exists x, ks = ks ++ [x])
    /\ (forall b, None = Some b -> exists n x, b = Wait n (length ks) [] /\ ks = ks ++ [x] /\ k_open x = true /\ k_pend x = 0 /\ k_name x = name /\ k_pid x = pid
        /\ waits_at ks h1 n (length ks) /\ ~ W n /\ h_seq h < h_seq h1)
    /\ (None = @None bwt -> h_seq h1 = h_seq h /\ h_wr h1 = h_wr h \/ h_seq h < h_seq h1)).
  { split; [exact K|]. split; [exact HC|]. split; [left; reflexivity|]. split; [discriminate|]. intros _. apply (hc_seq _ _ _ HC). }
  destruct (find_free (h_wr h1) 0) as [n|] eqn:EF; [|injection H as <- <- <-; exact NO].
  destruct (if e_bind e then sk_lookup ks name else Some O) as [k|] eqn:EB; [injection H as <- <- <-; exact NO|].
  apply find_free_some in EF. rewrite Nat.sub_0_r in EF. destruct EF as (_ & F2 & F3).
  assert (Ln : (n < BW_WAITMAX)%nat) by (rewrite <- L, <- (hc_len _ _ _ HC); exact F2).
  assert (NW : ~ W n).
  { intros Hw. destruct (ge_live _ _ _ _ G n Hw) as (P & _). rewrite (hc_slot _ _ _ HC n Hw) in F3. contradiction. }
  assert (HS : forall n', W n' -> forall v, nth n' (set_nat (h_wr h1) n v) ws_free = nth n' (h_wr h1) ws_free).
  { intros n' Hw v. rewrite nth_set_nat by exact F2. destruct (Nat.eqb_spec n' n) as [->|]; [contradiction|reflexivity]. }
  pose proof (hch_seq_le _ _ _ HC) as SQ.
  destruct (e_self e); injection H as <- <- <-.
  - split; [apply KI_app; [exact K|exact Hn|cbn; lia|cbn; lia]|].
    split.
    { apply (hch_trans _ _ h1 _ HC). constructor; cbn [h_wr h_seq]; [apply zlen_set_nat|right; lia|]. intros n' Hw. apply HS. exact Hw. }
    split; [right; eexists; reflexivity|]. split; [|discriminate]. intros b Eb. injection Eb as <-. eexists n, _. split; [reflexivity|].
    split; [reflexivity|]. cbn [k_open k_pend k_name k_pid]. repeat (split; [reflexivity|]). split; [|split; [exact NW|cbn [h_seq]; lia]].
    split; [exact Ln|]. rewrite sk_app_last. cbn [k_open k_pid k_name h_wr]. split; [reflexivity|]. split; [exact Hp|].
    rewrite nth_set_nat by exact F2. rewrite Nat.eqb_refl. reflexivity.
  - split; [apply KI_app; [exact K|exact Hn|cbn; lia|cbn; lia]|].
    split.
    { apply (hch_trans _ _ h1 _ HC). constructor; cbn [h_wr h_seq set]; [rewrite !zlen_set_nat; reflexivity|right; lia|].
      intros n' Hw. rewrite nth_set_nat by (rewrite zlen_set_nat; exact F2). destruct (Nat.eqb_spec n' n) as [->|]; [contradiction|]. apply HS. exact Hw. }
    split; [right; eexists; reflexivity|]. split; [discriminate|]. intros _. right. cbn [h_seq set]. lia.
Qed.

Lemma repeat_nth {A} (x : A) n i : nth i (repeat x n) x = x.
Proof. revert i. induction n as [|n IH]; intros [|i]; cbn; auto. Qed.
Lemma open_wake_spec e ks h (W : nat -> Prop) h' o : genv ks h W e -> length (h_wr h) = BW_WAITMAX -> 0 <= h_seq h ->
  bw_open_wake e ks h = (h', o) ->
  hch W h h' /\ (forall b, o = Some b -> exists q cs, b = Wake q cs /\ waker_ok ks h' q cs)
  /\ (e_alloc e = true -> o <> None).
Proof.
  intros G L Hs H. unfold bw_open_wake in H. destruct (e_alloc e) eqn:Ea; cbn [negb] in H.
  2: { injection H as <- <-. split; [apply hch_refl|]. split; discriminate. }
  pose proof (prune_hch _ _ _ _ G) as HC. pose proof (genv_hch _ _ _ _ _ HC G) as G1. set (h1 := prune_handle e h) in *. clearbody h1.
  pose proof (hch_seq_le _ _ _ HC) as SQ.
  destruct (bw_sync e ks h1 (-1) (repeat conn0 BW_WAITMAX)) as [[[h2 q] cs] ok] eqn:E.
  assert (Q1 : length (repeat conn0 BW_WAITMAX) = length (h_wr h1)) by (rewrite repeat_length, (hc_len _ _ _ HC), L; reflexivity).
  assert (Q2 : -1 <= h_seq h1) by lia.
  assert (Q3 : forall n, conn_ok ks (nth n (repeat conn0 BW_WAITMAX) conn0)) by (intros n k; rewrite repeat_nth; discriminate).
  assert (Q4 : -1 = h_seq h1 -> forall n, serves (nth n (h_wr h1) ws_free) (nth n (repeat conn0 BW_WAITMAX) conn0)) by (intros Q; exfalso; lia).
  destruct (bw_sync_spec _ _ _ _ _ _ _ _ _ _ G1 Q1 Q2 Q3 Q4 E) as (-> & HC2 & WK & _ & _).
  injection H as <- <-. split; [apply (hch_trans _ _ _ _ HC HC2)|]. split; [|discriminate].
  intros b Eb. injection Eb as <-. exists q, cs. auto.
Qed.

(** ** the world *)
Definition hnd (b : bool) (cl : client) : option bwt := if b then c_w2r cl else c_r2w cl.
Definition whd (b : bool) (w : world) : bwh := if b then w_w2r w else w_r2w w.
(** client [c] is registered on side [b] in slot [n] with socket [s] *)
Definition wt (b : bool) (w : world) (c n s : nat) : Prop :=
  c_live (cli w c) = true /\ exists p, hnd b (cli w c) = Some (Wait n s p).
Definition wk (b : bool) (w : world) (c : nat) (q : Z) (cs : list conn) : Prop :=
  c_live (cli w c) = true /\ hnd b (cli w c) = Some (Wake q cs).
Record BI (w : world) : Prop := mkBI {
  bi_k : KI (w_ks w);
  bi_len : forall b, length (h_wr (whd b w)) = BW_WAITMAX;
  bi_seq : forall b, 0 <= h_seq (whd b w);
  bi_wt : forall b c n s, wt b w c n s -> waits_at (w_ks w) (whd b w) n s;
  bi_wk : forall b c q cs, wk b w c q cs -> waker_ok (w_ks w) (whd b w) q cs;
  bi_own : forall b c n s b' c' n', wt b w c n s -> wt b' w c' n' s -> b = b' /\ c = c' }.
Definition slots (b : bool) (w : world) (n : nat) : Prop := exists c s, wt b w c n s.
Definition others (b : bool) (w : world) (c n : nat) : Prop := exists c' s, c' <> c /\ wt b w c' n s.

Lemma others_slots b w c n : others b w c n -> slots b w n.
Proof. intros (c' & s & _ & H). exists c', s. exact H. Qed.

(** one slot, one client *)
Lemma slot_owner w b c n s c' s' : BI w -> wt b w c n s -> wt b w c' n s' -> c = c' /\ s = s'.
Proof.
  intros B H H'. destruct (bi_wt _ B _ _ _ _ H) as (_ & O1 & _ & E1). destruct (bi_wt _ B _ _ _ _ H') as (_ & O2 & _ & E2).
  assert (s = s'); [|subst s'; split; [apply (bi_own _ B _ _ _ _ _ _ _ H H')|reflexivity]].
  apply (ki_names _ (bi_k _ B)); [apply sk_open_lt; exact O1|apply sk_open_lt; exact O2|]. rewrite E1 in E2. congruence.
Qed.

Lemma BI_upd w w' c : BI w -> (forall c', c' <> c -> cli w' c' = cli w c') -> KI (w_ks w') ->
  (length (w_ks w) <= length (w_ks w'))%nat ->
  (forall s, (s < length (w_ks w))%nat -> k_name (sk (w_ks w') s) = k_name (sk (w_ks w) s) /\ k_pid (sk (w_ks w') s) = k_pid (sk (w_ks w) s)) ->
  (forall b c' n s, c' <> c -> wt b w c' n s -> k_open (sk (w_ks w') s) = true) ->
  (forall b, hch (others b w c) (whd b w) (whd b w')) ->
  (forall b n s p, c_live (cli w' c) = true -> hnd b (cli w' c) = Some (Wait n s p) ->
     waits_at (w_ks w') (whd b w') n s /\ ((exists n0, wt b w c n0 s) \/ (length (w_ks w) <= s)%nat)) ->
  (forall b q cs, c_live (cli w' c) = true -> hnd b (cli w' c) = Some (Wake q cs) -> waker_ok (w_ks w') (whd b w') q cs) ->
  (forall n n' s p p', c_live (cli w' c) = true -> c_w2r (cli w' c) = Some (Wait n s p) -> c_r2w (cli w' c) = Some (Wait n' s p') -> False) ->
  BI w'.
Proof.
  intros B HC HK HL HN HO HH HWt HWk HX.
  assert (OLD : forall b c' n s, c' <> c -> wt b w' c' n s -> wt b w c' n s).
  { intros b c' n s N [H1 H2]. rewrite HC in H1, H2 by exact N. split; assumption. }
  constructor; [exact HK| | | | |].
  - intros b. rewrite (hc_len _ _ _ (HH b)). apply (bi_len _ B).
  - intros b. pose proof (hch_seq_le _ _ _ (HH b)). pose proof (bi_seq _ B b). lia.
  - intros b c' n s H. destruct (Nat.eq_dec c' c) as [->|N].
    + destruct H as [H1 [p H2]]. apply (HWt b n s p H1 H2).
    + apply OLD in H; [|exact N]. destruct (bi_wt _ B _ _ _ _ H) as (A1 & A2 & A3 & A4).
      pose proof (sk_open_lt _ _ A2) as Ls. destruct (HN s Ls) as [E1 E2]. split; [exact A1|]. split; [apply (HO b c' n s N H)|].
      rewrite E1, E2. split; [exact A3|]. rewrite (hc_slot _ _ _ (HH b) n); [exact A4|]. exists c', s. auto.
  - intros b c' q cs [H1 H2]. destruct (Nat.eq_dec c' c) as [->|N]; [apply HWk; assumption|].
    rewrite HC in H1, H2 by exact N. apply (waker_ks (w_ks w)); [exact HL|intros s Ls; apply HN; exact Ls|].
    apply (waker_hch _ _ _ _ _ _ (HH b)). apply (bi_wk _ B b c'). split; assumption.
  - assert (ME : forall b b' n s c' n', wt b w' c n s -> c' <> c -> wt b' w' c' n' s -> False).
    { intros b b' n s c' n' [H1 [p H2]] N H'. apply OLD in H'; [|exact N]. destruct (HWt b n s p H1 H2) as [_ [(n0 & H)|H]].
      - destruct (bi_own _ B _ _ _ _ _ _ _ H H') as [_ E]. congruence.
      - destruct (bi_wt _ B _ _ _ _ H') as (_ & A2 & _). apply sk_open_lt in A2. lia. }
    intros b c1 n s b' c2 n' H1 H2. destruct (Nat.eq_dec c1 c) as [->|N1], (Nat.eq_dec c2 c) as [->|N2].
    + destruct H1 as [L1 [p1 P1]], H2 as [L2 [p2 P2]]. split; [|reflexivity].
      destruct b, b'; try reflexivity; exfalso; cbn [hnd] in P1, P2; first [exact (HX _ _ _ _ _ L1 P1 P2)|exact (HX _ _ _ _ _ L1 P2 P1)].
    + elim (ME _ _ _ _ _ _ H1 N2 H2).
    + elim (ME _ _ _ _ _ _ H2 N1 H1).
    + apply (bi_own _ B _ _ _ _ _ _ _ (OLD _ _ _ _ N1 H1) (OLD _ _ _ _ N2 H2)).
Qed.

(** the environment of a step in a world satisfying the invariant *)
Lemma good_gone ks0 l e pid name : good_sockets ks0 e -> sk_lookup (ks0 ++ l) name = None -> e_probe e pid name = 0.
Proof.
  intros G H. apply (gs_probe _ _ G). intros (k & Hi & Ho & _ & En). apply (In_nth _ _ sock_dead) in Hi. destruct Hi as (s & Ls & Es).
  apply (sk_lookup_none _ _ s H); [rewrite sk_app1 by exact Ls; unfold sk; rewrite Es; exact Ho|rewrite sk_app1 by exact Ls; unfold sk; rewrite Es; exact En].
Qed.
Lemma BI_genv w b e l : BI w -> good_sockets (w_ks w) e -> genv (w_ks w ++ l) (whd b w) (slots b w) e.
Proof.
  intros B G. constructor; try apply G.
  - intros n (c & s & H). destruct (bi_wt _ B _ _ _ _ H) as (_ & A2 & A3 & A4). rewrite A4. cbn [ws_pid ws_name].
    pose proof (sk_open_lt _ _ A2) as Ls. split; [exact A3|]. split.
    + intros E. apply (gs_probe _ _ G) in E. apply E. exists (sk (w_ks w) s). split; [apply nth_In; exact Ls|auto].
    + intros E. apply (sk_lookup_none _ _ s E); rewrite sk_app1 by exact Ls; auto.
  - intros pid name H. apply (good_gone (w_ks w) l); assumption.
Qed.
