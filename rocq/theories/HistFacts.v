(** * Facts about message histories and circular storage (pure). *)
From Verif Require Export BaseFacts.

(** number of bytes in the first [k] messages of history [h] *)
Definition start (h : list bytes) (k : Z) : Z := zlen (concat (firstn (Z.to_nat k) h)).
Definition hmsg (h : list bytes) (k : Z) : bytes := znth [] h k.

Lemma start_0 h : start h 0 = 0.
Proof. reflexivity. Qed.
Lemma start_nonneg h k : 0 <= start h k.
Proof. apply zlen_nonneg. Qed.
Lemma start_all h k : k = zlen h -> start h k = zlen (concat h).
Proof. intros ->; unfold start, zlen; rewrite Nat2Z.id, firstn_all; reflexivity. Qed.
Lemma firstn_S_nth {A} (d : A) n l : (n < length l)%nat -> firstn (S n) l = firstn n l ++ [nth n l d].
Proof.
  revert l; induction n as [|n IH]; intros l H; destruct l; cbn in *; try lia; try reflexivity.
  f_equal; apply IH; lia.
Qed.
Lemma start_S h k : 0 <= k < zlen h -> start h (k + 1) = start h k + zlen (hmsg h k).
Proof.
  intros H; unfold start, hmsg, znth, zlen in *.
  replace (Z.to_nat (k + 1)) with (S (Z.to_nat k)) by lia.
  rewrite (firstn_S_nth ([]:bytes)) by lia; rewrite concat_app, app_length; cbn [concat].
  rewrite app_nil_r; lia.
Qed.
Lemma start_app h ms k : 0 <= k <= zlen h -> start (h ++ ms) k = start h k.
Proof.
  intros H; unfold start, zlen in *; rewrite firstn_app.
  replace (Z.to_nat k - length h)%nat with 0%nat by lia; cbn [firstn]; rewrite app_nil_r; reflexivity.
Qed.
Lemma hmsg_app1 h ms k : 0 <= k < zlen h -> hmsg (h ++ ms) k = hmsg h k.
Proof. intros; unfold hmsg; apply znth_app1; assumption. Qed.
Lemma hmsg_app_last h m : hmsg (h ++ [m]) (zlen h) = m.
Proof. unfold hmsg; rewrite znth_app2 by lia; rewrite Z.sub_diag; reflexivity. Qed.

Lemma start_mono h j k : 0 <= j <= k -> k <= zlen h -> start h j <= start h k.
Proof.
  intros Hj Hk. replace k with (j + Z.of_nat (Z.to_nat (k - j))) in * by lia.
  revert Hk; induction (Z.to_nat (k - j)) as [|n IH]; intros Hk; [rewrite Z.add_0_r; lia|].
  replace (j + Z.of_nat (S n)) with (j + Z.of_nat n + 1) by lia.
  rewrite start_S by lia; specialize (IH ltac:(lia)).
  pose proof (zlen_nonneg (hmsg h (j + Z.of_nat n))); lia.
Qed.
(** non-empty messages: at least one byte per message *)
Definition nonempty (h : list bytes) : Prop := Forall (fun b => 0 < zlen b) h.
Lemma nonempty_hmsg h k : nonempty h -> 0 <= k < zlen h -> 0 < zlen (hmsg h k).
Proof.
  intros Hn Hk; unfold nonempty in Hn; rewrite Forall_forall in Hn; apply Hn.
  unfold hmsg, znth; apply nth_In; unfold zlen in Hk; lia.
Qed.
Lemma start_gap h j k : nonempty h -> 0 <= j <= k -> k <= zlen h -> k - j <= start h k - start h j.
Proof.
  intros Hn Hj Hk. replace k with (j + Z.of_nat (Z.to_nat (k - j))) in * by lia.
  revert Hk; induction (Z.to_nat (k - j)) as [|n IH]; intros Hk; [rewrite Z.add_0_r; lia|].
  replace (j + Z.of_nat (S n)) with (j + Z.of_nat n + 1) in * by lia.
  rewrite start_S by lia; specialize (IH ltac:(lia)).
  pose proof (nonempty_hmsg h (j + Z.of_nat n) Hn ltac:(lia)); lia.
Qed.

Lemma skipn_cons_nth {A} (d : A) n l : (n < length l)%nat -> skipn n l = nth n l d :: skipn (S n) l.
Proof.
  revert l; induction n as [|n IH]; intros l H; destruct l; cbn in *; try lia; try reflexivity.
  apply IH; lia.
Qed.
Lemma skipn_hmsg h k : 0 <= k < zlen h ->
  skipn (Z.to_nat k) h = hmsg h k :: skipn (Z.to_nat (k + 1)) h.
Proof.
  intros H; unfold hmsg, znth, zlen in *; rewrite (skipn_cons_nth ([]:bytes)) by lia.
  do 2 f_equal; lia.
Qed.
Lemma concat_split (h : list bytes) k : concat h = concat (firstn k h) ++ concat (skipn k h).
Proof. rewrite <- concat_app, firstn_skipn; reflexivity. Qed.
Lemma zlen_concat_skipn h k : 0 <= k <= zlen h ->
  zlen (concat (skipn (Z.to_nat k) h)) = zlen (concat h) - start h k.
Proof.
  intros H; unfold start; rewrite (concat_split h (Z.to_nat k)); rewrite zlen_app; lia.
Qed.
Lemma hmsg_byte h k j : 0 <= k < zlen h -> 0 <= j < zlen (hmsg h k) ->
  znth 0 (hmsg h k) j = znth 0 (concat h) (start h k + j).
Proof.
  intros Hk Hj. rewrite (concat_split h (Z.to_nat k)).
  rewrite znth_app2 by (unfold start in *; pose proof (zlen_nonneg (concat (firstn (Z.to_nat k) h))); lia).
  rewrite (skipn_hmsg h k Hk); cbn [concat].
  rewrite znth_app1 by (unfold start; lia).
  f_equal; unfold start; lia.
Qed.

Lemma firstn_skipn_app {A} n (l : list A) m : firstn n l ++ firstn m (skipn n l) = firstn (n + m) l.
Proof.
  revert l; induction n as [|n IH]; intros l; cbn; [reflexivity|].
  destruct l; cbn; [destruct m; reflexivity|]; f_equal; apply IH.
Qed.
Lemma skipn_skipn {A} a b (l : list A) : skipn a (skipn b l) = skipn (b + a) l.
Proof.
  revert l; induction b as [|b IH]; intros l; cbn; [reflexivity|].
  destruct l; cbn; [destruct a; reflexivity|apply IH].
Qed.

(** ** storing a message circularly *)

(** what the copy of one message in shr_writev does to the data region *)
Definition ring_put (d : bytes) (n i : Z) (b : bytes) : bytes :=
  if i + zlen b >? n
  then blit 0 (sub (n - i) (zlen b - (n - i)) b) (blit i (sub 0 (n - i) b) d)
  else blit i b d.

Lemma zlen_ring_put d n i b : zlen d = n -> 0 <= i < n -> zlen b <= n ->
  zlen (ring_put d n i b) = n.
Proof.
  intros Hd Hi Hb; unfold ring_put; pose proof (zlen_nonneg b).
  destruct (Z.gtb_spec (i + zlen b) n).
  - assert (zlen (sub 0 (n - i) b) = n - i) by (apply zlen_sub; lia).
    assert (zlen (sub (n - i) (zlen b - (n - i)) b) = zlen b - (n - i)) by (apply zlen_sub; lia).
    rewrite zlen_blit; rewrite ?zlen_blit; lia.
  - rewrite zlen_blit; lia.
Qed.

Lemma ring_put_spec d n T b : zlen d = n -> 0 < n -> 0 <= T -> zlen b <= n ->
  (forall x, T <= x < T + zlen b ->
     znth 0 (ring_put d n (T mod n) b) (x mod n) = znth 0 b (x - T)) /\
  (forall x, 0 <= x -> T + zlen b - n <= x < T ->
     znth 0 (ring_put d n (T mod n) b) (x mod n) = znth 0 d (x mod n)).
Proof.
  intros Hd Hn HT Hb. pose proof (zlen_nonneg b) as Hb0.
  pose proof (Z.mod_pos_bound T n Hn) as Hi. set (i := T mod n) in *.
  split.
  - intros x Hx. replace x with (T + (x - T)) at 1 by lia.
    rewrite mod_add_cases by lia; fold i.
    unfold ring_put; destruct (Z.gtb_spec (i + zlen b) n) as [Hw|Hw].
    + assert (L1 : zlen (sub 0 (n - i) b) = n - i) by (apply zlen_sub; lia).
      assert (L2 : zlen (sub (n - i) (zlen b - (n - i)) b) = zlen b - (n - i)) by (apply zlen_sub; lia).
      assert (L3 : zlen (blit i (sub 0 (n - i) b) d) = n) by (rewrite zlen_blit; lia).
      destruct (Z.ltb_spec (i + (x - T)) n) as [Hc|Hc].
      * rewrite znth_blit by lia. rewrite L2.
        destruct (Z.leb_spec 0 (i + (x - T))); [|lia].
        destruct (Z.ltb_spec (i + (x - T)) (0 + (zlen b - (n - i)))); [lia|]; cbn [andb].
        rewrite znth_blit by lia. rewrite L1.
        destruct (Z.leb_spec i (i + (x - T))); [|lia].
        destruct (Z.ltb_spec (i + (x - T)) (i + (n - i))); [|lia]; cbn [andb].
        rewrite znth_sub by lia; f_equal; lia.
      * rewrite znth_blit by lia. rewrite L2.
        destruct (Z.leb_spec 0 (i + (x - T) - n)); [|lia].
        destruct (Z.ltb_spec (i + (x - T) - n) (0 + (zlen b - (n - i)))); [|lia]; cbn [andb].
        rewrite znth_sub by lia; f_equal; lia.
    + destruct (Z.ltb_spec (i + (x - T)) n) as [Hc|Hc]; [|lia].
      rewrite znth_blit by lia.
      destruct (Z.leb_spec i (i + (x - T))); [|lia].
      destruct (Z.ltb_spec (i + (x - T)) (i + zlen b)); [|lia]; cbn [andb].
      f_equal; lia.
  - intros x Hx0 Hx.
    pose proof (Z.mod_pos_bound x n Hn) as Hxm.
    assert (HTx : i = if x mod n + (T - x) <? n then x mod n + (T - x) else x mod n + (T - x) - n).
    { unfold i; rewrite <- mod_add_cases by lia; f_equal; lia. }
    set (y := x mod n) in *. clearbody y i.
    unfold ring_put; destruct (Z.gtb_spec (i + zlen b) n) as [Hw|Hw].
    + assert (L1 : zlen (sub 0 (n - i) b) = n - i) by (apply zlen_sub; lia).
      assert (L2 : zlen (sub (n - i) (zlen b - (n - i)) b) = zlen b - (n - i)) by (apply zlen_sub; lia).
      assert (L3 : zlen (blit i (sub 0 (n - i) b) d) = n) by (rewrite zlen_blit; lia).
      destruct (Z.ltb_spec (y + (T - x)) n) as [Hc|Hc].
      * rewrite znth_blit by lia. rewrite L2.
        destruct (Z.ltb_spec y (0 + (zlen b - (n - i)))); [lia|]; rewrite andb_false_r.
        rewrite znth_blit by lia. rewrite L1.
        destruct (Z.leb_spec i y); [lia|]; reflexivity.
      * lia.
    + rewrite znth_blit by lia.
      destruct (Z.leb_spec i y); [|reflexivity].
      destruct (Z.ltb_spec y (i + zlen b)); [|reflexivity].
      destruct (Z.ltb_spec (y + (T - x)) n); lia.
Qed.

(** reading it back *)
Lemma ring_get_spec d n S len st : zlen d = n -> 0 < n -> 0 <= S -> 0 <= len <= n ->
  S + len <= zlen st ->
  (forall x, S <= x < S + len -> znth 0 d (x mod n) = znth 0 st x) ->
  (if S mod n + len >? n
   then sub (S mod n) (n - S mod n) d ++ sub 0 (len - (n - S mod n)) d
   else sub (S mod n) len d) = sub S len st.
Proof.
  intros Hd Hn HS Hlen Hst H. pose proof (Z.mod_pos_bound S n Hn) as Hi.
  set (i := S mod n) in *.
  assert (E : forall j, 0 <= j < len -> znth 0 st (S + j) = znth 0 d (if i + j <? n then i + j else i + j - n)).
  { intros j Hj; rewrite <- H by lia; rewrite mod_add_cases by lia; fold i; reflexivity. }
  destruct (Z.gtb_spec (i + len) n) as [Hw|Hw].
  - assert (L1 : zlen (sub i (n - i) d) = n - i) by (apply zlen_sub; lia).
    assert (L2 : zlen (sub 0 (len - (n - i)) d) = len - (n - i)) by (apply zlen_sub; lia).
    apply (list_ext 0).
    + rewrite zlen_app, L1, L2, zlen_sub; lia.
    + rewrite zlen_app, L1, L2; intros k Hk.
      rewrite (znth_sub _ S) by lia; rewrite E by lia.
      rewrite znth_app by lia; rewrite L1.
      destruct (Z.ltb_spec k (n - i)); destruct (Z.ltb_spec (i + k) n); try lia;
        rewrite znth_sub by lia; f_equal; lia.
  - apply (list_ext 0).
    + rewrite !zlen_sub; lia.
    + rewrite zlen_sub by lia; intros k Hk.
      rewrite !znth_sub by lia; rewrite E by lia.
      destruct (Z.ltb_spec (i + k) n); [reflexivity|lia].
Qed.

Lemma hmsg_sub h k : 0 <= k < zlen h -> hmsg h k = sub (start h k) (zlen (hmsg h k)) (concat h).
Proof.
  intros Hk.
  assert (start h k + zlen (hmsg h k) <= zlen (concat h)).
  { rewrite <- start_S by lia. rewrite <- (start_all h (zlen h)) by reflexivity. apply start_mono; lia. }
  pose proof (zlen_nonneg (hmsg h k)). pose proof (start_nonneg h k).
  apply (list_ext 0).
  - rewrite zlen_sub; lia.
  - intros j Hj; rewrite znth_sub by lia; apply hmsg_byte; lia.
Qed.

Lemma blit_nil {A} p (l : list A) : blit p [] l = l.
Proof. unfold blit; cbn [app length]; rewrite Nat.add_0_r; apply firstn_skipn. Qed.
Lemma blit_blit_app {A} p (a b l : list A) : 0 <= p -> p + zlen a + zlen b <= zlen l ->
  blit (p + zlen a) b (blit p a l) = blit p (a ++ b) l.
Proof.
  intros Hp Hl. destruct l as [|d0 l0].
  { cbn in Hl; pose proof (zlen_nonneg a); pose proof (zlen_nonneg b).
    assert (a = []) by (apply zlen_0; cbn in Hl; lia).
    assert (b = []) by (apply zlen_0; cbn in Hl; lia). subst; cbn [app].
    rewrite !blit_nil; reflexivity. }
  set (l := d0 :: l0) in *. clearbody l.
  pose proof (zlen_nonneg a); pose proof (zlen_nonneg b).
  assert (La : zlen (blit p a l) = zlen l) by (rewrite zlen_blit; lia).
  apply (list_ext d0).
  - rewrite !zlen_blit; rewrite ?zlen_app; lia.
  - rewrite zlen_blit by lia. intros k Hk.
    rewrite !znth_blit by (rewrite ?zlen_app; lia). rewrite zlen_app.
    destruct (Z.leb_spec (p + zlen a) k), (Z.ltb_spec k (p + zlen a + zlen b)),
      (Z.leb_spec p k), (Z.ltb_spec k (p + zlen a)), (Z.ltb_spec k (p + (zlen a + zlen b)));
      cbn [andb]; try lia; try reflexivity.
    + rewrite znth_app2 by lia; f_equal; lia.
    + rewrite znth_app1 by lia; reflexivity.
Qed.
