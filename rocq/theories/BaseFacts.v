(** * Facts about Base.v *)
From Verif Require Export Base.

Lemma u64_small x : 0 <= x < W64 -> u64 x = x.
Proof. intros H; unfold u64; apply Z.mod_small; exact H. Qed.
Lemma u64_range x : 0 <= u64 x < W64.
Proof. unfold u64; apply Z.mod_pos_bound; lia. Qed.
Lemma u64_u64 x : u64 (u64 x) = u64 x.
Proof. apply u64_small, u64_range. Qed.
Lemma u64_add_l x y : u64 (u64 x + y) = u64 (x + y).
Proof. unfold u64; apply Zplus_mod_idemp_l. Qed.
Lemma u64_add_r x y : u64 (x + u64 y) = u64 (x + y).
Proof. unfold u64; apply Zplus_mod_idemp_r. Qed.
Lemma u64_sub_l x y : u64 (u64 x - y) = u64 (x - y).
Proof. unfold u64; apply Zminus_mod_idemp_l. Qed.
Lemma u64_sub_r x y : u64 (x - u64 y) = u64 (x - y).
Proof. unfold u64; apply Zminus_mod_idemp_r. Qed.

(** rewrite away wraps that lia can show do not happen *)
Ltac u64s :=
  repeat match goal with
  | |- context [u64 ?x] => rewrite (u64_small x) by lia
  end.
Ltac u64s_in H :=
  repeat match type of H with
  | context [u64 ?x] => rewrite (u64_small x) in H by lia
  end.

(** ** lengths *)
Lemma zlen_nonneg {A} (l : list A) : 0 <= zlen l.
Proof. unfold zlen; lia. Qed.
Lemma zlen_nil {A} : zlen (@nil A) = 0.
Proof. reflexivity. Qed.
Lemma zlen_cons {A} (x : A) l : zlen (x :: l) = zlen l + 1.
Proof. unfold zlen; cbn [length]; lia. Qed.
Lemma zlen_app {A} (a b : list A) : zlen (a ++ b) = zlen a + zlen b.
Proof. unfold zlen; rewrite app_length; lia. Qed.
Lemma zlen_map {A B} (f : A -> B) l : zlen (map f l) = zlen l.
Proof. unfold zlen; rewrite map_length; reflexivity. Qed.
Lemma zlen_rev {A} (l : list A) : zlen (rev l) = zlen l.
Proof. unfold zlen; rewrite rev_length; reflexivity. Qed.
Lemma zlen_repeat {A} (x : A) n : zlen (repeat x n) = Z.of_nat n.
Proof. unfold zlen; rewrite repeat_length; reflexivity. Qed.
Lemma zlen_0 {A} (l : list A) : zlen l = 0 -> l = [].
Proof. destruct l; [reflexivity|]; rewrite zlen_cons; pose proof (zlen_nonneg l); lia. Qed.
Lemma zlen_pos {A} (l : list A) : 0 < zlen l -> l <> [].
Proof. intros H E; subst; cbn in H; lia. Qed.

(** ** indexing *)
Lemma znth_app {A} (d : A) a b k : 0 <= k ->
  znth d (a ++ b) k = if k <? zlen a then znth d a k else znth d b (k - zlen a).
Proof.
  intros Hk; unfold znth, zlen; destruct (Z.ltb_spec k (Z.of_nat (length a))).
  - apply app_nth1; lia.
  - rewrite app_nth2 by lia; f_equal; lia.
Qed.
Lemma znth_app1 {A} (d : A) a b k : 0 <= k < zlen a -> znth d (a ++ b) k = znth d a k.
Proof. intros H; rewrite znth_app by lia; destruct (Z.ltb_spec k (zlen a)); [reflexivity|lia]. Qed.
Lemma znth_app2 {A} (d : A) a b k : zlen a <= k -> znth d (a ++ b) k = znth d b (k - zlen a).
Proof.
  intros H; pose proof (zlen_nonneg a); rewrite znth_app by lia.
  destruct (Z.ltb_spec k (zlen a)); [lia|reflexivity].
Qed.
Lemma znth_cons_0 {A} (d : A) x l : znth d (x :: l) 0 = x.
Proof. reflexivity. Qed.
Lemma znth_cons_S {A} (d : A) x l k : 0 < k -> znth d (x :: l) k = znth d l (k - 1).
Proof.
  intros H; unfold znth; replace (Z.to_nat k) with (S (Z.to_nat (k - 1))) by lia; reflexivity.
Qed.

Lemma nth_skipn {A} (d : A) l p k : nth k (skipn p l) d = nth (p + k) l d.
Proof.
  revert l; induction p as [|p IH]; intros l; cbn; [reflexivity|].
  destruct l; cbn; [destruct k; reflexivity|apply IH].
Qed.
Lemma nth_firstn {A} (d : A) l n k : (k < n)%nat -> nth k (firstn n l) d = nth k l d.
Proof.
  revert l k; induction n as [|n IH]; intros l k H; [lia|].
  destruct l; cbn; [destruct k; reflexivity|].
  destruct k; [reflexivity|apply IH; lia].
Qed.

Lemma znth_sub {A} (d : A) p n l k : 0 <= p -> 0 <= k < n ->
  znth d (sub p n l) k = znth d l (p + k).
Proof.
  intros Hp Hk; unfold znth, sub; rewrite nth_firstn by lia; rewrite nth_skipn; f_equal; lia.
Qed.
Lemma zlen_sub {A} p n (l : list A) : 0 <= p -> 0 <= n -> p + n <= zlen l -> zlen (sub p n l) = n.
Proof.
  unfold zlen, sub; intros; rewrite firstn_length, skipn_length; lia.
Qed.
Lemma sub_0_all {A} n (l : list A) : n = zlen l -> sub 0 n l = l.
Proof. intros ->; unfold sub, zlen; cbn [skipn Z.to_nat]; rewrite Nat2Z.id; apply firstn_all. Qed.
Lemma sub_0_0 {A} p (l : list A) : sub p 0 l = [].
Proof. unfold sub; cbn; reflexivity. Qed.

Lemma list_ext {A} (d : A) (a b : list A) :
  zlen a = zlen b -> (forall k, 0 <= k < zlen a -> znth d a k = znth d b k) -> a = b.
Proof.
  intros HL H; apply (nth_ext _ _ d d); [unfold zlen in HL; lia|].
  intros k Hk; specialize (H (Z.of_nat k)); unfold znth, zlen in H; rewrite Nat2Z.id in H; apply H; lia.
Qed.

Lemma zlen_blit {A} p (src l : list A) : 0 <= p -> p + zlen src <= zlen l -> zlen (blit p src l) = zlen l.
Proof.
  intros; unfold blit, zlen in *; rewrite !app_length, firstn_length, skipn_length; lia.
Qed.
Lemma znth_blit {A} (d : A) p (src l : list A) k :
  0 <= p -> p + zlen src <= zlen l -> 0 <= k ->
  znth d (blit p src l) k =
    if (p <=? k) && (k <? p + zlen src) then znth d src (k - p) else znth d l k.
Proof.
  intros Hp Hl Hk; unfold blit, znth, zlen in *.
  destruct (Z.leb_spec p k) as [H1|H1]; cbn [andb].
  - rewrite app_nth2 by (rewrite firstn_length; lia).
    rewrite firstn_length, Nat.min_l by lia.
    destruct (Z.ltb_spec k (p + Z.of_nat (length src))) as [H2|H2].
    + rewrite app_nth1 by lia; f_equal; lia.
    + rewrite app_nth2 by lia; rewrite nth_skipn; f_equal; lia.
  - rewrite app_nth1 by (rewrite firstn_length; lia).
    apply nth_firstn; lia.
Qed.

Lemma zlen_set_nat {A} (l : list A) k v : length (set_nat l k v) = length l.
Proof. revert k; induction l as [|x t IH]; intros [|k]; cbn; auto. Qed.
Lemma zlen_zupd {A} (l : list A) k v : zlen (zupd l k v) = zlen l.
Proof. unfold zlen, zupd; rewrite zlen_set_nat; reflexivity. Qed.
Lemma nth_set_nat {A} (d : A) l k v j : (k < length l)%nat ->
  nth j (set_nat l k v) d = if Nat.eqb j k then v else nth j l d.
Proof.
  revert k j; induction l as [|x t IH]; intros k j Hk; [cbn in Hk; lia|].
  destruct k, j; cbn; try reflexivity.
  apply IH; cbn in Hk; lia.
Qed.
Lemma znth_zupd {A} (d : A) l k v j : 0 <= k < zlen l -> 0 <= j ->
  znth d (zupd l k v) j = if j =? k then v else znth d l j.
Proof.
  intros Hk Hj; unfold znth, zupd, zlen in *; rewrite nth_set_nat by lia.
  destruct (Z.eqb_spec j k), (Nat.eqb_spec (Z.to_nat j) (Z.to_nat k)); try reflexivity; lia.
Qed.

Lemma zget_ok {A} (d : A) l k : 0 <= k < zlen l -> zget l k = Ok (znth d l k).
Proof.
  intros H; unfold zget, znth, zlen in *; destruct (Z.leb_spec 0 k); [|lia].
  rewrite (nth_error_nth' l d) by lia; reflexivity.
Qed.
Lemma zset_ok {A} (l : list A) k v : 0 <= k < zlen l -> zset l k v = Ok (zupd l k v).
Proof.
  intros H; unfold zset; destruct (Z.leb_spec 0 k), (Z.ltb_spec k (zlen l)); try lia; reflexivity.
Qed.
Lemma rd_mem_ok p n l : 0 <= p -> 0 <= n -> p + n <= zlen l -> rd_mem p n l = Ok (sub p n l).
Proof.
  intros; unfold rd_mem; destruct (Z.leb_spec 0 p), (Z.leb_spec 0 n), (Z.leb_spec (p + n) (zlen l));
    try lia; reflexivity.
Qed.
Lemma wr_mem_ok p s l : 0 <= p -> p + zlen s <= zlen l -> wr_mem p s l = Ok (blit p s l).
Proof.
  intros; unfold wr_mem; destruct (Z.leb_spec 0 p), (Z.leb_spec (p + zlen s) (zlen l)); try lia; reflexivity.
Qed.
Lemma umod_ok a b : 0 < b -> umod a b = Ok (a mod b).
Proof. intros; unfold umod; destruct (Z.eqb_spec b 0); [lia|reflexivity]. Qed.

(** ** modular arithmetic *)
Lemma mod_step a b : 0 < b -> 0 <= a ->
  (if a mod b + 1 =? b then 0 else a mod b + 1) = (a + 1) mod b.
Proof.
  intros Hb Ha. pose proof (Z.mod_pos_bound a b Hb).
  pose proof (Z.div_mod a b ltac:(lia)) as E.
  destruct (Z.eqb_spec (a mod b + 1) b).
  - apply Z.mod_unique_pos with (q := a / b + 1); lia.
  - apply Z.mod_unique_pos with (q := a / b); lia.
Qed.
Lemma mod_add_cases a b n : 0 < n -> 0 <= a -> 0 <= b <= n ->
  (a + b) mod n = if a mod n + b <? n then a mod n + b else a mod n + b - n.
Proof.
  intros Hn Ha Hb. pose proof (Z.mod_pos_bound a n Hn).
  pose proof (Z.div_mod a n ltac:(lia)) as E.
  destruct (Z.ltb_spec (a mod n + b) n).
  - symmetry; apply Z.mod_unique_pos with (q := a / n); lia.
  - symmetry; apply Z.mod_unique_pos with (q := a / n + 1); lia.
Qed.
Lemma mod_inj_window a b n : 0 < n -> Z.abs (a - b) < n -> a mod n = b mod n -> a = b.
Proof.
  intros Hn Hd He.
  pose proof (Z.div_mod a n ltac:(lia)) as Ea.
  pose proof (Z.div_mod b n ltac:(lia)) as Eb.
  rewrite He in Ea.
  assert (a - b = n * (a / n - b / n)) as E by lia.
  assert (a / n - b / n = 0) by nia. nia.
Qed.

(** ** sums *)
Fixpoint zsum (l : list Z) : Z := match l with [] => 0 | x :: t => x + zsum t end.
Lemma zsum_app a b : zsum (a ++ b) = zsum a + zsum b.
Proof. induction a as [|x a IH]; cbn [zsum app]; lia. Qed.
Lemma zlen_concat {A} (l : list (list A)) : zlen (concat l) = zsum (map zlen l).
Proof. induction l as [|x l IH]; cbn [concat map zsum]; [reflexivity|]; rewrite zlen_app, IH; reflexivity. Qed.
Lemma zsum_nonneg l : Forall (fun x => 0 <= x) l -> 0 <= zsum l.
Proof. induction 1; cbn [zsum]; lia. Qed.
Lemma zsum_zlen_nonneg {A} (l : list (list A)) : 0 <= zsum (map zlen l).
Proof. rewrite <- zlen_concat; apply zlen_nonneg. Qed.

(** ** outcome *)
Lemma obind_ok {A B} (m : outcome A) (k : A -> outcome B) b :
  obind m k = Ok b -> exists a, m = Ok a /\ k a = Ok b.
Proof. destruct m; cbn; intros H; try discriminate; eauto. Qed.
