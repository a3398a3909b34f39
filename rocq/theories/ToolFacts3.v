(** * hexdump, parse_spec, the options of create *)
From Verif Require Export ToolSpec2 ToolFacts2.

Lemma hexdig_char x : 0 <= x < 16 -> hexdig x = znth 0 hexchars x.
Proof. intros H. assert (E : In x [0;1;2;3;4;5;6;7;8;9;10;11;12;13;14;15]) by (cbn; lia). cbn in E. repeat destruct E as [<-|E]; try reflexivity. destruct E. Qed.
Lemma shr16 n k : 0 <= k -> n / 16 ^ (k + 1) = n / 16 ^ k / 16.
Proof. intros H. rewrite Z.div_div by lia. rewrite Z.pow_add_r by lia. reflexivity. Qed.
Lemma hex8_from n : 0 <= n < 4294967296 -> from_hex (hex8 n) n.
Proof.
  intros H. exists (map (fun k => n / 16 ^ k mod 16) [7;6;5;4;3;2;1;0]). split; [|split].
  - apply Forall_forall. intros x Hx. apply in_map_iff in Hx. destruct Hx as (k & <- & _). apply Z.mod_pos_bound. lia.
  - unfold hex8. rewrite map_map. apply map_ext_in. intros k _. apply hexdig_char. apply Z.mod_pos_bound. lia.
  - cbn [map fold_left]. 
    assert (E7 : n / 16 ^ 7 = n / 16 ^ 6 / 16) by exact (shr16 n 6 ltac:(lia)). assert (E6 : n / 16 ^ 6 = n / 16 ^ 5 / 16) by exact (shr16 n 5 ltac:(lia)). assert (E5 : n / 16 ^ 5 = n / 16 ^ 4 / 16) by exact (shr16 n 4 ltac:(lia)). assert (E4 : n / 16 ^ 4 = n / 16 ^ 3 / 16) by exact (shr16 n 3 ltac:(lia)). assert (E3 : n / 16 ^ 3 = n / 16 ^ 2 / 16) by exact (shr16 n 2 ltac:(lia)). assert (E2 : n / 16 ^ 2 = n / 16 ^ 1 / 16) by exact (shr16 n 1 ltac:(lia)). assert (E1 : n / 16 ^ 1 = n / 16 ^ 0 / 16) by exact (shr16 n 0 ltac:(lia)).
    rewrite E7, E6, E5, E4, E3, E2, E1.
    change (16 ^ 0) with 1. rewrite Z.div_1_r. set (a := n / 16). set (b := a / 16). set (c := b / 16). set (d := c / 16). set (e := d / 16). set (f := e / 16). set (g := f / 16).
    assert (g < 16). { unfold g, f, e, d, c, b, a. rewrite !Z.div_div by lia. apply Z.div_lt_upper_bound; lia. }
    assert (0 <= g) by (unfold g, f, e, d, c, b, a; repeat apply Z.div_pos; lia).
    rewrite (Z.mod_small g) by lia. pose proof (Z.div_mod f 16). pose proof (Z.div_mod e 16). pose proof (Z.div_mod d 16). pose proof (Z.div_mod c 16). pose proof (Z.div_mod b 16). pose proof (Z.div_mod a 16). pose proof (Z.div_mod n 16).
    fold g in H2. fold f in H3. fold e in H4. fold d in H5. fold c in H6. fold b in H7. fold a in H8. lia.
Qed.
Lemma hex2_from c : is_byte c -> from_hex (hex2 c) c.
Proof.
  intros H. unfold is_byte in H. exists [c / 16; c mod 16]. split; [|split].
  - constructor; [|constructor; [|constructor]]; Z.div_mod_to_equations; lia.
  - cbn [map hex2]. unfold hex2. rewrite !hexdig_char by (Z.div_mod_to_equations; lia). reflexivity.
  - cbn [fold_left]. Z.div_mod_to_equations. lia.
Qed.

(** ** hexdump *)
Definition pcol (m : bytes) (n i : Z) : bytes := if n + i <? zlen m then hex2 (znth 0 m (n + i)) ++ [32] else [32; 32; 32].
Definition shown (c : Z) : Z := if (c <? 32) || (c >? 126) then 46 else c.
Definition ptx (m : bytes) (n i : Z) : bytes := [if n + i <? zlen m then shown (znth 0 m (n + i)) else 32].
Definition pline (m : bytes) (n : Z) : bytes := hex8 n ++ [32] ++ flat_map (pcol m n) cols ++ flat_map (ptx m n) cols ++ [10].
Fixpoint plines (m : bytes) (n : Z) (q : nat) : bytes := match q with O => [] | S q => pline m n ++ plines m (n + 16) q end.
Lemma for_each_pure f g l : (forall i, In i l -> f i = Ok (g i)) -> for_each f l = Ok (flat_map g l).
Proof.
  induction l as [|i l IH]; intros H; [reflexivity|]. cbn [for_each flat_map]. rewrite H by (left; reflexivity). cbn [obind]. rewrite IH by (intros; apply H; right; assumption). reflexivity.
Qed.
Lemma rd1 (m rest : bytes) i : 0 <= i < zlen m -> rd_mem i 1 (m ++ rest) = Ok [znth 0 m i].
Proof.
  intros H. unfold rd_mem. rewrite zlen_app. pose proof (zlen_nonneg rest). replace ((0 <=? i) && (0 <=? 1) && (i + 1 <=? zlen m + zlen rest)) with true by lia. f_equal.
  unfold sub, znth. assert (L : (Z.to_nat i < length m)%nat) by (unfold zlen in H; lia). rewrite skipn_app. change (Z.to_nat 1) with 1%nat.
  destruct (skipn (Z.to_nat i) m) as [|x t] eqn:E. { apply (f_equal (@length _)) in E. rewrite skipn_length in E. cbn in E. lia. }
  cbn [app firstn]. rewrite <- (firstn_skipn (Z.to_nat i) m) at 1. rewrite E, app_nth2; rewrite firstn_length; [|lia]. replace (Z.to_nat i - Nat.min (Z.to_nat i) (length m))%nat with O by lia. reflexivity.
Qed.
Lemma dump_line_pure m rest n : 0 <= n -> dump_line (m ++ rest) (zlen m) n = Ok (pline m n).
Proof.
  intros Hn. assert (P : forall i, In i cols -> 0 <= i) by (intros i Hi; cbn in Hi; lia). unfold dump_line.
  rewrite (for_each_pure _ (pcol m n)); [cbn [obind]; rewrite (for_each_pure _ (ptx m n)); [reflexivity|]|]; intros i Hi; specialize (P i Hi); unfold pcol, ptx; destruct (Z.ltb_spec (n + i) (zlen m)); try reflexivity.
  - rewrite rd1 by lia. reflexivity.
  - rewrite rd1 by lia. cbn [obind flat_map]. rewrite app_nil_r. reflexivity.
Qed.
Lemma dump_loop_pure m rest : forall q fuel n, 0 <= n -> (q < fuel)%nat -> zlen m <= n + 16 * Z.of_nat q -> (q = O \/ n + 16 * (Z.of_nat q - 1) < zlen m) ->
  dump_loop fuel (m ++ rest) (zlen m) n = Ok (plines m n q).
Proof.
  induction q as [|q IH]; intros fuel n Hn Hf Hu Hl; destruct fuel as [|fuel]; try lia; cbn [dump_loop plines].
  - replace (n <? zlen m) with false by lia. reflexivity.
  - destruct Hl as [Hl|Hl]; [discriminate|]. replace (n <? zlen m) with true by lia. rewrite dump_line_pure by exact Hn. cbn [obind].
    rewrite (IH fuel (n + 16)) by lia. reflexivity.
Qed.
Lemma zlen_hex8 n : length (hex8 n) = 8%nat. Proof. reflexivity. Qed.
Lemma len_pcol m n i : length (pcol m n i) = 3%nat. Proof. unfold pcol. destruct (n + i <? zlen m); reflexivity. Qed.
Lemma flat_map_const {A B} (f : A -> list B) k l : (forall i, length (f i) = k) -> length (flat_map f l) = (k * length l)%nat.
Proof. intros H. induction l as [|a l IH]; cbn; [lia|]. rewrite app_length, H, IH. lia. Qed.
Lemma len_pline m n : length (pline m n) = 74%nat.
Proof. unfold pline. rewrite !app_length, (flat_map_const _ 3 _ (len_pcol m n)), (flat_map_const (ptx m n) 1) by reflexivity. reflexivity. Qed.
Lemma len_plines m : forall q n, zlen (plines m n q) = 74 * Z.of_nat q.
Proof. induction q as [|q IH]; intros n; cbn [plines]; [reflexivity|]. rewrite zlen_app, IH. unfold zlen. rewrite len_pline. lia. Qed.
Lemma sub_left {A} (a b : list A) p l : 0 <= p -> p + l <= zlen a -> sub p l (a ++ b) = sub p l a.
Proof.
  intros H1 H2. unfold sub. rewrite skipn_app, firstn_app. unfold zlen in H2. destruct (Z_le_gt_dec l 0) as [L|L]; [replace (Z.to_nat l) with O by lia; rewrite !firstn_O; reflexivity|].
  replace (Z.to_nat l - length (skipn (Z.to_nat p) a))%nat with O by (rewrite skipn_length; lia). rewrite firstn_O, app_nil_r. reflexivity.
Qed.
Lemma sub_right {A} (a b : list A) p l : zlen a <= p -> sub p l (a ++ b) = sub (p - zlen a) l b.
Proof.
  intros H. unfold sub. rewrite skipn_app. unfold zlen in *. rewrite skipn_all2 by lia. cbn [app]. do 2 f_equal. lia.
Qed.
Lemma sub_plines m : forall q n a o l, (a < q)%nat -> 0 <= o -> o + l <= 74 -> sub (74 * Z.of_nat a + o) l (plines m n q) = sub o l (pline m (n + 16 * Z.of_nat a)).
Proof.
  assert (L : forall n, zlen (pline m n) = 74) by (intros n; unfold zlen; rewrite len_pline; reflexivity).
  induction q as [|q IH]; intros n a o l Ha Ho Hl; [lia|]. cbn [plines]. destruct a as [|a].
  - rewrite sub_left by (rewrite ?L; lia). do 2 f_equal; lia.
  - rewrite sub_right by (rewrite L; lia). rewrite L. replace (74 * Z.of_nat (S a) + o - 74) with (74 * Z.of_nat a + o) by lia. rewrite IH by lia. do 2 f_equal. lia.
Qed.
Lemma sub_flat {A} (f : Z -> list A) k : (forall i, length (f i) = Z.to_nat k) -> 0 <= k -> forall l a b, 0 <= a < zlen l ->
  sub (k * a) b (flat_map f l) = sub 0 b (f (znth 0 l a) ++ skipn (Z.to_nat (k * (a + 1))) (flat_map f l)).
Proof.
  intros H K l. induction l as [|x l IH]; intros a b Ha; [cbn in Ha; lia|]. cbn [flat_map]. rewrite zlen_cons in Ha.
  assert (Lf : zlen (f x) = k) by (unfold zlen; rewrite H; lia).
  destruct (Z.eq_dec a 0) as [->|N].
  - rewrite Z.mul_0_r. unfold znth. cbn [Z.to_nat nth]. replace (k * (0 + 1)) with k by lia. rewrite skipn_app, <- (H x), skipn_all, Nat.sub_diag. cbn [app]. rewrite skipn_O. reflexivity.
  - rewrite sub_right by (rewrite Lf; nia). rewrite Lf. replace (k * a - k) with (k * (a - 1)) by lia. rewrite IH by lia. f_equal.
    f_equal; [unfold znth; replace (Z.to_nat a) with (S (Z.to_nat (a - 1))) by lia; reflexivity|].
    rewrite skipn_app, (skipn_all2 (f x)) by (rewrite (H x); nia). cbn [app]. f_equal. rewrite (H x). nia.
Qed.
Lemma cols_id i : 0 <= i < 16 -> znth 0 cols i = i.
Proof. intros H. assert (E : In i cols) by (cbn; lia). cbn in E. repeat destruct E as [<-|E]; try reflexivity. destruct E. Qed.
Lemma pline_off m n : sub 0 8 (pline m n) = hex8 n.
Proof. reflexivity. Qed.
Lemma pline_hex m n i : 0 <= i < 16 -> sub (9 + 3 * i) 2 (pline m n) = if n + i <? zlen m then hex2 (znth 0 m (n + i)) else [32; 32].
Proof.
  intros H. unfold pline. rewrite app_assoc, sub_right by (change (zlen (hex8 n ++ [32])) with 9; lia). change (zlen (hex8 n ++ [32])) with 9.
  replace (9 + 3 * i - 9) with (3 * i) by lia. assert (LL : zlen (flat_map (pcol m n) cols) = 48) by (unfold zlen; rewrite (flat_map_const _ 3 _ (len_pcol m n)); reflexivity).
  rewrite sub_left by lia. rewrite (sub_flat (pcol m n) 3 (len_pcol m n)) by (change (zlen cols) with 16; lia). rewrite cols_id by exact H.
  unfold pcol at 1. destruct (n + i <? zlen m); reflexivity.
Qed.
Lemma pline_txt m n i : 0 <= i < 16 -> n + i < zlen m -> sub (57 + i) 1 (pline m n) = [shown (znth 0 m (n + i))].
Proof.
  intros H Hm. unfold pline. assert (LL : zlen (flat_map (pcol m n) cols) = 48) by (unfold zlen; rewrite (flat_map_const _ 3 _ (len_pcol m n)); reflexivity).
  rewrite app_assoc, sub_right by (change (zlen (hex8 n ++ [32])) with 9; lia). change (zlen (hex8 n ++ [32])) with 9.
  rewrite sub_right by lia. rewrite LL. replace (57 + i - 9 - 48) with (1 * i) by lia.
  assert (LT : zlen (flat_map (ptx m n) cols) = 16) by reflexivity.
  rewrite sub_left by lia. rewrite (sub_flat (ptx m n) 1) by (try reflexivity; change (zlen cols) with 16; lia). rewrite cols_id by exact H. unfold ptx at 1. replace (n + i <? zlen m) with true by lia. reflexivity.
Qed.
Lemma t_hexdump m rest : Forall is_byte m -> zlen m <= 4294967296 ->
  exists out, hexdump (m ++ rest) (zlen m) = Ok out /\ zlen out = 74 * ((zlen m + 15) / 16)
    /\ forall line i, 0 <= line < (zlen m + 15) / 16 -> 0 <= i < 16 ->
       from_hex (sub (74 * line) 8 out) (16 * line)
       /\ (16 * line + i < zlen m -> from_hex (sub (74 * line + (9 + 3 * i)) 2 out) (znth 0 m (16 * line + i))
            /\ sub (74 * line + (57 + i)) 1 out = [let c := znth 0 m (16 * line + i) in if (32 <=? c) && (c <=? 126) then c else 46])
       /\ (zlen m <= 16 * line + i -> sub (74 * line + (9 + 3 * i)) 2 out = [32; 32]).
Proof.
  intros B L. pose proof (zlen_nonneg m) as M0. set (q := Z.to_nat ((zlen m + 15) / 16)). assert (Q : Z.of_nat q = (zlen m + 15) / 16) by (unfold q; Z.div_mod_to_equations; lia).
  exists (plines m 0 q). assert (Qb : zlen m <= 16 * Z.of_nat q < zlen m + 16) by (rewrite Q; Z.div_mod_to_equations; lia).
  split; [|split; [rewrite len_plines, Q; reflexivity|]].
  - unfold hexdump. apply dump_loop_pure; [lia| |lia|destruct q; [left; reflexivity|right; lia]]. rewrite app_length. unfold zlen in Qb. lia.
  - intros line i Hl Hi. rewrite <- Q in Hl. replace line with (Z.of_nat (Z.to_nat line)) by lia. set (a := Z.to_nat line) in *. assert (Ha : (a < q)%nat) by lia. clearbody a.
    rewrite <- (Z.add_0_r (74 * Z.of_nat a)) at 1. rewrite !sub_plines by lia. rewrite Z.add_0_l. split; [rewrite pline_off; apply hex8_from; lia|]. rewrite pline_hex by lia. split.
    + intros Hm. replace (16 * Z.of_nat a + i <? zlen m) with true by lia. split.
      * apply hex2_from. rewrite Forall_forall in B. apply B. unfold znth. apply nth_In. unfold zlen in Hm. lia.
      * rewrite pline_txt by lia. unfold shown. set (c := znth 0 m _). f_equal. destruct (Z.ltb_spec c 32), (Z.gtb_spec c 126); cbn [orb]; destruct (Z.leb_spec 32 c), (Z.leb_spec c 126); cbn [andb]; try reflexivity; lia.
    + intros Hm. replace (16 * Z.of_nat a + i <? zlen m) with false by lia. reflexivity.
Qed.
Lemma hexchars_inj x y : 0 <= x < 16 -> 0 <= y < 16 -> znth 0 hexchars x = znth 0 hexchars y -> x = y.
Proof.
  intros Hx Hy. rewrite <- !hexdig_char by assumption. unfold hexdig. destruct (x <? 10) eqn:E1, (y <? 10) eqn:E2; lia.
Qed.
Lemma from_hex_inj ds a b : from_hex ds a -> from_hex ds b -> a = b.
Proof.
  intros (xs & X1 & X2 & X3) (ys & Y1 & Y2 & Y3). assert (E : xs = ys); [|subst; reflexivity]. subst ds. clear X3 Y3. revert ys Y1 Y2.
  induction X1 as [|x xs Hx X1 IH]; intros ys Y1 E; destruct Y1 as [|y ys Hy Y1]; try discriminate; [reflexivity|]. cbn [map] in E. injection E as E1 E2. f_equal; [apply hexchars_inj; assumption|apply IH; assumption].
Qed.
Lemma t_lossless a b ra rb out : Forall is_byte a -> Forall is_byte b -> zlen a <= 4294967296 -> zlen b <= 4294967296 ->
  hexdump (a ++ ra) (zlen a) = Ok out -> hexdump (b ++ rb) (zlen b) = Ok out -> a = b.
Proof.
  intros Ba Bb La Lb Ha Hb. destruct (t_hexdump a ra Ba La) as (o1 & E1 & N1 & P1). destruct (t_hexdump b rb Bb Lb) as (o2 & E2 & N2 & P2).
  rewrite Ha in E1. injection E1 as <-. rewrite Hb in E2. injection E2 as <-. rewrite N1 in N2. assert (Q : (zlen a + 15) / 16 = (zlen b + 15) / 16) by lia. clear N1 N2.
  assert (SP : forall n, ~ from_hex [32; 32] n).
  { intros n (xs & X1 & X2 & _). destruct xs as [|x xs]; [discriminate|]. cbn [map] in X2. injection X2 as X2 _. inversion X1; subst. rewrite <- hexdig_char in X2 by assumption. unfold hexdig in X2. destruct (x <? 10); lia. }
  assert (LT : forall x y : list Z, (forall line i, 0 <= line < (zlen x + 15) / 16 -> 0 <= i < 16 -> zlen x <= 16 * line + i -> sub (74 * line + (9 + 3 * i)) 2 out = [32; 32]) ->
    (forall line i, 0 <= line < (zlen y + 15) / 16 -> 0 <= i < 16 -> 16 * line + i < zlen y -> from_hex (sub (74 * line + (9 + 3 * i)) 2 out) (znth 0 y (16 * line + i))) ->
    (zlen x + 15) / 16 = (zlen y + 15) / 16 -> zlen y <= zlen x).
  { intros x y Px Py Qxy. destruct (Z_le_gt_dec (zlen y) (zlen x)) as [G|G]; [exact G|exfalso]. pose proof (zlen_nonneg x).
    assert (L0 : 0 <= zlen x / 16 < (zlen x + 15) / 16) by (rewrite Qxy; Z.div_mod_to_equations; lia). pose proof (Z.mod_pos_bound (zlen x) 16 ltac:(lia)) as M. pose proof (Z.div_mod (zlen x) 16 ltac:(lia)) as D.
    specialize (Px (zlen x / 16) (zlen x mod 16) L0 M ltac:(lia)). rewrite Qxy in L0. specialize (Py (zlen x / 16) (zlen x mod 16) L0 M ltac:(lia)). rewrite Px in Py. apply (SP _ Py). }
  assert (EL : zlen a = zlen b).
  { apply Z.le_antisymm; [apply (LT b a)|apply (LT a b)]; try (symmetry; exact Q); try exact Q; intros line i H1 H2 H3; [apply (P2 line i H1 H2)|apply (P1 line i H1 H2)|apply (P1 line i H1 H2)|apply (P2 line i H1 H2)]; exact H3. }
  apply (nth_ext a b 0 0); [unfold zlen in EL; lia|]. intros n Hn. set (i := Z.of_nat n).
  assert (L0 : 0 <= i / 16 < (zlen a + 15) / 16) by (unfold zlen, i in *; Z.div_mod_to_equations; lia). pose proof (Z.mod_pos_bound i 16 ltac:(lia)) as M. pose proof (Z.div_mod i 16 ltac:(lia)) as D.
  destruct (P1 (i / 16) (i mod 16) L0 M) as (_ & A1 & _). rewrite Q in L0. destruct (P2 (i / 16) (i mod 16) L0 M) as (_ & A2 & _).
  assert (Li : i < zlen a) by (unfold zlen, i; lia). destruct A1 as [A1 _]; [lia|]. destruct A2 as [A2 _]; [lia|]. pose proof (from_hex_inj _ _ _ A1 A2) as E.
  unfold znth in E. rewrite <- D in E. unfold i in E. rewrite !Nat2Z.id in E. exact E.
Qed.
