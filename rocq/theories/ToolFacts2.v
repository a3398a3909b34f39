From Verif Require Export ToolFacts.

(** ** raw read *)
Lemma t_raw m k acc : 0 < zlen m <= k -> raw_out m (zlen m) (k :: acc) = Ok m.
Proof.
  intros H. cbn [raw_out]. rewrite rd_mem_ok by lia. cbn [obind]. replace (k <? 0) with false by lia. rewrite Z.min_r by lia.
  rewrite Z.sub_diag. replace (0 >? 0) with false by reflexivity. f_equal. rewrite sub_0_all by reflexivity.
  apply firstn_all2. unfold zlen. lia.
Qed.
(** what a short write does *)
Lemma t_raw_short m k : 0 < k < zlen m -> zlen m <= 2 * k -> raw_out m (zlen m) [k; k] = Ok (firstn (Z.to_nat k) m ++ firstn (Z.to_nat (zlen m - k)) m).
Proof.
  intros H H2. cbn [raw_out]. rewrite rd_mem_ok by lia. cbn [obind]. replace (k <? 0) with false by lia. rewrite Z.min_l by lia.
  replace (zlen m - k >? 0) with true by lia. rewrite rd_mem_ok by lia. cbn [obind]. rewrite Z.min_r by lia. rewrite Z.sub_diag.
  replace (0 >? 0) with false by reflexivity. cbn [obind]. rewrite sub_0_all by reflexivity. f_equal. f_equal.
  unfold sub. cbn [Z.to_nat skipn]. rewrite firstn_firstn. f_equal. lia.
Qed.

(** ** tee *)
Lemma tee_snoc {A} (f : tcall * tres -> list A) t c x : flat_map f (t ++ [(c, x)]) = flat_map f t ++ f (c, x).
Proof. rewrite flat_map_app. cbn [flat_map]. rewrite app_nil_r. reflexivity. Qed.
Lemma read_snoc t c x : tee_read (t ++ [(c, x)]) = tee_read t ++ match c, x with TRead, TGot nr m => if nr >? 0 then [m] else [] | _, _ => [] end.
Proof. unfold tee_read. rewrite tee_snoc. destruct c, x; reflexivity. Qed.
Lemma put1_snoc t c x : tee_put1 (t ++ [(c, x)]) = tee_put1 t ++ match c, x with TWrite1 m, TPut rc => if rc >? 0 then [m] else [] | _, _ => [] end.
Proof. unfold tee_put1. rewrite tee_snoc. destruct c, x; reflexivity. Qed.
Lemma put2_snoc t c x : tee_put2 (t ++ [(c, x)]) = tee_put2 t ++ match c, x with TWrite2 m, TPut rc => if rc >? 0 then [m] else [] | _, _ => [] end.
Proof. unfold tee_put2. rewrite tee_snoc. destruct c, x; reflexivity. Qed.
Definition tee_inv (t : list (tcall * tres)) (s : tstate) : Prop :=
  match s with
  | TCall TRead => tee_put1 t = tee_read t /\ tee_put2 t = tee_read t
  | TCall (TWrite1 m) => tee_read t = tee_put1 t ++ [m] /\ tee_put2 t = tee_put1 t
  | TCall (TWrite2 m) => tee_put1 t = tee_read t /\ tee_read t = tee_put2 t ++ [m]
  | TExit => (tee_put1 t = tee_read t \/ exists m, tee_read t = tee_put1 t ++ [m])
             /\ (tee_put2 t = tee_read t \/ exists m, tee_read t = tee_put2 t ++ [m])
             /\ (tee_put2 t = tee_put1 t \/ exists m, tee_put1 t = tee_put2 t ++ [m])
  end.
Lemma t_tee t s : tee_run t s -> (forall c, ~ In (c, TPut 0) t) -> tee_inv t s.
Proof.
  induction 1 as [|t c x s R IH N]; [split; reflexivity|]. intros NZ.
  assert (NZ' : forall c, ~ In (c, TPut 0) t) by (intros c' Hc; apply (NZ c'); apply in_or_app; left; exact Hc).
  assert (XZ : x <> TPut 0) by (intros ->; apply (NZ c); apply in_or_app; right; left; reflexivity).
  specialize (IH NZ').
  destruct c as [|m|m]; destruct x as [nr b|rc]; cbn [tee_next] in N; try discriminate; cbn [tee_inv] in IH; destruct IH as [A B].
  - destruct (Z.ltb_spec nr 0) as [L|L]; [|destruct (Z.eqb_spec nr 0) as [Z0|Z0]]; injection N as <-; cbn [tee_inv]; rewrite read_snoc, put1_snoc, put2_snoc.
    + replace (nr >? 0) with false by lia. rewrite !app_nil_r. repeat split; left; congruence.
    + replace (nr >? 0) with false by lia. rewrite !app_nil_r. split; assumption.
    + replace (nr >? 0) with true by lia. rewrite !app_nil_r. split; congruence.
  - assert (rc <> 0) by congruence. destruct (Z.ltb_spec rc 0) as [L|L]; injection N as <-; cbn [tee_inv]; rewrite read_snoc, put1_snoc, put2_snoc.
    + replace (rc >? 0) with false by lia. rewrite !app_nil_r. split; [right; exists m; exact A|]. split; [right; exists m; congruence|left; exact B].
    + replace (rc >? 0) with true by lia. rewrite !app_nil_r. split; congruence.
  - assert (rc <> 0) by congruence. destruct (Z.ltb_spec rc 0) as [L|L]; injection N as <-; cbn [tee_inv]; rewrite read_snoc, put1_snoc, put2_snoc.
    + replace (rc >? 0) with false by lia. rewrite !app_nil_r. split; [left; exact A|]. split; [right; exists m; exact B|right; exists m; congruence].
    + replace (rc >? 0) with true by lia. rewrite !app_nil_r. split; congruence.
Qed.

(** ** unhex *)
Definition hexes : list (Z * Z) := [(48,0);(49,1);(50,2);(51,3);(52,4);(53,5);(54,6);(55,7);(56,8);(57,9);
                                    (97,10);(98,11);(99,12);(100,13);(101,14);(102,15);
                                    (65,10);(66,11);(67,12);(68,13);(69,14);(70,15)].
Lemma hexes_val a x : In (a, x) hexes -> hexval a = Some x /\ 0 <= x <= 15 /\ a <> 0 /\ is_space a = false /\ a <> 120 /\ a <> 88.
Proof. intros H. cbn in H. repeat (destruct H as [E|H]; [injection E as <- <-; repeat split; discriminate|]). destruct H. Qed.
Lemma spells_facts bs s : spells bs s -> zlen s = 2 * zlen bs /\ ~ In 0 s.
Proof.
  induction 1 as [|x y a b bs s Ha Hb S [L N]]; [split; [reflexivity|auto]|].
  apply hexes_val in Ha. apply hexes_val in Hb. rewrite !zlen_cons. split; [lia|]. intros [X|[X|X]]; [lia|lia|auto].
Qed.
Lemma cstr_spec a s t : ~ In 0 s -> cstr (a ++ s ++ 0 :: t) (zlen a) = Ok s.
Proof.
  intros H. unfold cstr. unfold zlen at 1. rewrite Nat2Z.id, skipn_app, skipn_all, Nat.sub_diag. cbn [app skipn]. rewrite strlen_spec by exact H. cbn [obind].
  f_equal. apply sub_mid.
Qed.
Lemma scan2x_spec a x b y s : In (a, x) hexes -> In (b, y) hexes -> scan2x (a :: b :: s) = Some (16 * x + y).
Proof.
  intros Ha Hb. destruct (hexes_val _ _ Ha) as (A & _ & _ & A2 & _). destruct (hexes_val _ _ Hb) as (B & _ & _ & _ & B1 & B2).
  unfold scan2x. cbn [skip_space]. rewrite A2, A, B. replace ((a =? 48) && ((b =? 120) || (b =? 88))) with false by lia. reflexivity.
Qed.
Lemma zupd_app {A} (a : list A) x b y : zupd (a ++ x :: b) (zlen a) y = a ++ y :: b.
Proof.
  unfold zupd, zlen. rewrite Nat2Z.id. induction a as [|c a IH]; [reflexivity|]. cbn [length app set_nat]. rewrite IH. reflexivity.
Qed.
(** [h] = the bytes decoded so far, leftovers of the digits read, the rest *)
Lemma unhex_loop_spec : forall bs s, spells bs s -> forall dn junk fuel, zlen junk = zlen dn -> (length bs < fuel)%nat ->
  exists junk', unhex_loop fuel (dn ++ junk ++ s ++ [0]) (2 * zlen dn) (2 * zlen dn + zlen s) = Ok (Some ((dn ++ bs) ++ junk')).
Proof.
  induction 1 as [|x y a b bs s Ha Hb S IH]; intros dn junk fuel J F; (destruct fuel as [|fuel]; [cbn in F; lia|]); cbn [unhex_loop].
  - change (zlen (@nil Z)) with 0. replace (2 * zlen dn <? 2 * zlen dn + 0) with false by lia. exists (junk ++ [0]). rewrite app_nil_r. reflexivity.
  - destruct (spells_facts _ _ (sp_cons _ _ _ _ _ _ Ha Hb S)) as [L N]. destruct (hexes_val _ _ Ha) as (_ & X & _). destruct (hexes_val _ _ Hb) as (_ & Y & _).
    rewrite zlen_cons, zlen_cons. pose proof (zlen_nonneg s). pose proof (zlen_nonneg dn).
    replace (2 * zlen dn <? 2 * zlen dn + (zlen s + 1 + 1)) with true by lia.
    assert (C : cstr (dn ++ junk ++ (a :: b :: s) ++ [0]) (2 * zlen dn) = Ok (a :: b :: s)).
    { rewrite app_assoc. replace (2 * zlen dn) with (zlen (dn ++ junk)) by (rewrite zlen_app; lia). apply cstr_spec, N. }
    rewrite C. cbn [obind]. rewrite (scan2x_spec a x b y s Ha Hb). replace (16 * x + y <=? 255) with true by lia.
    replace (2 * zlen dn / 2) with (zlen dn) by (rewrite Z.mul_comm, Z.div_mul; lia).
    assert (G : exists junk2, zset (dn ++ junk ++ (a :: b :: s) ++ [0]) (zlen dn) (16 * x + y) = Ok ((dn ++ [16 * x + y]) ++ junk2 ++ s ++ [0]) /\ zlen junk2 = zlen dn + 1).
    { assert (Q : 0 <= zlen dn < zlen (dn ++ junk ++ (a :: b :: s) ++ [0])).
 { rewrite !zlen_app, !zlen_cons. pose proof (zlen_nonneg junk). change (zlen (@nil Z)) with 0.
 lia. }
 rewrite zset_ok by exact Q.
      destruct junk as [|j junk].
      - exists [b]. cbn [app]. rewrite zupd_app, <- app_assoc. cbn [app]. split; [reflexivity|]. cbn in J |- *. lia.
      - exists (junk ++ [a; b]). cbn [app]. rewrite zupd_app, <- !app_assoc. cbn [app]. split; [reflexivity|]. rewrite zlen_app. rewrite zlen_cons in J. change (zlen [a; b]) with 2. lia. }
    destruct G as (junk2 & G & J2). rewrite G. cbn [obind].
    destruct (IH (dn ++ [16 * x + y]) junk2 fuel) as [junk' E].
    + rewrite zlen_app. change (zlen [16 * x + y]) with 1. lia.
    + cbn in F. lia.
    + exists junk'. rewrite <- !app_assoc in E. rewrite <- !app_assoc. cbn [app] in E |- *.
      replace (2 * zlen (dn ++ [16 * x + y])) with (2 * zlen dn + 2) in E by (rewrite zlen_app; change (zlen [16 * x + y]) with 1; lia).
      replace (2 * zlen dn + (zlen s + 1 + 1)) with (2 * zlen dn + 2 + zlen s) by lia.
      exact E.
Qed.
Lemma t_unhex bs s : spells bs s -> bs <> [] -> exists junk, unhex (s ++ [0]) = Ok (Some (bs ++ junk, zlen bs)).
Proof.
  intros S Hb. destruct (spells_facts _ _ S) as [L N]. unfold unhex. rewrite strlen_spec by exact N. cbn [obind].
  assert (1 <= zlen bs) by (destruct bs; [congruence|rewrite zlen_cons; pose proof (zlen_nonneg bs); lia]).
  replace (zlen s =? 0) with false by lia. replace (Z.odd (zlen s)) with false.
  2:{ rewrite L, Z.odd_mul. reflexivity. }
  destruct (unhex_loop_spec bs s S [] [] (Datatypes.S (length (s ++ [0]))) eq_refl) as [junk E].
  { rewrite app_length. unfold zlen in L. lia. }
  cbn [app] in E. change (2 * zlen (@nil Z)) with 0 in E. rewrite Z.add_0_l in E. rewrite E. cbn [obind].
  exists junk. do 3 f_equal. rewrite L, Z.mul_comm, Z.div_mul; lia.
Qed.
Lemma t_unhex_bad s : ~ In 0 s -> s = [] \/ Z.odd (zlen s) = true -> unhex (s ++ [0]) = Ok None.
Proof.
  intros N H. unfold unhex. rewrite strlen_spec by exact N. cbn [obind]. destruct H as [->|H]; [reflexivity|]. destruct (zlen s =? 0); [reflexivity|]. rewrite H. reflexivity.
Qed.

(** ** -s *)
Lemma scan_digits_spec : forall ds n t, all_digits ds = true -> match t with c :: _ => digit c = false | [] => True end ->
  scan_digits (ds ++ t) n = (fold_left (fun n c => n * 10 + (c - 48)) ds n, t).
Proof.
  induction ds as [|c ds IH]; intros n t D T; cbn [app fold_left].
  - destruct t as [|c t]; [reflexivity|]. cbn [scan_digits]. rewrite T. reflexivity.
  - cbn [all_digits forallb] in D. apply andb_true_iff in D. destruct D as [D1 D2]. cbn [scan_digits]. rewrite D1. apply IH; assumption.
Qed.
Lemma mul1024_u64 x : mul1024 (u64 x) = u64 (x * 1024).
Proof. unfold mul1024, u64. rewrite Z.mul_mod_idemp_l by lia. reflexivity. Qed.
Lemma mul1024_0 x : mul1024 x = u64 (x * 1024). Proof. reflexivity. Qed.
Lemma t_size ds u e : ds <> [] -> all_digits ds = true -> decimal ds <= SSIZE_MAX -> In (u, e) unit_power ->
  size_arg (ds ++ [u]) = Some (u64 (decimal ds * 1024 ^ e)).
Proof.
  intros H D L U. destruct ds as [|c ds]; [congruence|]. unfold size_arg. cbn [app].
  assert (Dc : digit c = true) by (cbn [all_digits forallb] in D; apply andb_true_iff in D; apply D). rewrite Dc.
  assert (Uf : digit u = false) by (cbn in U; repeat (destruct U as [E|U]; [injection E as <- <-; reflexivity|]); destruct U).
  change (c :: ds ++ [u]) with ((c :: ds) ++ [u]). rewrite scan_digits_spec by assumption.
  change (fold_left _ (c :: ds) 0) with (decimal (c :: ds)). cbv beta iota zeta. rewrite Z.min_l by exact L.
  cbn in U. repeat (destruct U as [E|U]; [injection E as <- <-; cbn [Z.eqb Pos.eqb orb]; rewrite (mul1024_0 (decimal (c :: ds))), ?mul1024_u64; do 2 f_equal; rewrite <- ?Z.mul_assoc; reflexivity|]). destruct U.
Qed.
Lemma t_size_plain ds : ds <> [] -> all_digits ds = true -> decimal ds <= SSIZE_MAX -> size_arg ds = Some (decimal ds).
Proof.
  intros H D L. destruct ds as [|c ds]; [congruence|]. unfold size_arg.
  assert (Dc : digit c = true) by (cbn [all_digits forallb] in D; apply andb_true_iff in D; apply D). rewrite Dc.
  rewrite <- (app_nil_r (c :: ds)) at 1. rewrite scan_digits_spec by (assumption || exact I).
  change (fold_left _ (c :: ds) 0) with (decimal (c :: ds)). cbv beta iota zeta. rewrite Z.min_l by exact L. reflexivity.
Qed.
Lemma t_size_bad ds u t : ds <> [] -> all_digits ds = true -> digit u = false -> (forall e, ~ In (u, e) unit_power) -> size_arg (ds ++ u :: t) = None.
Proof.
  intros H D U B. destruct ds as [|c ds]; [congruence|]. unfold size_arg. cbn [app].
  assert (Dc : digit c = true) by (cbn [all_digits forallb] in D; apply andb_true_iff in D; apply D). rewrite Dc.
  change (c :: ds ++ u :: t) with ((c :: ds) ++ u :: t). rewrite scan_digits_spec by assumption. cbv beta iota zeta.
  assert (N : forall x e, In (x, e) unit_power -> (u =? x) = false) by (intros x e I; destruct (Z.eqb_spec u x) as [->|]; [elim (B e I)|reflexivity]).
  rewrite (N 116 4), (N 84 4), (N 103 3), (N 71 3), (N 109 2), (N 77 2), (N 107 1), (N 75 1) by (cbn; tauto). reflexivity.
Qed.

(** ** the write command *)
Lemma fgets_line : forall l room t, (length l < room)%nat -> ~ In 10 l -> fgets room (l ++ 10 :: t) = (l ++ [10], t).
Proof.
  induction l as [|c l IH]; intros room t R N; (destruct room as [|room]; [cbn in R; lia|]); cbn [app fgets].
  - reflexivity.
  - destruct (Z.eqb_spec c 10) as [->|_]; [elim N; left; reflexivity|]. rewrite IH; [reflexivity|cbn in R; lia|intros X; apply N; right; exact X].
Qed.
Lemma upto0_id : forall l, ~ In 0 l -> upto0 l = l.
Proof.
  induction l as [|c l IH]; intros N; [reflexivity|]. cbn [upto0]. destruct (Z.eqb_spec c 0) as [->|_]; [elim N; left; reflexivity|].
  f_equal. apply IH. intros X. apply N. right. exact X.
Qed.
Lemma chomp_line l : chomp (l ++ [10]) = l.
Proof. unfold chomp. rewrite rev_app_distr. cbn. apply rev_involutive. Qed.
Lemma write_lines_spec put : forall ls fuel, Forall (fun l => ~ In 10 l /\ ~ In 0 l /\ zlen l <= LINE - 2) ls -> (length ls < fuel)%nat ->
  Forall (fun l => put l = true) ls -> write_lines fuel put (text ls) = Ok (ls, true).
Proof.
  induction ls as [|l ls IH]; intros fuel O F P; (destruct fuel as [|fuel]; [cbn in F; lia|]); cbn [write_lines]; [reflexivity|].
  inversion O as [|l0 ls0 (N10 & N0 & L) O']; subst. inversion P as [|l0 ls0 Pl P']; subst.
  unfold text. cbn [flat_map]. fold (text ls). rewrite <- app_assoc. cbn [app].
  assert (1 <= zlen (l ++ 10 :: text ls)) by (rewrite zlen_app, zlen_cons; pose proof (zlen_nonneg l); pose proof (zlen_nonneg (text ls)); lia).
  replace (zlen (l ++ 10 :: text ls) =? 0) with false by lia.
  rewrite fgets_line; [|unfold zlen, LINE in *; lia|exact N10].
  rewrite upto0_id; [|intros X; apply in_app_or in X; destruct X as [X|[X|[]]]; [auto|discriminate]]. rewrite chomp_line, Pl.
  rewrite IH; [reflexivity|exact O'|cbn in F; lia|exact P'].
Qed.
Lemma t_write put ls : Forall (fun l => ~ In 10 l /\ ~ In 0 l /\ zlen l <= 998) ls -> Forall (fun l => put l = true) ls -> cmd_write put (text ls) = Ok (ls, true).
Proof.
  intros O P. unfold cmd_write. apply write_lines_spec; [exact O| |exact P].
  clear. induction ls as [|l ls IH]; [cbn; lia|]. unfold text in *. cbn [flat_map length] in *. rewrite !app_length. cbn [length]. lia.
Qed.
(** a blank line: shr_write refuses it and nothing after it is written *)
Lemma t_write_blank put ls more : Forall (fun l => ~ In 10 l /\ ~ In 0 l /\ zlen l <= 998) ls -> Forall (fun l => put l = true) ls -> put [] = false ->
  cmd_write put (text (ls ++ [] :: more)) = Ok (ls ++ [[]], false).
Proof.
  intros O P B. unfold cmd_write.
  assert (G : forall ls fuel, (length ls < fuel)%nat -> Forall (fun l => ~ In 10 l /\ ~ In 0 l /\ zlen l <= 998) ls -> Forall (fun l => put l = true) ls ->
    write_lines fuel put (text (ls ++ [] :: more)) = Ok (ls ++ [[]], false)).
  { clear ls O P. induction ls as [|l ls IH]; intros fuel F O P; (destruct fuel as [|fuel]; [cbn in F; lia|]); cbn [write_lines].
    - cbn [app]. unfold text. cbn [flat_map app]. fold (text more). rewrite zlen_cons. pose proof (zlen_nonneg (text more)).
      replace (zlen (text more) + 1 =? 0) with false by lia. change (10 :: text more) with ([] ++ 10 :: text more). rewrite fgets_line; [|cbn; lia|auto]. cbn [app upto0 Z.eqb].
      change (chomp [10]) with (@nil Z). rewrite B. reflexivity.
    - inversion O as [|l0 ls0 (N10 & N0 & L) O']; subst. inversion P as [|l0 ls0 Pl P']; subst.
      cbn [app]. unfold text. cbn [flat_map]. fold (text (ls ++ [] :: more)). rewrite <- app_assoc. cbn [app].
      assert (1 <= zlen (l ++ 10 :: text (ls ++ [] :: more))) by (rewrite zlen_app, zlen_cons; pose proof (zlen_nonneg l); pose proof (zlen_nonneg (text (ls ++ [] :: more))); lia).
      replace (zlen (l ++ 10 :: text (ls ++ [] :: more)) =? 0) with false by lia.
      rewrite fgets_line; [|unfold zlen, LINE in *; lia|exact N10].
      rewrite upto0_id; [|intros X; apply in_app_or in X; destruct X as [X|[X|[]]]; [auto|discriminate]]. rewrite chomp_line, Pl.
      rewrite IH; [reflexivity|cbn in F; lia|exact O'|exact P']. }
  apply G; [|exact O|exact P]. clear. induction ls as [|l ls IH]; [cbn; lia|]. unfold text in *. cbn [app flat_map length] in *. rewrite !app_length. cbn [length]. lia.
Qed.
(** a line of more than 998 bytes comes out in pieces *)
Lemma fgets_long : forall a room t, length a = room -> ~ In 10 a -> fgets room (a ++ t) = (a, t).
Proof.
  induction a as [|c a IH]; intros room t R N; subst room; [destruct t; reflexivity|]. cbn [length app fgets].
  destruct (Z.eqb_spec c 10) as [->|_]; [elim N; left; reflexivity|]. rewrite IH; [reflexivity|reflexivity|intros X; apply N; right; exact X].
Qed.
Lemma chomp_id l : ~ In 10 l -> chomp l = l.
Proof.
  intros N. unfold chomp. destruct (rev l) as [|c t] eqn:E; [symmetry; rewrite <- (rev_involutive l), E; reflexivity|].
  destruct (Z.eqb_spec c 10) as [->|_]; [|reflexivity]. elim N. apply in_rev. rewrite E. left. reflexivity.
Qed.
Lemma t_write_long put a b : zlen a = 999 -> ~ In 10 (a ++ b) -> ~ In 0 (a ++ b) -> zlen b <= 998 -> put a = true -> put b = true ->
  cmd_write put (text [a ++ b]) = Ok ([a; b], true).
Proof.
  intros La N10 N0 Lb Pa Pb. unfold cmd_write, text. cbn [flat_map]. rewrite app_nil_r, <- app_assoc.
  assert (F : exists fuel, Datatypes.S (length (a ++ b ++ [10])) = S (S (S fuel))).
  { rewrite !app_length. cbn [length]. unfold zlen in La. exists (length a + length b - 1)%nat. lia. }
  destruct F as [fuel ->]. cbn [write_lines]. pose proof (zlen_nonneg b).
  assert (Z1 : zlen (a ++ b ++ [10]) =? 0 = false) by (rewrite !zlen_app; change (zlen [10]) with 1; lia). rewrite Z1.
  rewrite fgets_long; [|unfold zlen, LINE in *; lia|intros X; apply N10, in_or_app; auto].
  rewrite upto0_id by (intros X; apply N0, in_or_app; auto). rewrite chomp_id by (intros X; apply N10, in_or_app; auto). rewrite Pa.
  assert (Z2 : zlen (b ++ [10]) =? 0 = false) by (rewrite zlen_app; change (zlen [10]) with 1; lia). rewrite Z2.
  rewrite fgets_line; [|unfold zlen, LINE in *; lia|intros X; apply N10, in_or_app; auto].
  rewrite upto0_id; [|intros X; apply in_app_or in X; destruct X as [X|[X|[]]]; [apply N0, in_or_app; auto|discriminate]]. rewrite chomp_line, Pb. reflexivity.
Qed.

Lemma t_subs_abort : exists m, 0 < zlen m <= BUFLEN /\ (forall k acc, 4 <= k -> zlen m <= zlen acc -> Forall (fun k => 1 <= k) acc -> pub_msg true m (k :: acc) = Ok (frame m, true))
  /\ forall wrote ks, BUFLEN < zlen ks -> subscribe wrote [] (frame m) ks = Abort.
Proof.
  exists (repeat 0 (Z.to_nat 999997)). assert (L : zlen (repeat 0 (Z.to_nat 999997)) = 999997) by (unfold zlen; rewrite repeat_length; lia).
  set (m := repeat 0 (Z.to_nat 999997)) in *. clearbody m. unfold BUFLEN. split; [lia|]. split.
  - intros k acc Hk La O. apply t_pub; [lia|exact Hk|exact O|exact La].
  - intros wrote ks Lk. apply t_sub_abort; [unfold BUFLEN, MAX_FRAME; lia|unfold BUFLEN; lia].
Qed.
Lemma t_size_exact ds u e : ds <> [] -> all_digits ds = true -> In (u, e) unit_power -> decimal ds * 1024 ^ e < W64 ->
  size_arg (ds ++ [u]) = Some (decimal ds * 1024 ^ e).
Proof.
  intros H D U L. pose proof (decimal_nonneg ds D).
  assert (E : 1024 <= 1024 ^ e) by (cbn in U; repeat (destruct U as [X|U]; [injection X as <- <-; cbv; discriminate|]); destruct U).
  assert (decimal ds <= SSIZE_MAX) by (nia).
  rewrite (t_size ds u e) by assumption. rewrite u64_small; [reflexivity|]. split; [nia|exact L].
Qed.
