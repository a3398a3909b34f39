From Verif Require Export UxSpec BaseFacts.

(** ** words *)
Definition boundary (a : bytes) : Prop := a = [] \/ exists x, a = x ++ [32].
Lemma words_aux_nospace : forall w cur, ~ In 32 w -> words_aux cur w = match cur ++ w with [] => [] | x => [x] end.
Proof.
  induction w as [|c w IH]; intros cur H; cbn [words_aux].
  - rewrite app_nil_r. destruct cur; reflexivity.
  - destruct (Z.eqb_spec c 32) as [->|N]; [elim H; left; reflexivity|]. rewrite IH by (intros X; apply H; right; exact X).
    rewrite <- app_assoc. reflexivity.
Qed.
Lemma words_aux_space : forall w cur s, ~ In 32 w -> words_aux cur (w ++ 32 :: s) = match cur ++ w with [] => words s | x => x :: words s end.
Proof.
  induction w as [|c w IH]; intros cur s H; cbn [app words_aux].
  - rewrite app_nil_r. cbn. destruct cur; reflexivity.
  - destruct (Z.eqb_spec c 32) as [->|N]; [elim H; left; reflexivity|]. rewrite IH by (intros X; apply H; right; exact X).
    rewrite <- app_assoc. reflexivity.
Qed.
Lemma words_aux_bound : forall a cur s, words_aux cur (a ++ 32 :: s) = words_aux cur (a ++ [32]) ++ words s.
Proof.
  induction a as [|c a IH]; intros cur s; cbn [app words_aux].
  - cbn. destruct cur; reflexivity.
  - destruct (c =? 32); [|apply IH]. rewrite IH. destruct cur; reflexivity.
Qed.
Lemma words_bound a s : boundary a -> words (a ++ s) = words a ++ words s.
Proof.
  intros [->|[x ->]]; [reflexivity|]. unfold words. rewrite <- app_assoc. cbn [app]. apply words_aux_bound.
Qed.
Lemma words_one w : ~ In 32 w -> w <> [] -> words w = [w].
Proof. intros H N. unfold words. rewrite words_aux_nospace by exact H. cbn [app]. destruct w; [congruence|reflexivity]. Qed.
Lemma words_cons w s : ~ In 32 w -> w <> [] -> words (w ++ 32 :: s) = w :: words s.
Proof. intros H N. unfold words at 1. rewrite words_aux_space by exact H. cbn [app]. destruct w; [congruence|reflexivity]. Qed.
Lemma words_nil_space s : words (32 :: s) = words s. Proof. reflexivity. Qed.

Definition word_len (a0 w : bytes) : Z := zlen (words a0) + (if w then 0 else 1).
Lemma words_state a0 w : boundary a0 -> ~ In 32 w -> zlen (words (a0 ++ w)) = word_len a0 w.
Proof.
  intros B N. rewrite words_bound, zlen_app by exact B. unfold word_len. f_equal.
  destruct w as [|c w]; [reflexivity|]. rewrite words_one; [reflexivity|exact N|discriminate].
Qed.

(** ** get_col *)
Lemma col_loop_spec col : 1 <= col -> forall t a0 w b num start len,
  boundary a0 -> ~ In 32 w -> b = zlen a0 + zlen w -> num = word_len a0 w -> len = zlen w ->
  (w <> [] -> start = zlen a0) -> (num < col \/ (num = col /\ w <> [])) ->
  let '(num', start', len') := col_loop col t b num start len in
  let line := a0 ++ w ++ first_line t in
  if negb (len' =? 0) && (num' =? col) then exists w', column col line start' w' /\ zlen w' = len'
  else zlen (words line) < col.
Proof.
  intros Hc. induction t as [|c t IH]; intros a0 w b num start len B NS Eb En El Es I; cbn [col_loop first_line].
  - rewrite app_nil_r. destruct (negb (len =? 0) && (num =? col)) eqn:E.
    + apply andb_true_iff in E. destruct E as [E1 E2]. apply negb_true_iff, Z.eqb_neq in E1. apply Z.eqb_eq in E2.
      assert (Hw : w <> []) by (intros ->; cbn in El; lia).
      exists w. split; [|lia]. exists a0, []. rewrite app_nil_r. repeat split; auto; try (symmetry; auto).
      unfold word_len in En. destruct w; [congruence|]. lia.
    + rewrite words_state by assumption. destruct I as [I|[I Hw]]; [lia|].
      assert (len <> 0) by (destruct w; [congruence|rewrite El, zlen_cons; pose proof (zlen_nonneg w); lia]).
      rewrite (proj2 (Z.eqb_eq _ _) I), (proj2 (Z.eqb_neq _ _) H) in E. discriminate.
  - destruct ((c =? 32) && (num =? col)) eqn:E1.
    + apply andb_true_iff in E1. destruct E1 as [Ec E2]. apply Z.eqb_eq in Ec, E2. subst c.
      assert (Hw : w <> []) by (destruct I as [I|[_ I]]; [lia|exact I]).
      assert (len <> 0) by (destruct w; [congruence|rewrite El, zlen_cons; pose proof (zlen_nonneg w); lia]).
      rewrite (proj2 (Z.eqb_eq _ _) E2), (proj2 (Z.eqb_neq _ _) H). cbn [negb andb].
      exists w. split; [|lia]. exists a0, (first_line (32 :: t)). repeat split; auto; try (symmetry; auto).
      * right. cbn. eauto.
      * unfold word_len in En. destruct w; [congruence|]. lia.
    + destruct (Z.eqb_spec c 10) as [->|N10].
      * rewrite app_nil_r. destruct (negb (len =? 0) && (num =? col)) eqn:E.
        -- apply andb_true_iff in E. destruct E as [E2 E3]. apply negb_true_iff, Z.eqb_neq in E2. apply Z.eqb_eq in E3.
           assert (Hw : w <> []) by (intros ->; cbn in El; lia).
           exists w. split; [|lia]. exists a0, []. rewrite app_nil_r. repeat split; auto; try (symmetry; auto).
           unfold word_len in En. destruct w; [congruence|]. lia.
        -- rewrite words_state by assumption. destruct I as [I|[I Hw]]; [lia|].
           assert (len <> 0) by (destruct w; [congruence|rewrite El, zlen_cons; pose proof (zlen_nonneg w); lia]).
           rewrite (proj2 (Z.eqb_eq _ _) I), (proj2 (Z.eqb_neq _ _) H) in E. discriminate.
      * destruct (Z.eqb_spec c 32) as [->|N32]; cbn [negb andb].
        -- cbn [andb] in E1. apply Z.eqb_neq in E1.
           specialize (IH (a0 ++ w ++ [32]) [] (b + 1) num start 0).
           rewrite <- !app_assoc in IH. cbn [app] in IH. apply IH; auto.
           ++ right. exists (a0 ++ w). rewrite <- app_assoc. reflexivity.
           ++ rewrite !zlen_app. change (zlen [32]) with 1. change (zlen (@nil Z)) with 0. lia.
           ++ unfold word_len in *. rewrite words_bound, zlen_app by exact B.
              destruct w as [|x w]; [cbn; lia|]. change (words ((x :: w) ++ [32])) with (words ((x :: w) ++ 32 :: [])).
              rewrite words_cons by (auto; discriminate). cbn. lia.
           ++ congruence.
           ++ left. destruct I as [I|[I _]]; [exact I|contradiction].
        -- destruct (len =? 0) eqn:E0.
           ++ apply Z.eqb_eq in E0. assert (w = []) by (destruct w; [reflexivity|rewrite zlen_cons in El; pose proof (zlen_nonneg w); lia]). subst w.
              specialize (IH a0 [c] (b + 1) (num + 1) b (len + 1)). cbn [app] in IH |- *. apply IH; auto.
              ** intros [X|[]]; congruence.
              ** change (zlen [c]) with 1. cbn in Eb. lia.
              ** unfold word_len in *. lia.
              ** change (zlen [c]) with 1. lia.
              ** intros _. cbn in Eb. lia.
              ** destruct I as [I|[_ I]]; [|congruence]. assert (num + 1 < col \/ num + 1 = col) as [|] by lia; [left; lia|right; split; [lia|discriminate]].
           ++ apply Z.eqb_neq in E0. assert (Hw : w <> []) by (intros ->; cbn in El; lia).
              specialize (IH a0 (w ++ [c]) (b + 1) num start (len + 1)). rewrite <- app_assoc in IH. cbn [app] in IH. apply IH; auto.
              ** rewrite in_app_iff. intros [X|[X|[]]]; [auto|congruence].
              ** rewrite zlen_app. change (zlen [c]) with 1. lia.
              ** unfold word_len in *. destruct w; [congruence|]. exact En.
              ** rewrite zlen_app. change (zlen [c]) with 1. lia.
              ** destruct I as [I|[I _]]; [left; exact I|right; split; [exact I|]]. destruct w; discriminate.
Qed.
Lemma u_get_col col buf : 1 <= col ->
  match get_col col buf with
  | Some (p, n) => exists w, column col (first_line buf) p w /\ zlen w = n
  | None => zlen (words (first_line buf)) < col
  end.
Proof.
  intros H. unfold get_col. pose proof (col_loop_spec col H buf [] [] 0 0 0 0) as X.
  destruct (col_loop col buf 0 0 0 0) as [[num start] len]. cbn [app] in X.
  destruct (negb (len =? 0) && (num =? col)); apply X; auto; try (left; reflexivity); try congruence; left; lia.
Qed.
Lemma col_loop_none col : col <= 0 -> forall t b num start len, 0 <= num -> 0 <= len -> (num = 0 -> len = 0) ->
  let '(num', _, len') := col_loop col t b num start len in negb (len' =? 0) && (num' =? col) = false.
Proof.
  intros H. induction t as [|c t IH]; intros b num start len N0 L0 I; cbn [col_loop].
  - destruct (Z.eqb_spec num col); [|rewrite andb_false_r; reflexivity]. rewrite I by lia. reflexivity.
  - assert (B : negb (len =? 0) && (num =? col) = false).
    { destruct (Z.eqb_spec num col); [|rewrite andb_false_r; reflexivity]. rewrite I by lia. reflexivity. }
    destruct ((c =? 32) && (num =? col)); [exact B|]. destruct (c =? 10); [exact B|].
    destruct (c =? 32); cbn [negb andb].
    + apply IH; auto; lia.
    + destruct (Z.eqb_spec len 0); apply IH; lia.
Qed.
Lemma u_get_col_none col buf : col <= 0 -> get_col col buf = None.
Proof.
  intros H. unfold get_col. pose proof (col_loop_none col H buf 0 0 0 0 ltac:(lia) ltac:(lia) ltac:(auto)) as X.
  destruct (col_loop col buf 0 0 0 0) as [[num start] len]. rewrite X. reflexivity.
Qed.
(** a column is what [words] says *)
Lemma column_nth col line p w : column col line p w -> nth_error (words line) (Z.to_nat (col - 1)) = Some w.
Proof.
  intros (a & b & -> & _ & Hw & NS & B & A & E). rewrite words_bound by exact B.
  assert (W : words (w ++ b) = w :: words (tl b)).
  { destruct A as [->|[x ->]]; [rewrite app_nil_r; apply words_one; assumption|apply words_cons; assumption]. }
  rewrite W, nth_error_app2 by (unfold zlen in E; lia).
  replace (Z.to_nat (col - 1) - length (words a))%nat with 0%nat by (unfold zlen in E; lia). reflexivity.
Qed.
Lemma column_sub col buf p w : column col (first_line buf) p w -> rd_mem p (zlen w) buf = Ok w.
Proof.
  intros (a & b & E & Ep & _).
  assert (F : forall s, exists y, s = first_line s ++ y).
  { induction s as [|c s [y Ey]]; [exists []; reflexivity|]. cbn [first_line]. destruct (c =? 10); [exists (c :: s); reflexivity|].
    exists y. cbn [app]. congruence. }
  destruct (F buf) as [y Ey]. rewrite E in Ey. rewrite Ey. unfold rd_mem, sub.
  rewrite <- !app_assoc, !zlen_app. pose proof (zlen_nonneg a). pose proof (zlen_nonneg w). pose proof (zlen_nonneg b). pose proof (zlen_nonneg y).
  subst p. replace ((0 <=? zlen a) && (0 <=? zlen w) && (zlen a + zlen w <=? zlen a + (zlen w + (zlen b + zlen y)))) with true by lia.
  f_equal. unfold zlen. rewrite !Nat2Z.id, skipn_app, skipn_all, Nat.sub_diag. cbn [app skipn].
  rewrite firstn_app, Nat.sub_diag, firstn_all, firstn_O, app_nil_r. reflexivity.
Qed.
(** the column, with its content, in one go *)
Lemma get_col_word col buf : 1 <= col ->
  match nth_error (words (first_line buf)) (Z.to_nat (col - 1)) with
  | Some w => exists p, get_col col buf = Some (p, zlen w) /\ rd_mem p (zlen w) buf = Ok w /\ column col (first_line buf) p w
  | None => get_col col buf = None
  end.
Proof.
  intros H. pose proof (u_get_col col buf H) as X. destruct (get_col col buf) as [[p n]|].
  - destruct X as (w & C & <-). rewrite (column_nth _ _ _ _ C). exists p. split; [reflexivity|]. split; [eapply column_sub; exact C|exact C].
  - replace (nth_error _ _) with (@None bytes); [reflexivity|]. symmetry. apply nth_error_None. unfold zlen in X. lia.
Qed.

(** ** numbers *)
Lemma u64_step n d : u64 (u64 n * 10 + d) = u64 (n * 10 + d).
Proof. unfold u64. rewrite (Z.add_mod (n mod _ * 10)), (Z.add_mod (n * 10)), Z.mul_mod_idemp_l by lia. reflexivity. Qed.
Lemma number_spec : forall s n, number s (u64 n) = if all_digits s then Some (u64 (fold_left (fun n c => n * 10 + (c - 48)) s n)) else None.
Proof.
  induction s as [|c s IH]; intros n; cbn [number all_digits forallb fold_left]; [reflexivity|].
  destruct (digit c); cbn [andb]; [|reflexivity]. rewrite u64_step. apply IH.
Qed.
Lemma number_0 s : number s 0 = if all_digits s then Some (u64 (decimal s)) else None.
Proof. apply (number_spec s 0). Qed.
Lemma decimal_nonneg s : all_digits s = true -> 0 <= decimal s.
Proof.
  unfold decimal. assert (forall s n, 0 <= n -> all_digits s = true -> 0 <= fold_left (fun n c => n * 10 + (c - 48)) s n) as G.
  { clear. induction s as [|c s IH]; intros n H D; cbn [fold_left]; [exact H|]. cbn [all_digits forallb] in D.
    apply andb_true_iff in D. destruct D as [D1 D2]. apply IH; [|exact D2]. unfold digit in D1. lia. }
  apply G. lia.
Qed.
Lemma inode_loop_spec : forall s n, all_digits s = true ->
  inode_loop (s ++ [93]) (u64 n) = Some (u64 (fold_left (fun n c => n * 10 + (c - 48)) s n)).
Proof.
  induction s as [|c s IH]; intros n D; cbn [app inode_loop fold_left].
  - reflexivity.
  - cbn [all_digits forallb] in D. apply andb_true_iff in D. destruct D as [D1 D2].
    destruct (Z.eqb_spec c 93) as [->|_]; [discriminate D1|]. rewrite D1, u64_step. apply IH, D2.
Qed.
Lemma same_bytes_eq : forall a b, same_bytes a b = true <-> a = b.
Proof.
  induction a as [|x a IH]; intros [|y b]; cbn [same_bytes]; try (split; (reflexivity || discriminate)).
  rewrite andb_true_iff, Z.eqb_eq, IH. split; [intros [-> ->]; reflexivity|intros E; injection E as -> ->; auto].
Qed.
Lemma member_in x l : member x l = true <-> In x l.
Proof. unfold member. rewrite existsb_exists. split; [intros (y & H & E); apply Z.eqb_eq in E; congruence|intros H; exists x; rewrite Z.eqb_refl; auto]. Qed.

(** ** lines *)
Lemma lines_aux_line : forall s cur, lines_aux cur s =
  match cur, s with [], [] => [] | _, _ => (cur ++ first_line s) :: match skip_line s with Some t => lines t | None => [] end end.
Proof.
  induction s as [|c s IH]; intros cur; cbn [lines_aux first_line skip_line].
  - rewrite app_nil_r. destruct cur; reflexivity.
  - destruct (c =? 10); [rewrite app_nil_r; destruct cur; reflexivity|]. rewrite IH, <- app_assoc. cbn [app].
    destruct cur; cbn [app]; reflexivity.
Qed.
Lemma lines_cons s : s <> [] -> lines s = first_line s :: match skip_line s with Some t => lines t | None => [] end.
Proof. intros H. unfold lines at 1. rewrite lines_aux_line. destruct s; [congruence|reflexivity]. Qed.
Lemma skip_line_prefix : forall a s, ~ In 10 a -> skip_line (a ++ s) = skip_line s.
Proof.
  induction a as [|c a IH]; intros s H; [reflexivity|]. cbn [app skip_line]. destruct (Z.eqb_spec c 10) as [->|_]; [elim H; left; reflexivity|].
  apply IH. intros X. apply H. right. exact X.
Qed.
Lemma first_line_no10 : forall s, ~ In 10 (first_line s).
Proof.
  induction s as [|c s IH]; cbn [first_line]; [auto|]. destruct (Z.eqb_spec c 10) as [->|N]; [auto|]. intros [X|X]; auto.
Qed.
Lemma skip_line_split : forall s, skip_line s = skip_line (skipn (length (first_line s)) s).
Proof. induction s as [|c s IH]; [reflexivity|]. cbn [first_line]. destruct (Z.eqb_spec c 10) as [->|N]; [reflexivity|]. cbn [length skipn skip_line]. rewrite (proj2 (Z.eqb_neq _ _) N). exact IH. Qed.
Lemma skip_line_len : forall s t, skip_line s = Some t -> (length t < length s)%nat.
Proof. induction s as [|c s IH]; intros t H; cbn in H; [discriminate|]. destruct (c =? 10); [injection H as <-; cbn; lia|]. apply IH in H. cbn. lia. Qed.
Lemma first_line_prefix : forall s, exists y, s = first_line s ++ y /\ skip_line s = skip_line y.
Proof.
  induction s as [|c s (y & E & E2)]; [exists []; auto|]. cbn [first_line skip_line]. destruct (Z.eqb_spec c 10) as [->|N].
  - exists (10 :: s). auto.
  - exists y. cbn [app]. split; [congruence|exact E2].
Qed.

(** ** the table *)
Fixpoint scan (inodes : list Z) (name : bytes) (rs : list bytes) : Z :=
  match rs with
  | [] => 0
  | row :: rs =>
      match row_inode row with
      | Some s => if all_digits s then
          match row_name row with
          | Some nm => if same_bytes nm name && member (u64 (decimal s)) inodes then 1 else scan inodes name rs
          | None => -1
          end else -1
      | None => -1
      end
  end.
Lemma name_loop_scan inodes name : forall fuel line, (length line < fuel)%nat ->
  name_loop fuel inodes name line = Ok (scan inodes name (lines line)).
Proof.
  induction fuel as [|fuel IH]; intros line F; [lia|]. cbn [name_loop].
  destruct (Z.eqb_spec (zlen line) 0) as [E|N].
  { destruct line; [reflexivity|]. rewrite zlen_cons in E. pose proof (zlen_nonneg line). lia. }
  assert (Hl : line <> []) by (intros ->; cbn in N; lia).
  rewrite (lines_cons line Hl). cbn [scan]. unfold row_inode, row_name.
  pose proof (get_col_word 7 line ltac:(lia)) as X7. change (Z.to_nat (7 - 1)) with 6%nat in X7.
  destruct (nth_error (words (first_line line)) 6) as [s|]; [|rewrite X7; reflexivity].
  destruct X7 as (p7 & -> & -> & _). cbn [obind]. rewrite number_0. destruct (all_digits s); [|reflexivity].
  pose proof (get_col_word 8 line ltac:(lia)) as X8. change (Z.to_nat (8 - 1)) with 7%nat in X8.
  destruct (nth_error (words (first_line line)) 7) as [nm|]; [|rewrite X8; reflexivity].
  destruct X8 as (p8 & -> & -> & C). cbn [obind].
  assert (EL : same_bytes nm name = true -> zlen nm =? zlen name = true) by (intros X; apply same_bytes_eq in X; subst; lia).
  destruct (same_bytes nm name) eqn:Es.
  - rewrite EL by reflexivity. cbn [andb]. destruct (member (u64 (decimal s)) inodes); [reflexivity|].
    destruct C as (a & b & E & Ep & _). destruct (first_line_prefix line) as (y & Ey & Ey2).
    assert (Sk : skip_line (skipn (Z.to_nat (p8 + zlen nm)) line) = skip_line line).
    { rewrite Ey2. rewrite Ey, E, <- !app_assoc. replace (Z.to_nat (p8 + zlen nm)) with (length (a ++ nm)).
      2:{ rewrite app_length. unfold zlen in *. lia. }
      rewrite (app_assoc a nm), skipn_app, skipn_all, Nat.sub_diag. cbn [app skipn]. apply skip_line_prefix.
      intros X. apply (first_line_no10 line). rewrite E, !in_app_iff. auto. }
    rewrite Sk. destruct (skip_line line) as [line'|] eqn:El; [|reflexivity]. apply IH. apply skip_line_len in El. lia.
  - rewrite andb_false_r. cbn [andb].
    destruct C as (a & b & E & Ep & _). destruct (first_line_prefix line) as (y & Ey & Ey2).
    assert (Sk : skip_line (skipn (Z.to_nat (p8 + zlen nm)) line) = skip_line line).
    { rewrite Ey2. rewrite Ey, E, <- !app_assoc. replace (Z.to_nat (p8 + zlen nm)) with (length (a ++ nm)).
      2:{ rewrite app_length. unfold zlen in *. lia. }
      rewrite (app_assoc a nm), skipn_app, skipn_all, Nat.sub_diag. cbn [app skipn]. apply skip_line_prefix.
      intros X. apply (first_line_no10 line). rewrite E, !in_app_iff. auto. }
    rewrite Sk. destruct (skip_line line) as [line'|] eqn:El; [|reflexivity]. apply IH. apply skip_line_len in El. lia.
Qed.
Lemma has_socket_scan inodes table name : has_socket_name inodes table name = Ok (scan inodes name (rows table)).
Proof.
  unfold has_socket_name, rows. destruct table as [|c t]; [reflexivity|]. rewrite lines_cons by discriminate.
  cbn [tl]. destruct (skip_line (c :: t)) as [line|] eqn:E; [|reflexivity]. apply name_loop_scan. apply skip_line_len in E. lia.
Qed.

Definition tells64 (inodes : list Z) (name row : bytes) : Prop :=
  exists s, row_inode row = Some s /\ all_digits s = true /\ In (u64 (decimal s)) inodes /\ row_name row = Some name.
Lemma scan_cases inodes name : forall rs,
  match scan inodes name rs with
  | 1 => exists row, In row rs /\ tells64 inodes name row
  | 0 => forall row, In row rs -> row_inode row <> None /\ row_name row <> None /\ ~ tells64 inodes name row
  | _ => scan inodes name rs = -1 /\ exists row, In row rs /\ (row_name row = None \/ row_inode row = None \/ exists s, row_inode row = Some s /\ all_digits s = false)
  end.
Proof.
  induction rs as [|row rs IH]; cbn [scan]; [intros row []|].
  destruct (row_inode row) as [s|] eqn:Ei; [|split; [reflexivity|exists row; split; [left; reflexivity|auto]]].
  destruct (all_digits s) eqn:Ed; [|split; [reflexivity|exists row; split; [left; reflexivity|right; right; eauto]]].
  destruct (row_name row) as [nm|] eqn:En; [|split; [reflexivity|exists row; split; [left; reflexivity|auto]]].
  destruct (same_bytes nm name && member (u64 (decimal s)) inodes) eqn:E.
  - apply andb_true_iff in E. destruct E as [E1 E2]. apply same_bytes_eq in E1. apply member_in in E2. subst nm.
    exists row. split; [left; reflexivity|]. exists s. auto.
  - destruct (scan inodes name rs) as [|[p|p|]|p] eqn:Es.
    + intros row' [<-|H]; [|apply IH, H]. rewrite Ei, En. split; [discriminate|]. split; [discriminate|].
      intros (s' & X1 & X2 & X3 & X4). rewrite Ei in X1. injection X1 as <-. rewrite En in X4. injection X4 as ->.
      apply member_in in X3. rewrite X3, (proj2 (same_bytes_eq name name) eq_refl) in E. discriminate.
    + destruct IH as [X _]. discriminate X.
    + destruct IH as [X _]. discriminate X.
    + destruct IH as (r & H & T). exists r. split; [right; exact H|exact T].
    + destruct IH as [X (r & H & T)]. split; [exact X|]. exists r. split; [right; exact H|exact T].
Qed.
Lemma u_yes inodes table name : has_socket_name inodes table name = Ok 1 -> Forall well_formed (rows table) ->
  exists row i, In row (rows table) /\ In i inodes /\ tells row i name.
Proof.
  rewrite has_socket_scan. intros E W. injection E as E. pose proof (scan_cases inodes name (rows table)) as H. rewrite E in H.
  destruct H as (row & Hr & s & A & B & C & D). rewrite Forall_forall in W. destruct (W row Hr) as (s' & A' & B' & C').
  rewrite A in A'. injection A' as <-. pose proof (decimal_nonneg s B). unfold u64 in C. rewrite Z.mod_small in C by lia.
  exists row, (decimal s). split; [exact Hr|]. split; [exact C|]. exists s. auto.
Qed.
Lemma u_no inodes table name : has_socket_name inodes table name = Ok 0 -> Forall (fun i => 0 <= i < W64) inodes ->
  forall row i, In row (rows table) -> In i inodes -> ~ tells row i name.
Proof.
  rewrite has_socket_scan. intros E R row i Hr Hi (s & A & B & C & D). injection E as E. pose proof (scan_cases inodes name (rows table)) as H. rewrite E in H.
  destruct (H row Hr) as (_ & _ & N). apply N. exists s. rewrite Forall_forall in R. specialize (R i Hi).
  unfold u64. rewrite Z.mod_small by lia. subst i. auto.
Qed.
Lemma u_exact inodes table name : Forall well_formed (rows table) -> Forall (fun row => row_name row <> None) (rows table) ->
  Forall (fun i => 0 <= i < W64) inodes ->
  exists x, has_socket_name inodes table name = Ok x /\ (x = 0 \/ x = 1)
    /\ (x = 1 <-> exists row i, In row (rows table) /\ In i inodes /\ tells row i name).
Proof.
  intros W N R. pose proof (has_socket_scan inodes table name) as E. exists (scan inodes name (rows table)). split; [exact E|].
  pose proof (scan_cases inodes name (rows table)) as H.
  assert (Bad : ~ exists row, In row (rows table) /\ (row_name row = None \/ row_inode row = None \/ exists s, row_inode row = Some s /\ all_digits s = false)).
  { intros (row & Hr & X). rewrite Forall_forall in W, N. destruct (W row Hr) as (s & A & B & _). specialize (N row Hr).
    destruct X as [X|[X|(s' & X & Y)]]; congruence. }
  destruct (scan inodes name (rows table)) as [|[p|p|]|p] eqn:Es; try (exfalso; apply Bad; apply H).
  - split; [auto|]. split; [discriminate|]. intros (row & i & Hr & Hi & T). exfalso. apply (u_no inodes table name) with row i; auto; rewrite E; reflexivity.
  - split; [auto|]. split; [|reflexivity]. intros _. apply u_yes; [exact E|exact W].
Qed.

(** ** descriptors *)
Lemma inodes_loop_spec max : forall dir acc, Forall link_ok dir -> ~ In (true, None) dir -> socket_count dir + zlen acc <= max ->
  exists l, inodes_loop dir max acc = Some (acc ++ l) /\ Forall (fun i => 0 <= i < W64) l
    /\ forall i, In i l <-> exists e, In e dir /\ is_socket i e.
Proof.
  induction dir as [|[lnk target] dir IH]; intros acc O NU C; cbn [inodes_loop].
  { exists []. rewrite app_nil_r. split; [reflexivity|]. split; [constructor|]. intros i. split; [intros []|intros (e & [] & _)]. }
  assert (Odir : Forall link_ok dir) by (inversion O; assumption).
  assert (Oe : link_ok (lnk, target)) by (inversion O; assumption). clear O.
  assert (NUd : ~ In (true, None) dir) by (intros Q; apply NU; right; exact Q).
  assert (Skip : (forall i, ~ is_socket i (lnk, target)) -> socket_count dir + zlen acc <= max ->
    exists l, inodes_loop dir max acc = Some (acc ++ l) /\ Forall (fun i => 0 <= i < W64) l
     /\ forall i, In i l <-> exists e, In e ((lnk, target) :: dir) /\ is_socket i e).
  { intros NS C'. destruct (IH acc Odir NUd C') as (l & E & R & H). exists l. split; [exact E|]. split; [exact R|].
    intros i. rewrite H. split; intros (e & He & S); [exists e; split; [right; exact He|exact S]|].
    destruct He as [<-|He]; [elim (NS i S)|exists e; auto]. }
  assert (Cd : socket_count dir + zlen acc <= max).
  { unfold socket_count in *. cbn [filter] in C. match type of C with zlen (if ?b then _ else _) + _ <= _ => destruct b end; [rewrite zlen_cons in C|]; lia. }
  destruct lnk; cbn [negb].
  2:{ apply Skip; [|exact Cd]. intros i (ds & E & _). discriminate. }
  destruct target as [t|]; [|elim NU; left; reflexivity]. cbn [link_ok] in Oe.
  assert (SL : forall ds, firstn 8 (socket_link ds) = SOCKET_PREFIX) by reflexivity.
  assert (LL : forall ds, zlen (socket_link ds) = 9 + zlen ds).
  { intros ds. unfold socket_link. rewrite !zlen_app. change (zlen SOCKET_PREFIX) with 8. change (zlen [93]) with 1. lia. }
  destruct (same_bytes (firstn 8 t) SOCKET_PREFIX) eqn:Ep.
  - pose proof (proj1 (same_bytes_eq _ _) Ep) as Ep'. destruct (Oe Ep') as (ds & -> & D & B & L20).
    pose proof (zlen_nonneg ds). rewrite LL. unfold TARGET.
    replace (100 <=? 9 + zlen ds) with false by lia. replace (9 + zlen ds <? 8) with false by lia. cbn [negb].
    change (skipn 8 (socket_link ds)) with (ds ++ [93]). change 0 with (u64 0) at 1. rewrite inode_loop_spec by exact D.
    fold (decimal ds). pose proof (decimal_nonneg ds D). unfold u64. rewrite Z.mod_small by lia.
    assert (Cm : socket_count dir + zlen acc + 1 <= max).
    { unfold socket_count in *. cbn [filter] in C. rewrite Ep, zlen_cons in C. lia. }
    assert (0 <= socket_count dir) by apply zlen_nonneg.
    replace (zlen acc =? max) with false by lia.
    destruct (IH (acc ++ [decimal ds]) Odir NUd) as (l & E & R & HI).
    { rewrite zlen_app. change (zlen [decimal ds]) with 1. lia. }
    exists (decimal ds :: l). rewrite E, <- app_assoc. split; [reflexivity|]. split; [constructor; [lia|exact R]|].
    intros i. cbn [In]. rewrite HI. split.
    + intros [<-|(e & He & S)]; [|exists e; auto]. exists (true, Some (socket_link ds)). split; [left; reflexivity|]. exists ds. auto.
    + intros (e & [<-|He] & S); [|right; exists e; auto]. left. destruct S as (ds' & E' & D' & <-).
      injection E' as E'. apply app_inv_tail in E'. subst ds'. reflexivity.
  - assert (NS : forall i, ~ is_socket i (true, Some t)).
    { intros i (ds & E & _). injection E as ->. rewrite SL in Ep. discriminate. }
    destruct (TARGET <=? zlen t); [apply Skip; assumption|]. destruct (zlen t <? 8); apply Skip; assumption.
Qed.
(** when the table of inodes cannot be completed, there is no answer *)
Lemma inodes_loop_none max : forall dir acc, Forall link_ok dir -> zlen acc <= max ->
  In (true, None) dir \/ max < socket_count dir + zlen acc -> inodes_loop dir max acc = None.
Proof.
  induction dir as [|[lnk target] dir IH]; intros acc O L H; cbn [inodes_loop].
  { destruct H as [[]|H]. unfold socket_count in H. cbn in H. lia. }
  assert (Odir : Forall link_ok dir) by (inversion O; assumption).
  assert (Oe : link_ok (lnk, target)) by (inversion O; assumption). clear O.
  destruct lnk; cbn [negb].
  2:{ apply IH; [exact Odir|exact L|]. destruct H as [[H|H]|H]; [discriminate|auto|right; exact H]. }
  destruct target as [t|]; [|reflexivity]. cbn [link_ok] in Oe.
  assert (H' : In (true, None) dir \/ max < socket_count ((true, Some t) :: dir) + zlen acc).
  { destruct H as [[H|H]|H]; [discriminate|auto|auto]. } clear H.
  destruct (same_bytes (firstn 8 t) SOCKET_PREFIX) eqn:Ep.
  - pose proof (proj1 (same_bytes_eq _ _) Ep) as Ep'. destruct (Oe Ep') as (ds & -> & D & B & L20).
    pose proof (zlen_nonneg ds).
    assert (LL : zlen (socket_link ds) = 9 + zlen ds).
    { unfold socket_link. rewrite !zlen_app. change (zlen SOCKET_PREFIX) with 8. change (zlen [93]) with 1. lia. }
    rewrite LL. unfold TARGET.
    replace (100 <=? 9 + zlen ds) with false by lia. replace (9 + zlen ds <? 8) with false by lia. cbn [negb].
    change (skipn 8 (socket_link ds)) with (ds ++ [93]). change 0 with (u64 0) at 1. rewrite inode_loop_spec by exact D.
    destruct (Z.eqb_spec (zlen acc) max) as [E|E]; [reflexivity|].
    apply IH; [exact Odir|rewrite zlen_app; change (zlen [u64 (fold_left (fun n c : Z => n * 10 + (c - 48)) ds 0)]) with 1; lia|].
    destruct H' as [H'|H']; [auto|right]. rewrite zlen_app. match goal with |- context [zlen [?x]] => change (zlen [x]) with 1 end.
    unfold socket_count in *. cbn [filter] in H'. rewrite Ep, zlen_cons in H'. lia.
  - assert (G : inodes_loop dir max acc = None).
    { apply IH; [exact Odir|exact L|]. destruct H' as [H'|H']; [auto|right]. unfold socket_count in *. cbn [filter] in H'. rewrite Ep in H'. exact H'. }
    destruct (TARGET <=? zlen t); [exact G|]. destruct (zlen t <? 8); exact G.
Qed.
Lemma u_pid dir table name : Forall link_ok dir -> ~ In (true, None) dir -> socket_count dir <= MAX_INODES ->
  Forall well_formed (rows table) -> Forall (fun row => row_name row <> None) (rows table) ->
  exists x, has_pid_socket (PDir dir) table name = Ok x /\ (x = 0 \/ x = 1)
    /\ (x = 1 <-> owns (PDir dir) table name).
Proof.
  intros O NU C W N. unfold owns. cbn [fds]. destruct (inodes_loop_spec MAX_INODES dir [] O NU) as (l & E & R & H).
  { change (zlen (@nil Z)) with 0. lia. }
  cbn [has_pid_socket]. rewrite E. cbn [app]. destruct (u_exact l table name W N R) as (x & Ex & A & B).
  exists x. split; [exact Ex|]. split; [exact A|]. rewrite B. split.
  - intros (row & i & Hr & Hi & T). apply H in Hi. destruct Hi as (e & He & S). exists e, row, i. auto.
  - intros (e & row & i & He & S & Hr & T). exists row, i. split; [exact Hr|]. split; [apply H; exists e; auto|exact T].
Qed.
(** without the condition on names: what it claims is so *)
Lemma u_pid_sound p table name : Forall link_ok (fds p) -> Forall well_formed (rows table) ->
  exists x, has_pid_socket p table name = Ok x /\ (x = 0 \/ x = 1 \/ x = -1)
    /\ (x = 1 -> owns p table name)
    /\ (x = 0 -> p <> PNoDir /\ ~ owns p table name)
    /\ (x = -1 -> p = PNoDir \/ In (true, None) (fds p) \/ MAX_INODES < socket_count (fds p)
                  \/ exists row, In row (rows table) /\ row_name row = None)
    /\ (p = PGone -> x = 0).
Proof.
  intros O W. destruct p as [| |dir]; cbn [fds] in *.
  { exists 0. split; [reflexivity|]. split; [auto|]. split; [discriminate|]. split; [|split; [discriminate|reflexivity]].
    intros _. split; [discriminate|]. intros (e & row & i & [] & _). }
  { exists (-1). split; [reflexivity|]. split; [auto|]. split; [discriminate|]. split; [discriminate|]. split; [auto|discriminate]. }
  destruct (In_dec (fun a b : bool * option bytes => ltac:(repeat decide equality) : {a = b} + {a <> b}) (true, None) dir) as [U|NU].
  { exists (-1). cbn [has_pid_socket]. rewrite inodes_loop_none; [|exact O|vm_compute; discriminate|auto].
    split; [reflexivity|]. split; [auto|]. split; [discriminate|]. split; [discriminate|]. split; [auto|discriminate]. }
  destruct (Z_le_gt_dec (socket_count dir) MAX_INODES) as [C|C].
  2:{ exists (-1). cbn [has_pid_socket]. rewrite inodes_loop_none; [|exact O|vm_compute; discriminate|right; change (zlen (@nil Z)) with 0; lia].
    split; [reflexivity|]. split; [auto|]. split; [discriminate|]. split; [discriminate|]. split; [intros _; right; right; left; lia|discriminate]. }
  destruct (inodes_loop_spec MAX_INODES dir [] O NU) as (l & E & R & H).
  { change (zlen (@nil Z)) with 0. lia. }
  cbn [has_pid_socket]. rewrite E. cbn [app]. exists (scan l name (rows table)).
  pose proof (has_socket_scan l table name) as Es. split; [exact Es|].
  pose proof (scan_cases l name (rows table)) as K. unfold owns. cbn [fds].
  split; [destruct (scan l name (rows table)) as [|[p|p|]|p]; auto; right; right; apply K|].
  split; [|split; [|split; [|discriminate]]].
  - intros X. rewrite X in Es. destruct (u_yes l table name Es W) as (row & i & Hr & Hi & T).
    apply H in Hi. destruct Hi as (e & He & S). exists e, row, i. auto.
  - intros X. split; [discriminate|]. intros (e & row & i & He & S & Hr & T). rewrite X in Es. apply (u_no l table name Es R row i Hr); [|exact T]. apply H. exists e. auto.
  - intros X. rewrite X in K. destruct K as (_ & row & Hr & B). right. right. right. exists row. split; [exact Hr|].
    rewrite Forall_forall in W. destruct (W row Hr) as (s & A1 & A2 & _). destruct B as [B|[B|(s' & B1 & B2)]]; [exact B|congruence|congruence].
Qed.

(** ** slurp_special *)
Lemma slurp_spec : forall reads content sz buf, zlen content < zlen reads -> zlen buf < sz ->
  slurp content reads sz buf = Ok (buf ++ content).
Proof.
  induction reads as [|k reads IH]; intros content sz buf L B; [pose proof (zlen_nonneg content); change (zlen (@nil Z)) with 0 in L; lia|].
  cbn [slurp]. rewrite zlen_cons in L. pose proof (zlen_nonneg content). pose proof (zlen_nonneg buf).
  set (nr := Z.min (Z.min (Z.max 1 k) (sz - zlen buf)) (zlen content)).
  assert (N0 : 0 <= nr <= zlen content) by lia. assert (N1 : nr = 0 -> content = []).
  { intros E. assert (zlen content = 0) by lia. destruct content as [|c t]; [reflexivity|]. exfalso. clear - H1. rewrite zlen_cons in H1. pose proof (zlen_nonneg t). lia. }
  assert (N2 : nr <= sz - zlen buf) by lia. assert (N3 : nr = 0 -> sz - zlen buf - nr <> 0) by lia. clearbody nr.
  unfold rd_mem. replace ((0 <=? 0) && (0 <=? nr) && (0 + nr <=? zlen content)) with true by lia. cbn [obind].
  unfold sub. change (Z.to_nat 0) with O. rewrite skipn_O.
  assert (Lf : zlen (firstn (Z.to_nat nr) content) = nr) by (unfold zlen in *; rewrite firstn_length; lia).
  assert (Ls : zlen (skipn (Z.to_nat nr) content) = zlen content - nr) by (unfold zlen in *; rewrite skipn_length; lia).
  destruct (Z.eqb_spec (sz - zlen buf - nr) 0) as [E|E].
  - rewrite IH by (rewrite ?zlen_app; lia). rewrite <- app_assoc, firstn_skipn. reflexivity.
  - destruct (Z.eqb_spec nr 0) as [E0|E0].
    + rewrite (N1 E0), firstn_nil. reflexivity.
    + rewrite IH by (rewrite ?zlen_app; lia). rewrite <- app_assoc, firstn_skipn. reflexivity.
Qed.
Lemma u_slurp content reads : zlen content < zlen reads -> slurp_special content reads = Ok content.
Proof. intros H. unfold slurp_special. rewrite slurp_spec; [reflexivity|exact H|reflexivity]. Qed.

(** ** socket names *)
Lemma zero_len n : 0 <= n -> zlen (zero n) = n.
Proof. intros H. unfold zero, zlen. rewrite repeat_length. lia. Qed.
Lemma strlen_spec : forall n t, ~ In 0 n -> strlen (n ++ 0 :: t) = Ok (zlen n).
Proof.
  induction n as [|c n IH]; intros t H; cbn [app strlen]; [reflexivity|].
  destruct (Z.eqb_spec c 0) as [->|N]; [elim H; left; reflexivity|]. rewrite IH by (intros X; apply H; right; exact X).
  cbn [obind]. rewrite zlen_cons. f_equal; lia.
Qed.
Lemma u_sock2asc n : zlen n <= 6 -> sock2asc (abstract n) (FAMILY + 1 + zlen n) = Ok (64 :: n ++ zero (7 - zlen n)).
Proof.
  intros L. pose proof (zlen_nonneg n).
  destruct n as [|a [|b [|c [|d [|e [|f [|g n]]]]]]]; try reflexivity.
  rewrite !zlen_cons in L. pose proof (zlen_nonneg n). lia.
Qed.
Lemma u_asc2sock n : zlen n <= 6 -> ~ In 0 n -> asc2sock (64 :: n ++ zero (7 - zlen n)) = Ok (abstract n, FAMILY + 1 + zlen n).
Proof.
  intros L H. pose proof (zlen_nonneg n). unfold asc2sock.
  assert (Es : strlen (skipn 1 (64 :: n ++ zero (7 - zlen n))) = Ok (zlen n)).
  { cbn [skipn]. replace (zero (7 - zlen n)) with (0 :: zero (6 - zlen n)); [apply strlen_spec, H|].
    unfold zero. replace (Z.to_nat (7 - zlen n)) with (S (Z.to_nat (6 - zlen n))) by lia. reflexivity. }
  rewrite Es. clear Es H.
  destruct n as [|a [|b [|c [|d [|e [|f [|g n]]]]]]]; try reflexivity.
  rewrite !zlen_cons in L. pose proof (zlen_nonneg n). lia.
Qed.
Lemma u_sock2asc_long n : 6 < zlen n -> sock2asc (abstract n) (FAMILY + 1 + zlen n) = Abort.
Proof. intros L. unfold sock2asc. replace (_ <=? BW_NAMELEN) with false; [reflexivity|]. unfold FAMILY, BW_NAMELEN. lia. Qed.

Lemma u_round n : zlen n <= 6 -> ~ In 0 n ->
  exists stored, sock2asc (abstract n) (FAMILY + 1 + zlen n) = Ok stored
    /\ zlen stored = BW_NAMELEN /\ stored = 64 :: n ++ repeat 0 (Z.to_nat (7 - zlen n))
    /\ asc2sock stored = Ok (abstract n, FAMILY + 1 + zlen n).
Proof.
  intros L H. exists (64 :: n ++ zero (7 - zlen n)). split; [apply u_sock2asc, L|].
  split; [rewrite zlen_cons, zlen_app, zero_len by lia; unfold BW_NAMELEN; lia|]. split; [reflexivity|]. apply u_asc2sock; assumption.
Qed.
Lemma u_inj n n' s : zlen n <= 6 -> zlen n' <= 6 -> ~ In 0 n -> ~ In 0 n' ->
  sock2asc (abstract n) (FAMILY + 1 + zlen n) = Ok s -> sock2asc (abstract n') (FAMILY + 1 + zlen n') = Ok s -> n = n'.
Proof.
  intros L L' H H' E E'. rewrite u_sock2asc in E, E' by assumption. rewrite <- E in E'. apply (f_equal (fun o => match o with Ok l => tl l | _ => [] end)) in E'. cbn [tl] in E'.
  pose proof (zlen_nonneg n). pose proof (zlen_nonneg n').
  assert (A : strlen (n ++ zero (7 - zlen n)) = Ok (zlen n)).
  { replace (zero (7 - zlen n)) with (0 :: zero (6 - zlen n)); [apply strlen_spec, H|]. unfold zero. replace (Z.to_nat (7 - zlen n)) with (S (Z.to_nat (6 - zlen n))) by lia. reflexivity. }
  assert (A' : strlen (n' ++ zero (7 - zlen n')) = Ok (zlen n')).
  { replace (zero (7 - zlen n')) with (0 :: zero (6 - zlen n')); [apply strlen_spec, H'|]. unfold zero. replace (Z.to_nat (7 - zlen n')) with (S (Z.to_nat (6 - zlen n'))) by lia. reflexivity. }
  rewrite E', A in A'. injection A' as Q. rewrite Q in E'. apply app_inv_tail in E'. congruence.
Qed.
