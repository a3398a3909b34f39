(** * parse_spec, create, status *)
From Verif Require Export ToolFacts3 InitFacts.

(** ** parse_spec *)
Lemma digit_nospace c : digit c = true -> is_space c = false /\ (c =? 45) = false /\ (c =? 43) = false.
Proof. unfold digit, is_space. intros H. lia. Qed.
Lemma decimal_nonneg ds n : all_digits ds = true -> 0 <= n -> n <= fold_left (fun n c => n * 10 + (c - 48)) ds n.
Proof.
  revert n. induction ds as [|c ds IH]; intros n D N; cbn [fold_left]; [lia|]. cbn [all_digits forallb] in D. apply andb_true_iff in D. destruct D as [D1 D2]. unfold digit in D1.
  assert (H : 0 <= n * 10 + (c - 48)) by lia. specialize (IH _ D2 H). lia.
Qed.
Lemma s32_small x : 0 <= x < 2147483648 -> s32 x = x.
Proof. intros H. unfold s32. rewrite Z.mod_small by lia. destruct (Z.geb_spec x 2147483648); lia. Qed.
Lemma atoi_digits ds t : ds <> [] -> all_digits ds = true -> match t with c :: _ => digit c = false | [] => True end -> atoi (ds ++ t) = s32 (Z.min (decimal ds) SSIZE_MAX).
Proof.
  intros N D T. destruct ds as [|c ds]; [congruence|]. assert (Dc : digit c = true) by (cbn [all_digits forallb] in D; apply andb_true_iff in D; apply D).
  destruct (digit_nospace c Dc) as (E1 & E2 & E3). unfold atoi. cbn [app skip_space]. rewrite E1. cbn beta iota zeta. rewrite E2, E3.
  change (c :: ds ++ t) with ((c :: ds) ++ t). rewrite scan_digits_spec by assumption. reflexivity.
Qed.
Lemma atoi_port ds : ds <> [] -> all_digits ds = true -> 1 <= decimal ds <= 65535 -> atoi ds = decimal ds.
Proof.
  intros NE D R. pose proof (atoi_digits ds [] NE D I) as E. rewrite app_nil_r in E. rewrite E, Z.min_l, s32_small by lia. reflexivity.
Qed.
Lemma split_colon_spec h p : ~ In 58 h -> split_colon (h ++ 58 :: p) = Some (h, p).
Proof.
  induction h as [|c h IH]; intros N; [reflexivity|]. cbn [app split_colon]. destruct (Z.eqb_spec c 58) as [->|]; [elim N; left; reflexivity|]. rewrite IH; [reflexivity|]. intros H. apply N. right. exact H.
Qed.
Lemma split_colon_none s : ~ In 58 s -> split_colon s = None.
Proof.
  induction s as [|c h IH]; intros N; [reflexivity|]. cbn [split_colon]. destruct (Z.eqb_spec c 58) as [->|]; [elim N; left; reflexivity|]. rewrite IH; [reflexivity|]. intros H. apply N. right. exact H.
Qed.
Lemma split_colon_inv s : match split_colon s with Some (h, p) => s = h ++ 58 :: p /\ ~ In 58 h | None => ~ In 58 s end.
Proof.
  induction s as [|c s IH]; cbn [split_colon]; [tauto|]. destruct (Z.eqb_spec c 58) as [->|N]; [split; [reflexivity|tauto]|].
  destruct (split_colon s) as [[a b]|]; [destruct IH as [-> I]; split; [reflexivity|]|]; intros [H|H]; auto.
Qed.
Lemma t_spec {addr} (lookup : bytes -> option addr) h a ds : ~ In 58 h -> lookup h = Some a -> ds <> [] -> all_digits ds = true -> 1 <= decimal ds <= 65535 ->
  parse_spec lookup (h ++ 58 :: ds) = Some (Some a, decimal ds).
Proof.
  intros N L NE D R. unfold parse_spec. rewrite split_colon_spec, L by exact N. rewrite atoi_port by assumption.
  replace ((decimal ds <=? 0) || (decimal ds >? 65535)) with false by lia. reflexivity.
Qed.
Lemma digits_nocolon ds : all_digits ds = true -> ~ In 58 ds.
Proof. intros D H. unfold all_digits in D. rewrite forallb_forall in D. specialize (D _ H). discriminate. Qed.
Lemma t_spec_any {addr} (lookup : bytes -> option addr) ds : ds <> [] -> all_digits ds = true -> 1 <= decimal ds <= 65535 ->
  parse_spec lookup ds = Some (None, decimal ds).
Proof.
  intros NE D R. unfold parse_spec. rewrite split_colon_none by (apply digits_nocolon; exact D). rewrite atoi_port by assumption.
  replace ((decimal ds <=? 0) || (decimal ds >? 65535)) with false by lia. reflexivity.
Qed.
Lemma t_spec_bad {addr} (lookup : bytes -> option addr) h ds : ~ In 58 h -> all_digits ds = true -> decimal ds = 0 \/ 65535 < decimal ds < 4294967296 ->
  parse_spec lookup (h ++ 58 :: ds) = None /\ parse_spec lookup ds = None.
Proof.
  intros N D R.
  assert (P : let p := atoi ds in (p <=? 0) || (p >? 65535) = true).
  { cbv zeta. destruct ds as [|c ds]; [reflexivity|]. pose proof (atoi_digits (c :: ds) [] ltac:(discriminate) D I) as E. rewrite app_nil_r in E. rewrite E.
    rewrite Z.min_l by lia. destruct R as [->|R]; [reflexivity|]. unfold s32. rewrite Z.mod_small by lia. destruct (Z.geb_spec (decimal (c :: ds)) 2147483648); lia. }
  cbv zeta in P. unfold parse_spec. rewrite split_colon_spec by exact N. rewrite (split_colon_none ds) by (apply digits_nocolon; exact D). rewrite P. destruct (lookup h); auto.
Qed.
Lemma t_spec_sound {addr} (lookup : bytes -> option addr) s a p : parse_spec lookup s = Some (a, p) ->
  1 <= p <= 65535 /\ match a with
    | None => ~ In 58 s /\ p = atoi s
    | Some x => exists h t, s = h ++ 58 :: t /\ ~ In 58 h /\ lookup h = Some x /\ p = atoi t end.
Proof.
  unfold parse_spec. intros H. pose proof (split_colon_inv s) as S. destruct (split_colon s) as [[h t]|].
  - destruct S as [-> N]. destruct (lookup h) as [x|] eqn:L; [|discriminate]. destruct ((atoi t <=? 0) || (atoi t >? 65535)) eqn:E; [discriminate|]. injection H as <- <-. split; [lia|]. exists h, t. auto.
  - destruct ((atoi s <=? 0) || (atoi s >? 65535)) eqn:E; [discriminate|]. injection H as <- <-. split; [lia|auto].
Qed.

(** ** create *)
Lemma has_lor a b x : has (Z.lor a b) x = has a x || has b x.
Proof.
  unfold has. rewrite Z.land_comm, Z.land_lor_distr_r, !(Z.land_comm x). destruct (Z.eqb_spec (Z.land a x) 0) as [E|E], (Z.eqb_spec (Z.land b x) 0) as [F|F]; cbn [negb orb].
  - rewrite E, F. reflexivity.
  - rewrite E, Z.lor_0_l. destruct (Z.eqb_spec (Z.land b x) 0); [contradiction|reflexivity].
  - destruct (Z.eqb_spec (Z.lor (Z.land a x) (Z.land b x)) 0) as [G|]; [|reflexivity]. apply Z.lor_eq_0_iff in G. destruct G. contradiction.
  - destruct (Z.eqb_spec (Z.lor (Z.land a x) (Z.land b x)) 0) as [G|]; [|reflexivity]. apply Z.lor_eq_0_iff in G. destruct G. contradiction.
Qed.
Lemma lor_small a b : 0 <= a < 128 -> 0 <= b < 128 -> 0 <= Z.lor a b < 128.
Proof.
  intros Ha Hb. split; [apply Z.lor_nonneg; lia|]. destruct (Z.eq_dec a 0) as [->|Na]; [rewrite Z.lor_0_l; lia|]. destruct (Z.eq_dec b 0) as [->|Nb]; [rewrite Z.lor_0_r; lia|].
  assert (0 < Z.lor a b). { assert (0 <= Z.lor a b) by (apply Z.lor_nonneg; lia). destruct (Z.eq_dec (Z.lor a b) 0) as [E|]; [apply Z.lor_eq_0_iff in E; lia|lia]. }
  change 128 with (2 ^ 7). apply Z.log2_lt_pow2; [assumption|]. rewrite Z.log2_lor by lia.
  assert (Z.log2 a < 7) by (apply Z.log2_lt_pow2; lia). assert (Z.log2 b < 7) by (apply Z.log2_lt_pow2; lia). lia.
Qed.
(** bits and the letters that set them *)
Definition bit_letter : list (Z * Z) := [(SHR_DROP, 100); (SHR_KEEPEXIST, 107); (SHR_FARM, 102); (SHR_SYNC, 115); (SHR_MLOCK, 108)].
Lemma mode_flags_spec : forall c fl f, mode_flags c fl = Some f -> 0 <= fl < 128 ->
  0 <= f < 128 /\ (forall b x, In (b, x) bit_letter -> has f b = has fl b || existsb (Z.eqb x) c)
  /\ has f SHR_MAXMSGS_2 = has fl SHR_MAXMSGS_2 /\ has f SHR_APPDATA_1 = has fl SHR_APPDATA_1.
Proof.
  induction c as [|y c IH]; intros fl f H R; cbn [mode_flags] in H.
  - injection H as <-. split; [exact R|]. split; [intros; cbn [existsb]; rewrite orb_false_r; reflexivity|auto].
  - assert (G : forall bit l, In (bit, l) bit_letter -> y = l -> mode_flags c (Z.lor fl bit) = Some f ->
      0 <= f < 128 /\ (forall b x, In (b, x) bit_letter -> has f b = has fl b || existsb (Z.eqb x) (y :: c)) /\ has f SHR_MAXMSGS_2 = has fl SHR_MAXMSGS_2 /\ has f SHR_APPDATA_1 = has fl SHR_APPDATA_1).
    { intros bit l Hb Hy HM. assert (B : 0 <= bit < 128) by (cbn in Hb; repeat (destruct Hb as [E|Hb]; [injection E as <- <-; vm_compute; split; [discriminate|reflexivity]|]); destruct Hb).
      destruct (IH _ _ HM (lor_small _ _ R B)) as (A1 & A2 & A3 & A4). split; [exact A1|]. split.
      - intros b x Hx. rewrite (A2 b x Hx), has_lor, <- orb_assoc. f_equal. cbn [existsb]. f_equal. subst y.
        cbn in Hb, Hx. repeat (destruct Hb as [E|Hb]; [injection E as <- <-; repeat (destruct Hx as [E'|Hx]; [injection E' as <- <-; reflexivity|]); destruct Hx|]). destruct Hb.
      - rewrite A3, A4, !has_lor. cbn in Hb. repeat (destruct Hb as [E|Hb]; [injection E as <- <-; split; apply orb_false_r|]). destruct Hb. }
    destruct (Z.eqb_spec y 100) as [E|]; [eapply G; [|exact E|exact H]; cbn; tauto|]. destruct (Z.eqb_spec y 107) as [E|]; [eapply G; [|exact E|exact H]; cbn; tauto|].
    destruct (Z.eqb_spec y 102) as [E|]; [eapply G; [|exact E|exact H]; cbn; tauto|]. destruct (Z.eqb_spec y 115) as [E|]; [eapply G; [|exact E|exact H]; cbn; tauto|].
    destruct (Z.eqb_spec y 108) as [E|]; [eapply G; [|exact E|exact H]; cbn; tauto|discriminate].
Qed.
Lemma getopts_spec : forall os c c', getopts os c = Some c' -> 0 <= cc_flags c < 128 ->
  0 <= cc_flags c' < 128 /\ (forall b x, In (b, x) bit_letter -> has (cc_flags c') b = has (cc_flags c) b || letter os x)
  /\ has (cc_flags c') SHR_MAXMSGS_2 = has (cc_flags c) SHR_MAXMSGS_2 || has_N os /\ has (cc_flags c') SHR_APPDATA_1 = has (cc_flags c) SHR_APPDATA_1
  /\ (cc_size c' = cc_size c \/ exists a, In (OptS a) os /\ size_arg a = Some (cc_size c'))
  /\ (has_N os = false /\ cc_max c' = cc_max c \/ exists a, In (OptN a) os /\ cc_max c' = u64 (atoi a))
  /\ (has_A os = false /\ cc_file c' = cc_file c \/ exists f, In (OptA f) os /\ cc_file c' = Some f).
Proof.
  induction os as [|o os IH]; intros c c' H R; cbn [getopts] in H.
  - injection H as <-. repeat split; auto; try lia; try (intros; cbn; rewrite orb_false_r; reflexivity).
  - destruct o as [a|a|a|f].
    + destruct (size_arg a) as [n|] eqn:E; [|discriminate]. destruct (IH _ _ H R) as (A1 & A2 & A3 & A4 & A5 & A6 & A7). cbn in *.
      split; [exact A1|]. split; [exact A2|]. split; [exact A3|]. split; [exact A4|]. split; [right; destruct A5 as [A5|(b & B1 & B2)]; [exists a; rewrite A5; auto|exists b; auto]|]. split.
      * destruct A6 as [A6|(b & B1 & B2)]; [left; exact A6|right; exists b; auto].
      * destruct A7 as [A7|(b & B1 & B2)]; [left; exact A7|right; exists b; auto].
    + destruct (mode_flags a (cc_flags c)) as [f|] eqn:E; [|discriminate]. destruct (mode_flags_spec _ _ _ E R) as (F1 & F2 & F3 & F4).
      destruct (IH _ _ H F1) as (A1 & A2 & A3 & A4 & A5 & A6 & A7). cbn in A2, A3, A4, A5, A6, A7 |- *.
      split; [exact A1|]. split; [intros b x Hb; rewrite (A2 b x Hb), (F2 b x Hb); symmetry; apply orb_assoc|]. split; [rewrite A3, F3; reflexivity|]. split; [rewrite A4, F4; reflexivity|].
      split; [destruct A5 as [A5|(b & B1 & B2)]; [left; exact A5|right; exists b; auto]|]. split.
      * destruct A6 as [A6|(b & B1 & B2)]; [left; exact A6|right; exists b; auto].
      * destruct A7 as [A7|(b & B1 & B2)]; [left; exact A7|right; exists b; auto].
    + assert (B16 : 0 <= SHR_MAXMSGS_2 < 128) by (vm_compute; split; [discriminate|reflexivity]).
      destruct (IH _ _ H (lor_small _ _ R B16)) as (A1 & A2 & A3 & A4 & A5 & A6 & A7). cbn in A2, A3, A4, A5, A6, A7 |- *.
      split; [exact A1|]. split. { intros b x Hb. rewrite (A2 b x Hb), has_lor. assert (E0 : has SHR_MAXMSGS_2 b = false) by (cbn in Hb; repeat (destruct Hb as [E|Hb]; [injection E as <- <-; reflexivity|]); destruct Hb). rewrite E0, orb_false_r. reflexivity. }
      split; [rewrite A3, has_lor; change (has SHR_MAXMSGS_2 SHR_MAXMSGS_2) with true; rewrite orb_true_r; reflexivity|]. split; [rewrite A4, has_lor; apply orb_false_r|].
      split; [destruct A5 as [A5|(b & B1 & B2)]; [left; exact A5|right; exists b; auto]|]. split.
      * right. destruct A6 as [[_ A6]|(b & B1 & B2)]; [exists a; auto|exists b; auto].
      * destruct A7 as [A7|(b & B1 & B2)]; [left; exact A7|right; exists b; auto].
    + destruct (IH _ _ H R) as (A1 & A2 & A3 & A4 & A5 & A6 & A7). cbn in *.
      split; [exact A1|]. split; [exact A2|]. split; [exact A3|]. split; [exact A4|].
      split; [destruct A5 as [A5|(b & B1 & B2)]; [left; exact A5|right; exists b; auto]|]. split.
      * destruct A6 as [A6|(b & B1 & B2)]; [left; exact A6|right; exists b; auto].
      * right. destruct A7 as [[_ A7]|(b & B1 & B2)]; [exists f; auto|exists b; auto].
Qed.
Lemma scan_digits_nonneg : forall s n, 0 <= n -> 0 <= fst (scan_digits s n).
Proof.
  induction s as [|c s IH]; intros n H; cbn [scan_digits]; [exact H|]. destruct (digit c) eqn:D; [|exact H]. apply IH. unfold digit in D. lia.
Qed.
Lemma size_arg_range a n : size_arg a = Some n -> 0 <= n < W64.
Proof.
  unfold size_arg. destruct a as [|c a]; [discriminate|]. destruct (digit c); [|discriminate]. pose proof (scan_digits_nonneg (c :: a) 0 ltac:(lia)) as P.
  destruct (scan_digits (c :: a) 0) as [k rest]. cbn [fst] in P. assert (U : forall x, 0 <= mul1024 x < W64) by (intros x; apply Z.mod_pos_bound; reflexivity).
  destruct rest as [|u r].
  - intros H. injection H as <-. lia.
  - intros H. destruct ((u =? 116) || (u =? 84)); [injection H as <-; apply U|]. destruct ((u =? 103) || (u =? 71)); [injection H as <-; apply U|].
    destruct ((u =? 109) || (u =? 77)); [injection H as <-; apply U|]. destruct ((u =? 107) || (u =? 75)); [injection H as <-; apply U|discriminate].
Qed.
Lemma t_create content os n fl mx app : create_args content os = Some (n, fl, mx, app) ->
  0 < n /\ (exists a, In (OptS a) os /\ size_arg a = Some n)
  /\ (if has_A os then exists f, In (OptA f) os /\ content f = Some app else app = [])
  /\ (if has_N os then exists a, In (OptN a) os /\ mx = u64 (atoi a) else mx = 0)
  /\ has fl SHR_KEEPEXIST = letter os 107
  /\ exists l, init_layout n fl (zlen app) mx = Ok (Some l)
  /\ let r := ring_of_layout l fl app in
     r_drop r = letter os 100 || letter os 102 /\ r_farm r = letter os 102
     /\ has (r_gflags r) SHR_SYNC = letter os 115 /\ has (r_gflags r) SHR_MLOCK = letter os 108
     /\ r_app r = app
     /\ let slots := if mx =? 0 then 100 + n / 100 else mx in
        (SIZEOF_CTRL + n + SIZEOF_PTR + SIZEOF_MSG * slots + zlen app <= W64 -> r_n r = n /\ r_mm r = slots).
Proof.
  unfold create_args. destruct (getopts os (mkcc 0 0 0 None)) as [c|] eqn:E; [|discriminate]. destruct (getopts_spec _ _ _ E) as (A1 & A2 & A3 & A4 & A5 & A6 & A7); [cbn; lia|]. cbn [cc_size cc_flags cc_max cc_file] in *.
  destruct (Z.eqb_spec (cc_size c) 0) as [|N]; [discriminate|]. intros H. destruct A5 as [A5|A5]; [contradiction|].
  assert (P0 : 0 < cc_size c) by (destruct A5 as (a & _ & A5); apply size_arg_range in A5; lia).
  change (has 0 SHR_MAXMSGS_2) with false in A3. change (has 0 SHR_APPDATA_1) with false in A4. cbn [orb] in A3.
  assert (MX : 0 <= cc_max c) by (destruct A6 as [[_ ->]|(a & _ & ->)]; [lia|apply Z.mod_pos_bound; reflexivity]).
  assert (X : exists b, fl = Z.lor (cc_flags c) (if b : bool then SHR_APPDATA_1 else 0) /\ n = cc_size c /\ mx = cc_max c /\ b = has_A os /\ (if b then exists f, In (OptA f) os /\ content f = Some app else app = [])).
  { destruct A7 as [[A7 A8]|(f & A7 & A8)]; rewrite A8 in H.
    - injection H as <- <- <- <-. exists false. rewrite Z.lor_0_r, A7. auto.
    - destruct (content f) as [ap|] eqn:Ec; [|discriminate]. injection H as <- <- <- <-. exists true. assert (HA : has_A os = true) by (unfold has_A; apply existsb_exists; exists (OptA f); auto). rewrite HA. repeat split; auto. exists f. auto. }
  clear H. destruct X as (b & -> & -> & -> & Eb & X). 
  assert (BA : 0 <= (if b then SHR_APPDATA_1 else 0) < 128) by (destruct b; vm_compute; split; congruence).
  set (fl := Z.lor _ _). assert (FL : 0 <= fl < 128) by (apply lor_small; assumption).
  assert (F1 : forall bt x, In (bt, x) bit_letter -> has fl bt = letter os x).
  { intros bt x Hb. unfold fl. rewrite has_lor, (A2 bt x Hb). change (has 0 bt) with (negb (Z.land 0 bt =? 0)). rewrite Z.land_0_l. cbn [Z.eqb negb orb].
    assert (Z0 : has (if b then SHR_APPDATA_1 else 0) bt = false) by (cbn in Hb; repeat (destruct Hb as [Q|Hb]; [injection Q as <- <-; destruct b; reflexivity|]); destruct Hb). rewrite Z0. apply orb_false_r. }
  assert (F2 : has fl SHR_APPDATA_1 = b) by (unfold fl; rewrite has_lor, A4; destruct b; reflexivity).
  assert (F3 : has fl SHR_MAXMSGS_2 = has_N os) by (unfold fl; rewrite has_lor, A3; destruct b; apply orb_false_r).
  destruct (init_some (cc_size c) fl (zlen app) (cc_max c) P0) as (l & L); [unfold SHR_OPEN_FENCE; lia|].
  assert (NM : has_N os = false -> cc_max c = 0).
  { intros HN. destruct A6 as [[_ A6]|(a & A6 & _)]; [exact A6|]. exfalso. assert (has_N os = true) by (unfold has_N; apply existsb_exists; exists (OptN a); auto). congruence. }
  split; [exact P0|]. split; [exact A5|]. split; [rewrite <- Eb; exact X|]. split.
  { destruct (has_N os) eqn:HN; [|apply NM; reflexivity]. destruct A6 as [[A6 _]|A6]; [congruence|exact A6]. }
  split; [apply F1; cbn; tauto|]. exists l. split; [exact L|]. cbv zeta.
  destruct (init_gflags_spec fl) as (G1 & G2 & G3 & G4). unfold r_drop, r_farm. cbn [ring_of_layout r_gflags r_app r_n r_mm].
  rewrite G1, G2, G3, G4, (F1 SHR_DROP 100), (F1 SHR_FARM 102), (F1 SHR_SYNC 115), (F1 SHR_MLOCK 108) by (cbn; tauto). repeat (split; [reflexivity|]).
  split. { rewrite F2. destruct b; [reflexivity|symmetry; exact X]. }
  intros S. pose proof (zlen_nonneg app) as LA.
  assert (SW : slots_wanted (cc_size c) fl (cc_max c) = if cc_max c =? 0 then 100 + cc_size c / 100 else cc_max c).
  { unfold slots_wanted. rewrite F3. destruct (has_N os) eqn:HN; cbn [andb]; [destruct (cc_max c =? 0); reflexivity|]. rewrite (NM eq_refl). reflexivity. }
  assert (AW : app_wanted fl (zlen app) = zlen app) by (unfold app_wanted; rewrite F2; destruct b; [reflexivity|rewrite X; reflexivity]).
  destruct (init_exact (cc_size c) fl (zlen app) (cc_max c) l P0 LA MX L) as (I1 & I2 & _); [rewrite SW, AW; exact S|]. rewrite I1, I2, SW. auto.
Qed.
(** status *)
Lemma t_attributes l fl app : let at_ := attributes (r_gflags (ring_of_layout l fl app)) in
  (In ADrop at_ <-> has fl SHR_DROP || has fl SHR_FARM = true) /\ (In AFarm at_ <-> has fl SHR_FARM = true)
  /\ (In AMlock at_ <-> has fl SHR_MLOCK = true) /\ (In ASync at_ <-> has fl SHR_SYNC = true)
  /\ (In ANone at_ <-> at_ = [ANone]) /\ ~ In AAppdata at_.
Proof.
  cbv zeta. cbn [ring_of_layout r_gflags]. unfold init_gflags. destruct (has fl SHR_SYNC), (has fl SHR_DROP), (has fl SHR_FARM), (has fl SHR_MLOCK); cbn; repeat split; intros; try discriminate; try tauto; intuition (try discriminate; try congruence).
Qed.
