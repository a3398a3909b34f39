From Verif Require Export ToolSpec UxFacts.

(** ** framing *)
Lemma un32_le32 n : 0 <= n < 4294967296 -> un32 (le32 n) = n.
Proof. intros H. unfold un32, le32. Z.div_mod_to_equations. lia. Qed.
Lemma frame_len m : zlen (frame m) = 4 + zlen m.
Proof. unfold frame. rewrite zlen_app. reflexivity. Qed.
Lemma frames_app a b : frames (a ++ b) = frames a ++ frames b.
Proof. apply flat_map_app. Qed.
Definition incomplete (p : bytes) : Prop :=
  zlen p < 4 \/ exists n, 0 <= n <= MAX_FRAME /\ firstn 4 p = le32 n /\ zlen p < 4 + n.
Lemma sub_mid {A} (a b c : list A) : sub (zlen a) (zlen b) (a ++ b ++ c) = b.
Proof. unfold sub, zlen. rewrite !Nat2Z.id, skipn_app, skipn_all, Nat.sub_diag. cbn [app skipn]. rewrite firstn_app, Nat.sub_diag, firstn_all, firstn_O, app_nil_r. reflexivity. Qed.
Lemma rd_mid (a b c : bytes) p n : p = zlen a -> n = zlen b -> rd_mem p n (a ++ b ++ c) = Ok b.
Proof.
  intros -> ->. unfold rd_mem. rewrite !zlen_app. pose proof (zlen_nonneg a). pose proof (zlen_nonneg b). pose proof (zlen_nonneg c).
  replace ((0 <=? zlen a) && (0 <=? zlen b) && (zlen a + zlen b <=? zlen a + (zlen b + zlen c))) with true by lia. f_equal. apply sub_mid.
Qed.
Lemma frames_count ms : 4 * zlen ms <= zlen (frames ms).
Proof. induction ms as [|m ms IH]; [cbn; lia|]. unfold frames in *. cbn [flat_map]. rewrite zlen_cons, zlen_app, frame_len. pose proof (zlen_nonneg m). lia. Qed.
Lemma frames_cons m ms : frames (m :: ms) = frame m ++ frames ms. Proof. reflexivity. Qed.

Lemma frame_loop_spec p : incomplete p -> forall ms dn fuel iov, Forall (fun m => zlen m <= MAX_FRAME) ms ->
  let buf := frames dn ++ frames ms ++ p in
  zlen buf <= BUFLEN -> (length ms < fuel)%nat -> zlen iov = zlen dn -> map (fun q => sub (fst q) (snd q) buf) iov = dn ->
  exists iov', frame_loop fuel buf (zlen (frames dn)) iov = Ok (Some (zlen (frames (dn ++ ms)), iov'))
    /\ map (fun q => sub (fst q) (snd q) buf) iov' = dn ++ ms.
Proof.
  intros P. induction ms as [|m ms IH]; intros dn fuel iov O buf LB F LI EI.
  - destruct fuel as [|fuel]; [cbn in F; lia|]. exists iov. rewrite app_nil_r. split; [|exact EI]. cbn [frame_loop].
    assert (Eb : zlen buf = zlen (frames dn) + zlen p) by (unfold buf; rewrite zlen_app; reflexivity).
    destruct P as [P|(n & Hn & Ep & P)].
    + replace (zlen (frames dn) + 4 >? zlen buf) with true by lia. reflexivity.
    + destruct (Z.gtb_spec (zlen (frames dn) + 4) (zlen buf)) as [G|G]; [reflexivity|].
      assert (El : buf = frames dn ++ le32 n ++ skipn 4 p).
      { unfold buf. cbn [frames flat_map app]. rewrite <- Ep, firstn_skipn. reflexivity. }
      rewrite El, (rd_mid (frames dn) (le32 n) (skipn 4 p)) by reflexivity. cbn [obind].
      rewrite un32_le32 by (unfold MAX_FRAME in Hn; lia).
      replace (n >? MAX_FRAME) with false by lia. rewrite <- El.
      replace (zlen (frames dn) + 4 + n >? zlen buf) with true by lia. reflexivity.
  - destruct fuel as [|fuel]; [cbn in F; lia|]. cbn [frame_loop].
    assert (Om : zlen m <= MAX_FRAME) by (inversion O; assumption). assert (Oms : Forall (fun m => zlen m <= MAX_FRAME) ms) by (inversion O; assumption).
    assert (El : buf = frames dn ++ le32 (zlen m) ++ (m ++ frames ms ++ p)).
    { unfold buf. rewrite frames_cons. unfold frame. rewrite <- !app_assoc. reflexivity. }
    pose proof (zlen_nonneg m). pose proof (zlen_nonneg (frames ms)). pose proof (zlen_nonneg p). pose proof (zlen_nonneg (frames dn)).
    assert (Lb : zlen buf = zlen (frames dn) + 4 + zlen m + zlen (frames ms) + zlen p).
    { rewrite El, !zlen_app. change (zlen (le32 (zlen m))) with 4. lia. }
    replace (zlen (frames dn) + 4 >? zlen buf) with false by lia.
    assert (Er : rd_mem (zlen (frames dn)) 4 buf = Ok (le32 (zlen m))) by (rewrite El; apply rd_mid; reflexivity).
    rewrite Er. cbn [obind].
    rewrite un32_le32 by (unfold MAX_FRAME in Om; lia).
    replace (zlen m >? MAX_FRAME) with false by lia.
    replace (zlen (frames dn) + 4 + zlen m >? zlen buf) with false by lia.
    pose proof (frames_count dn). unfold BUFLEN in LB.
    replace (NUMIOV <=? zlen iov) with false by (unfold NUMIOV; lia).
    rewrite zlen_app. change (zlen [(zlen (frames dn) + 4, zlen m)]) with 1.
    replace (zlen iov + 1 =? NUMIOV) with false by (unfold NUMIOV; lia).
    destruct (IH (dn ++ [m]) fuel (iov ++ [(zlen (frames dn) + 4, zlen m)]) Oms) as (iov' & E & M).
    + rewrite !zlen_app, frames_app, zlen_app, frames_cons, zlen_app, frame_len. change (zlen (frames [])) with 0. unfold BUFLEN. lia.
    + cbn in F. lia.
    + rewrite !zlen_app. change (zlen [m]) with 1. change (zlen [(zlen (frames dn) + 4, zlen m)]) with 1. lia.
    + rewrite map_app. assert (Eb : frames (dn ++ [m]) ++ frames ms ++ p = buf).
      { unfold buf. rewrite frames_app, frames_cons. cbn [frames flat_map]. rewrite app_nil_r, <- !app_assoc. reflexivity. }
      rewrite Eb, EI. cbn [map fst snd]. do 2 f_equal. rewrite El, app_assoc.
      replace (zlen (frames dn) + 4) with (zlen (frames dn ++ le32 (zlen m))) by (rewrite zlen_app; reflexivity). apply sub_mid.
    + assert (Eb : frames (dn ++ [m]) ++ frames ms ++ p = buf).
      { unfold buf. rewrite frames_app, frames_cons. cbn [frames flat_map]. rewrite app_nil_r, <- !app_assoc. reflexivity. }
      rewrite Eb in *. assert (Ec : zlen (frames (dn ++ [m])) = zlen (frames dn) + 4 + zlen m).
      { rewrite frames_app, zlen_app, frames_cons. cbn [frames flat_map]. rewrite app_nil_r, frame_len. lia. }
      rewrite Ec in E. exists iov'. rewrite <- app_assoc in E, M. split; [exact E|exact M].
Qed.
Lemma decode_spec wrote ms p : incomplete p -> Forall (fun m => zlen m <= MAX_FRAME) ms -> zlen (frames ms ++ p) <= BUFLEN ->
  decode_frames wrote (frames ms ++ p) =
    Ok (match ms with [] => SubOk None p | _ => if wrote ms then SubOk (Some ms) p else SubErr end).
Proof.
  intros P O L. unfold decode_frames.
  destruct (frame_loop_spec p P ms [] (S (length (frames ms ++ p))) [] O L) as (iov & E & M); [|reflexivity|reflexivity|].
  { pose proof (frames_count ms) as X. unfold zlen in X. rewrite app_length. lia. }
  cbn [frames flat_map app] in E, M. change (zlen []) with 0 in E. fold (frames ms) in *. rewrite E. cbn [obind].
  destruct ms as [|m ms].
  - destruct iov; [|discriminate]. reflexivity.
  - destruct iov as [|q iov]; [discriminate|]. rewrite M. destruct (wrote (m :: ms)); [|reflexivity]. do 3 f_equal.
    unfold zlen. rewrite Nat2Z.id, skipn_app, skipn_all, Nat.sub_diag. reflexivity.
Qed.
(** cutting a stream of frames anywhere *)
Lemma cut : forall ms x y, Forall (fun m => zlen m <= MAX_FRAME) ms -> x ++ y = frames ms ->
  exists ms1 ms2 p, ms = ms1 ++ ms2 /\ x = frames ms1 ++ p /\ p ++ y = frames ms2 /\ incomplete p
    /\ match ms2 with [] => p = [] | m :: _ => zlen p < 4 + zlen m end.
Proof.
  induction ms as [|m ms IH]; intros x y O E.
  - exists [], [], []. destruct x; [|discriminate]. destruct y; [|discriminate]. repeat split. left. reflexivity.
  - assert (Om : zlen m <= MAX_FRAME) by (inversion O; assumption). assert (Oms : Forall (fun m => zlen m <= MAX_FRAME) ms) by (inversion O; assumption).
    rewrite frames_cons in E. destruct (Z_lt_le_dec (zlen x) (4 + zlen m)) as [L|L].
    + exists [], (m :: ms), x. repeat split; auto.
      destruct (Z_lt_le_dec (zlen x) 4) as [L4|L4]; [left; exact L4|]. right. exists (zlen m). split; [split; [apply zlen_nonneg|exact Om]|].
      split; [|exact L]. assert (F : firstn 4 (x ++ y) = firstn 4 x).
      { rewrite firstn_app. replace (4 - length x)%nat with 0%nat by (unfold zlen in L4; lia). rewrite firstn_O, app_nil_r. reflexivity. }
      rewrite <- F, E. reflexivity.
    + assert (X : x = frame m ++ skipn (length (frame m)) x).
      { assert (F : firstn (length (frame m)) (x ++ y) = firstn (length (frame m)) x).
        { rewrite firstn_app. pose proof (frame_len m) as FL. unfold zlen in *. replace (length (frame m) - length x)%nat with 0%nat by lia. rewrite firstn_O, app_nil_r. reflexivity. }
        rewrite E in F. rewrite firstn_app, firstn_all, Nat.sub_diag, firstn_O, app_nil_r in F.
        rewrite F at 1. symmetry. apply firstn_skipn. }
      set (x' := skipn (length (frame m)) x) in *. clearbody x'. subst x. rewrite <- app_assoc in E. apply app_inv_head in E.
      destruct (IH x' y Oms E) as (ms1 & ms2 & p & -> & -> & E2 & I & T). exists (m :: ms1), ms2, p. rewrite frames_cons, <- app_assoc. auto.
Qed.

Lemma subscribe_spec : forall ks buf x y ms, Forall fits ms -> incomplete buf -> buf ++ x ++ y = frames ms ->
  exists ws b later, subscribe (fun _ => true) buf x ks = Ok (ws, b, true) /\ ms = concat ws ++ later /\ Forall (fun w => w <> []) ws
    /\ (zlen x <= zlen ks -> buf ++ x = frames (concat ws) ++ b /\ match later with [] => b = [] | m :: _ => zlen b < zlen (frame m) end).
Proof.
  induction ks as [|k ks IH]; intros buf x y ms O I E; cbn [subscribe].
  - exists [], buf, ms. repeat split; [constructor|..].
    + destruct x; [|rewrite zlen_cons in H; pose proof (zlen_nonneg x); cbn in H; lia]. rewrite app_nil_r. reflexivity.
    + destruct x; [|rewrite zlen_cons in H; pose proof (zlen_nonneg x); cbn in H; lia].
      assert (Of : Forall (fun m => zlen m <= MAX_FRAME) ms) by (eapply Forall_impl; [|exact O]; unfold fits, BUFLEN, MAX_FRAME; intros; lia).
      destruct (cut ms buf y Of E) as (ms1 & ms2 & p & -> & -> & _ & Ip & T).
      destruct ms1 as [|m1 ms1]; [cbn [app frames flat_map]; destruct ms2; [exact T|rewrite frame_len; exact T]|].
      exfalso. assert (m1l : zlen m1 <= MAX_FRAME) by (inversion Of; assumption). pose proof (zlen_nonneg m1). pose proof (zlen_nonneg (frames ms1 ++ p)).
      destruct I as [I|(n & Hn & En & I)].
      * rewrite frames_cons, <- app_assoc, zlen_app, frame_len in I. lia.
      * rewrite frames_cons in En, I. cbn in En. assert (EE : le32 (zlen m1) = le32 n) by exact En.
        apply (f_equal un32) in EE. rewrite !un32_le32 in EE by (unfold MAX_FRAME in *; lia). rewrite <- app_assoc, zlen_app, frame_len in I. lia.
  - destruct (Z.eqb_spec (zlen x) 0) as [Ex|Nx].
    { assert (x = []) by (destruct x; [reflexivity|rewrite zlen_cons in Ex; pose proof (zlen_nonneg x); lia]). subst x.
      destruct (IH buf [] y ms O I E) as (ws & b & later & S & M & W & T).
      assert (S0 : subscribe (fun _ => true) buf [] ks = Ok ([], buf, true)) by (destruct ks; reflexivity).
      rewrite S0 in S. injection S as <- <-. exists [], buf, later. split; [reflexivity|]. split; [exact M|]. split; [exact W|]. intros _. apply T. change (zlen (@nil Z)) with 0. apply zlen_nonneg. }
    assert (Of : Forall (fun m => zlen m <= MAX_FRAME) ms) by (eapply Forall_impl; [|exact O]; unfold fits, BUFLEN, MAX_FRAME; intros; lia).
    pose proof (zlen_nonneg x). pose proof (zlen_nonneg buf).
    assert (Lb : zlen buf < BUFLEN).
    { destruct (cut ms buf (x ++ y) Of E) as (ms1 & ms2 & p & Em & Eb & _ & Ip & T).
      destruct ms1 as [|m1 ms1].
      - cbn [frames flat_map app] in Eb. subst p. destruct ms2 as [|m2 ms2]; [rewrite T; reflexivity|]. assert (fits m2) by (subst ms; inversion O; assumption).
        unfold fits in *. lia.
      - exfalso. assert (m1l : zlen m1 <= MAX_FRAME) by (rewrite Em in Of; inversion Of; assumption). pose proof (zlen_nonneg m1). pose proof (zlen_nonneg (frames ms1 ++ p)).
        rewrite Eb in I. destruct I as [I|(n & Hn & En & I)].
        + rewrite frames_cons, <- app_assoc, zlen_app, frame_len in I. lia.
        + rewrite frames_cons in En, I. assert (EE : le32 (zlen m1) = le32 n) by exact En.
          apply (f_equal un32) in EE. rewrite !un32_le32 in EE by (unfold MAX_FRAME in *; lia). rewrite <- app_assoc, zlen_app, frame_len in I. lia. }
    unfold do_subscriber. replace (zlen buf <? BUFLEN) with true by lia.
    assert (N0 : 1 <= Z.min (Z.min (Z.max 1 k) (BUFLEN - zlen buf)) (zlen x) <= zlen x) by lia.
    assert (N2 : Z.min (Z.min (Z.max 1 k) (BUFLEN - zlen buf)) (zlen x) <= BUFLEN - zlen buf) by lia.
    set (nr := Z.min (Z.min (Z.max 1 k) (BUFLEN - zlen buf)) (zlen x)) in *. clearbody nr.
    replace (nr <=? 0) with false by lia.
    set (c := firstn (Z.to_nat nr) x). set (x' := skipn (Z.to_nat nr) x).
    assert (Ec : x = c ++ x') by (symmetry; apply firstn_skipn).
    assert (Lc : zlen c = nr) by (unfold c, zlen in *; rewrite firstn_length; lia).
    assert (Lx : zlen x = nr + zlen x') by (rewrite Ec, zlen_app; lia).
    clearbody c x'. subst x.
    destruct (cut ms (buf ++ c) (x' ++ y) Of) as (ms1 & ms2 & p & Em & Eb & Ey & Ip & T).
    { rewrite <- E, <- !app_assoc. reflexivity. }
    rewrite Eb, decode_spec; [|exact Ip|rewrite Em in Of; apply Forall_app in Of; apply Of|rewrite <- Eb, zlen_app; lia].
    cbn [obind]. assert (O2 : Forall fits ms2) by (rewrite Em in O; apply Forall_app in O; apply O).
    destruct (IH p x' y ms2 O2 Ip Ey) as (ws & b & later & S & M2 & W & T2).
    destruct ms1 as [|m1 ms1].
    + cbn [obind]. rewrite S. cbn [obind]. exists ws, b, later. cbn [app frames flat_map] in *. split; [reflexivity|]. split; [congruence|]. split; [exact W|].
      intros L. rewrite zlen_cons in L. rewrite app_assoc, Eb. apply T2. lia.
    + cbn [obind]. rewrite S. cbn [obind]. exists ((m1 :: ms1) :: ws), b, later. split; [reflexivity|]. cbn [concat]. split; [rewrite <- app_assoc; congruence|].
      split; [constructor; [discriminate|exact W]|]. intros L. rewrite zlen_cons in L. destruct T2 as [T2 T3]; [lia|]. split; [|exact T3].
      rewrite frames_app, <- app_assoc, <- T2, app_assoc, Eb, app_assoc. reflexivity.
Qed.
Lemma t_sub ms x y ks : Forall fits ms -> x ++ y = frames ms ->
  exists ws b later, subscribe (fun _ => true) [] x ks = Ok (ws, b, true) /\ ms = concat ws ++ later /\ Forall (fun w => w <> []) ws
    /\ (zlen x <= zlen ks -> x = frames (concat ws) ++ b /\ match later with [] => b = [] | m :: _ => zlen b < zlen (frame m) end).
Proof. intros O E. apply (subscribe_spec ks [] x y ms O); [left; reflexivity|exact E]. Qed.
Lemma t_sub_all ms ks : Forall fits ms -> zlen (frames ms) <= zlen ks ->
  exists ws, subscribe (fun _ => true) [] (frames ms) ks = Ok (ws, [], true) /\ concat ws = ms.
Proof.
  intros O L. destruct (t_sub ms (frames ms) [] ks O (app_nil_r _)) as (ws & b & later & S & M & _ & T). destruct (T L) as [T1 T2].
  assert (X : frames later = b). { rewrite M in T1 at 1. rewrite frames_app in T1. apply app_inv_head in T1. exact T1. }
  destruct later as [|m later].
  - subst b. exists ws. rewrite app_nil_r in M. auto.
  - exfalso. rewrite <- X, frames_cons, zlen_app in T2. pose proof (zlen_nonneg (frames later)). lia.
Qed.

(** ** the publisher *)
Lemma pub_body_spec : forall acc m, m <> [] -> Forall (fun k => 1 <= k) acc -> zlen m <= zlen acc -> pub_body m acc = Ok (m, true).
Proof.
  induction acc as [|k acc IH]; intros m Hm O L.
  { destruct m; [congruence|]. rewrite zlen_cons in L. pose proof (zlen_nonneg m). cbn in L. lia. }
  cbn [pub_body]. assert (Hk : 1 <= k) by (inversion O; assumption). replace (k <? 0) with false by lia. pose proof (zlen_nonneg m).
  assert (M1 : 1 <= zlen m) by (destruct m; [congruence|rewrite zlen_cons; pose proof (zlen_nonneg m); lia]).
  set (nr := Z.min k (zlen m)). assert (N : 1 <= nr <= zlen m) by lia. clearbody nr.
  assert (Ls : zlen (skipn (Z.to_nat nr) m) = zlen m - nr) by (unfold zlen in *; rewrite skipn_length; lia).
  rewrite Ls. rewrite zlen_cons in L. destruct (Z.gtb_spec (zlen m - nr) 0) as [G|G].
  - rewrite IH; [|intros X; rewrite X in Ls; cbn in Ls; lia|inversion O; assumption|lia]. cbn [obind]. rewrite firstn_skipn. reflexivity.
  - rewrite firstn_all2; [reflexivity|]. unfold zlen in *. lia.
Qed.
Lemma t_pub m k acc : 0 < zlen m -> 4 <= k -> Forall (fun k => 1 <= k) acc -> zlen m <= zlen acc -> pub_msg true m (k :: acc) = Ok (frame m, true).
Proof.
  intros Hm Hk O L. unfold pub_msg. replace (zlen m =? 0) with false by lia. replace (k <? 0) with false by lia. replace (4 <=? k) with true by lia.
  rewrite pub_body_spec; [reflexivity| |exact O|exact L]. intros ->. cbn in Hm. lia.
Qed.
(** whatever the writes return, what is sent is part of the frame *)
Lemma pub_body_prefix : forall acc m out up, pub_body m acc = Ok (out, up) -> (exists rest, m = out ++ rest) /\ (up = true -> out = m).
Proof.
  induction acc as [|k acc IH]; intros m out up H; cbn [pub_body] in H; [discriminate|].
  destruct (k <? 0); [injection H as <- <-; split; [exists m; reflexivity|discriminate]|].
  set (n := Z.to_nat (Z.min k (zlen m))) in *. destruct (zlen (skipn n m) >? 0) eqn:G.
  - destruct (pub_body (skipn n m) acc) as [[o u]| | |] eqn:E; cbn [obind] in H; try discriminate. injection H as <- <-.
    destruct (IH _ _ _ E) as [[rest R] U]. split.
    + exists rest. rewrite <- app_assoc, <- R, firstn_skipn. reflexivity.
    + intros Hu. rewrite (U Hu). apply firstn_skipn.
  - injection H as <- <-. split; [exists (skipn n m); rewrite firstn_skipn; reflexivity|]. intros _.
    assert (skipn n m = []) as X by (destruct (skipn n m); [reflexivity|rewrite zlen_cons in G; pose proof (zlen_nonneg l); lia]).
    rewrite <- (firstn_skipn n m) at 2. rewrite X, app_nil_r. reflexivity.
Qed.
Lemma t_pub_prefix m acc out up : pub_msg true m acc = Ok (out, up) -> 0 < zlen m -> (exists rest, frame m = out ++ rest) /\ (up = true -> out = frame m).
Proof.
  unfold pub_msg. intros H Hm. replace (zlen m =? 0) with false in H by lia. destruct acc as [|k acc]; [discriminate|].
  destruct (k <? 0); [injection H as <- <-; split; [exists (frame m); reflexivity|discriminate]|].
  destruct (4 <=? k); [|discriminate]. destruct (pub_body m acc) as [[o u]| | |] eqn:E; cbn [obind] in H; try discriminate. injection H as <- <-.
  destruct (pub_body_prefix _ _ _ _ E) as [[rest R] U]. unfold frame. split.
  - exists rest. cbn [app]. rewrite R at 2. reflexivity.
  - intros Hu. rewrite (U Hu). reflexivity.
Qed.

(** ** frames too long for the subscriber *)
Lemma sub_abort_gen wrote m : BUFLEN - 4 < zlen m <= MAX_FRAME -> forall ks buf x, buf ++ x = frame m -> zlen buf <= BUFLEN -> BUFLEN - zlen buf < zlen ks ->
  subscribe wrote buf x ks = Abort.
Proof.
  intros Hm. induction ks as [|k ks IH]; intros buf x E Lb Lk. { pose proof (zlen_nonneg buf). change (zlen (@nil Z)) with 0 in Lk. lia. }
  cbn [subscribe]. assert (Lx : zlen buf + zlen x = 4 + zlen m) by (rewrite <- frame_len, <- E, zlen_app; reflexivity).
  replace (zlen x =? 0) with false by lia. unfold do_subscriber.
  destruct (Z.ltb_spec (zlen buf) BUFLEN) as [L|L]; [|reflexivity].
  set (nr := Z.min (Z.min (Z.max 1 k) (BUFLEN - zlen buf)) (zlen x)).
  assert (N : 1 <= nr <= zlen x /\ nr <= BUFLEN - zlen buf) by lia. clearbody nr. replace (nr <=? 0) with false by lia.
  set (c := firstn (Z.to_nat nr) x). set (x' := skipn (Z.to_nat nr) x).
  assert (Ec : x = c ++ x') by (symmetry; apply firstn_skipn).
  assert (Lc : zlen c = nr) by (unfold c, zlen in *; rewrite firstn_length; lia). clearbody c x'. subst x.
  assert (I : incomplete (buf ++ c)).
  { destruct (Z_lt_le_dec (zlen (buf ++ c)) 4) as [G|G]; [left; exact G|right]. exists (zlen m). rewrite zlen_app in *. pose proof (zlen_nonneg m). split; [lia|]. split; [|lia].
    assert (F : firstn 4 ((buf ++ c) ++ x') = firstn 4 (buf ++ c)).
    { rewrite (firstn_app 4 (buf ++ c)). replace (4 - length (buf ++ c))%nat with 0%nat by (rewrite app_length; unfold zlen in *; lia). rewrite firstn_O, app_nil_r. reflexivity. }
    rewrite <- F, <- app_assoc, E. reflexivity. }
  pose proof (decode_spec wrote [] (buf ++ c) I (Forall_nil _)) as D. cbn [frames flat_map app] in D. rewrite D by (rewrite zlen_app; lia). cbn [obind].
  cbn [obind]. assert (Lk' : BUFLEN - zlen (buf ++ c) < zlen ks) by (rewrite zlen_app; rewrite zlen_cons in Lk; lia).
  rewrite IH; [reflexivity|rewrite <- app_assoc; exact E|rewrite zlen_app; lia|exact Lk'].
Qed.
Lemma t_sub_abort wrote m ks : BUFLEN - 4 < zlen m <= MAX_FRAME -> BUFLEN < zlen ks -> subscribe wrote [] (frame m) ks = Abort.
Proof. intros H L. apply (sub_abort_gen wrote m H); [reflexivity|unfold BUFLEN; cbn; lia|change (zlen (@nil Z)) with 0; lia]. Qed.
Lemma t_sub_overlong wrote n rest ks : MAX_FRAME < n < 4294967296 -> 4 < zlen ks ->
  exists b, subscribe wrote [] (le32 n ++ rest) ks = Ok ([], b, false).
Proof.
  intros Hn. assert (G : forall ks buf x, buf ++ x = le32 n ++ rest -> zlen buf < 4 -> 4 - zlen buf < zlen ks ->
    exists b, subscribe wrote buf x ks = Ok ([], b, false)).
  { clear ks. induction ks as [|k ks IH]; intros buf x E Lb Lk. { change (zlen (@nil Z)) with 0 in Lk. lia. }
    cbn [subscribe]. assert (Lx : zlen buf + zlen x = 4 + zlen rest) by (rewrite <- zlen_app, E, zlen_app; reflexivity). pose proof (zlen_nonneg rest). pose proof (zlen_nonneg buf).
    replace (zlen x =? 0) with false by lia. unfold do_subscriber. replace (zlen buf <? BUFLEN) with true by (unfold BUFLEN; lia).
    set (nr := Z.min (Z.min (Z.max 1 k) (BUFLEN - zlen buf)) (zlen x)).
    assert (N : 1 <= nr <= zlen x /\ nr <= BUFLEN - zlen buf) by (unfold nr, BUFLEN; lia). clearbody nr. replace (nr <=? 0) with false by lia.
    set (c := firstn (Z.to_nat nr) x). set (x' := skipn (Z.to_nat nr) x).
    assert (Ec : x = c ++ x') by (symmetry; apply firstn_skipn).
    assert (Lc : zlen c = nr) by (unfold c, zlen in *; rewrite firstn_length; lia). clearbody c x'. subst x.
    destruct (Z_lt_le_dec (zlen (buf ++ c)) 4) as [G|G].
    - pose proof (decode_spec wrote [] (buf ++ c) (or_introl G) (Forall_nil _)) as D. cbn [frames flat_map app] in D. rewrite D by (unfold BUFLEN; lia). cbn [obind].
      destruct (IH (buf ++ c) x') as [b Eb]; [rewrite <- app_assoc; exact E|exact G|rewrite zlen_app; rewrite zlen_cons in Lk; lia|]. exists b. cbn [obind]. rewrite Eb. reflexivity.
    - exists buf. assert (F : exists t, buf ++ c = le32 n ++ t).
      { exists (skipn 4 (buf ++ c)). rewrite <- (firstn_skipn 4 (buf ++ c)) at 1. f_equal.
        assert (F : firstn 4 ((buf ++ c) ++ x') = firstn 4 (buf ++ c)).
        { rewrite (firstn_app 4 (buf ++ c)). replace (4 - length (buf ++ c))%nat with 0%nat by (unfold zlen in *; lia). rewrite firstn_O, app_nil_r. reflexivity. }
        rewrite <- F, <- app_assoc, E. reflexivity. }
      destruct F as [t F]. rewrite F. unfold decode_frames. cbn [frame_loop].
      assert (Lt : zlen (le32 n ++ t) = 4 + zlen t) by (rewrite zlen_app; reflexivity). pose proof (zlen_nonneg t).
      rewrite Lt. replace (0 + 4 >? 4 + zlen t) with false by lia.
      change (le32 n ++ t) with ([] ++ le32 n ++ t) at 1. rewrite (rd_mid [] (le32 n) t) by reflexivity. cbn [obind].
      rewrite un32_le32 by (unfold MAX_FRAME in Hn; lia). replace (n >? MAX_FRAME) with true by lia. reflexivity. }
  intros L. apply G; [reflexivity|reflexivity|change (zlen (@nil Z)) with 0; lia].
Qed.
