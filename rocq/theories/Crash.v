(** * What a killed writer or reader leaves behind: proofs *)
From Verif Require Export MicroFacts CrashSpec.
From Verif Require Import RingFacts QueueFacts.

Fixpoint always {S R} (P : Z -> S -> Prop) (p : prog S R) (s : S) : Prop :=
  match p with
  | Ret _ => True
  | At l f => P l s /\ match f s with Ok sp => let '(s', p') := sp in always P p' s' | _ => True end
  end.
Lemma always_dies {S R} (P : Z -> S -> Prop) (p : prog S R) s l s' : dies_at p s l s' -> always P p s -> P l s'.
Proof.
  induction 1 as [line f s|line f s s1 p1 l s2 E D IH]; cbn [always]; intros [A B]; [exact A|].
  rewrite E in B. apply IH, B.
Qed.
Lemma always_impl {S R} (P Q : Z -> S -> Prop) : (forall l s, P l s -> Q l s) -> forall (p : prog S R) s, always P p s -> always Q p s.
Proof.
  intros H. fix IH 1. intros [x|l f] s; cbn [always]; [auto|]. intros [A B]. split; [apply H, A|].
  revert B. destruct (f s) as [[s' p']| | |]; [apply IH|auto..].
Qed.
Lemma always_at {S R} (P : Z -> S -> Prop) l (f : S -> outcome (S * prog S R)) s :
  P l s -> (forall s' p', f s = Ok (s', p') -> always P p' s') -> always P (At l f) s.
Proof. intros A B. cbn [always]. split; [exact A|]. destruct (f s) as [[s' p']| | |]; auto. Qed.

(** ** stores outside the window do no harm *)
Lemma win_frame r r' h old : Win r h old -> r_n r' = r_n r -> r_mm r' = r_mm r -> r_i r' = r_i r ->
  zlen (r_d r') = zlen (r_d r) -> zlen (r_mv r') = zlen (r_mv r) ->
  (forall k, old <= k < zlen h -> znth slot0 (r_mv r') (k mod r_mm r) = znth slot0 (r_mv r) (k mod r_mm r)) ->
  (forall x, start h old <= x < zlen (concat h) -> znth 0 (r_d r') (x mod r_n r) = znth 0 (r_d r) (x mod r_n r)) ->
  Win r' h old.
Proof.
  intros W En Em Ei Ld Lm Hs Hd. destruct W. constructor; rewrite ?En, ?Em, ?Ei; try assumption; try congruence.
  - intros k Hk. rewrite Hs by assumption. auto.
  - intros x Hx. rewrite Hd by assumption. auto.
Qed.
Lemma win_slot_junk r h old sl : Win r h old -> zlen h - old < r_mm r ->
  Win (r <| r_mv := zupd (r_mv r) (zlen h mod r_mm r) sl |>) h old.
Proof.
  intros W Hc. pose proof (w_mm _ _ _ W) as Hmm. pose proof (w_old _ _ _ W) as Ho.
  pose proof (Z.mod_pos_bound (zlen h) (r_mm r) ltac:(lia)) as Hp.
  apply (win_frame r); [exact W|reflexivity|reflexivity|reflexivity|reflexivity|apply zlen_zupd| |reflexivity].
  cbn [r_mv set].
  intros k Hk. rewrite znth_zupd by (try rewrite (w_mv _ _ _ W); try apply Z.mod_pos_bound; lia).
  destruct (Z.eqb_spec (k mod r_mm r) (zlen h mod r_mm r)) as [E|E]; [|reflexivity].
  apply mod_inj_window in E; lia.
Qed.
(** [d'] differs from [d] only where a message of length [len] at offset [i] goes *)
Definition junk (n i len : Z) (d d' : bytes) : Prop :=
  zlen d' = zlen d /\ forall y, 0 <= y < n -> ~ (i <= y < i + len) -> ~ (y < i + len - n) -> znth 0 d' y = znth 0 d y.
Lemma win_junk r h old d len : Win r h old -> 0 <= len -> zlen (concat h) + len - start h old <= r_n r ->
  junk (r_n r) (r_i r) len (r_d r) d -> Win (r <| r_d := d |>) h old.
Proof.
  intros W Hl Ho (L & J). pose proof (w_n _ _ _ W) as Hn. pose proof (w_i _ _ _ W) as Hi. pose proof (w_old _ _ _ W) as Hold.
  pose proof (start_nonneg h old) as Hs0. pose proof (start_le_tot h old ltac:(lia)) as Hs1.
  apply (win_frame r); [exact W|reflexivity|reflexivity|reflexivity|exact L|reflexivity|reflexivity|].
  cbn [r_d set].
  intros x Hx. pose proof (Z.mod_pos_bound x (r_n r) ltac:(lia)) as Hxb. apply J; [exact Hxb|..].
  - intros Hc. rewrite Hi in Hc.
    assert (E : x mod r_n r = (zlen (concat h) + (x mod r_n r - zlen (concat h) mod r_n r)) mod r_n r).
    { rewrite mod_add_cases by lia. pose proof (Z.mod_pos_bound (zlen (concat h)) (r_n r) ltac:(lia)).
      destruct (Z.ltb_spec (zlen (concat h) mod r_n r + (x mod r_n r - zlen (concat h) mod r_n r)) (r_n r)); lia. }
    apply mod_inj_window in E; lia.
  - intros Hc. rewrite Hi in Hc. pose proof (Z.mod_pos_bound (zlen (concat h)) (r_n r) ltac:(lia)) as Hb.
    assert (E : x mod r_n r = (zlen (concat h) + (x mod r_n r + (r_n r - zlen (concat h) mod r_n r))) mod r_n r).
    { rewrite mod_add_cases by lia.
      destruct (Z.ltb_spec (zlen (concat h) mod r_n r + (x mod r_n r + (r_n r - zlen (concat h) mod r_n r))) (r_n r)); lia. }
    apply mod_inj_window in E; lia.
Qed.

(** ** the copy loop *)
Lemma bytes_always {R} (P : Z -> ring -> Prop) line (k : prog ring R) : forall bs pos r,
  0 <= pos -> pos + zlen bs <= zlen (r_d r) ->
  (forall d, zlen d = zlen (r_d r) -> (forall y, 0 <= y < zlen d -> ~ (pos <= y < pos + zlen bs) -> znth 0 d y = znth 0 (r_d r) y) ->
     P line (r <| r_d := d |>)) ->
  always P k (r <| r_d := blit pos bs (r_d r) |>) -> always P (bytes_p line pos bs k) r.
Proof.
  induction bs as [|x t IH]; intros pos r Hp Hl HP HK; cbn [bytes_p].
  - rewrite blit_nil, set_d_id in HK. exact HK.
  - pose proof Hl as Hl2. rewrite zlen_cons in Hl2. pose proof (zlen_nonneg t). cbn [always]. split.
    + rewrite <- (set_d_id r). apply HP; reflexivity.
    + rewrite zset_ok by lia. cbn [obind]. apply IH; cbn [r_d set]; rewrite ?zlen_zupd; try lia.
      * intros d Ld Hd. apply (HP d); [congruence|]. rewrite zlen_cons. intros y Hy Ho.
        rewrite Hd by lia. rewrite znth_zupd by lia. destruct (Z.eqb_spec y pos); [lia|reflexivity].
      * rewrite (blit_cons 0) in HK by assumption. exact HK.
Qed.

(** [s] is [r] but for the slots, the data and the write offset *)
Definition framed (r s : ring) : Prop := s = r <| r_mv := r_mv s |> <| r_d := r_d s |> <| r_i := r_i s |>.
Lemma framed_refl r : framed r r.
Proof. destruct r; reflexivity. Qed.
Lemma framed_set r s mv d i : framed r s -> framed r (s <| r_mv := mv |> <| r_d := d |> <| r_i := i |>).
Proof. unfold framed. intros E. rewrite E. destruct r; reflexivity. Qed.

Lemma copy_always {R} (P : Z -> ring -> Prop) (k : prog ring R) r0 h0 iov0 old :
  (forall line s done rest, iov0 = done ++ rest -> rest <> [] -> 986 <= line <= 995 ->
     Win s (h0 ++ done) old -> framed r0 s -> P line s) ->
  (forall s, Win s (h0 ++ iov0) old -> framed r0 s -> always P k s) ->
  forall iov done r, iov0 = done ++ iov -> Win r (h0 ++ done) old -> framed r0 r -> nonempty iov ->
  zlen (concat (h0 ++ iov0)) - start (h0 ++ done) old <= r_n r -> zlen (h0 ++ iov0) - old <= r_mm r ->
  always P (copy_p iov (zlen (h0 ++ done) mod r_mm r) k) r.
Proof.
  intros HP HK. induction iov as [|b t IH]; intros done r E W F Hne Ho Hc; cbn [copy_p].
  { rewrite app_nil_r in E. subst iov0. apply HK; assumption. }
  assert (Hne' : nonempty t) by (inversion Hne; assumption).
  assert (Hb : 0 < zlen b) by (inversion Hne; assumption). clear Hne.
  pose proof (w_n _ _ _ W) as Hn. pose proof (w_mm _ _ _ W) as Hmm. pose proof (w_old _ _ _ W) as Hold.
  set (h := h0 ++ done) in *. set (p := zlen h mod r_mm r).
  assert (Ezl : zlen (h0 ++ iov0) = zlen h + zlen (b :: t)) by (rewrite E, app_assoc, zlen_app; reflexivity).
  assert (Ezc : zlen (concat (h0 ++ iov0)) = zlen (concat h) + zlen b + zlen (concat t)).
  { rewrite E, app_assoc, concat_app, zlen_app. cbn [concat]. rewrite zlen_app. unfold h; lia. }
  rewrite zlen_cons in Ezl. pose proof (zlen_nonneg t). pose proof (zlen_nonneg (concat t)).
  assert (Hp : 0 <= p < r_mm r) by (apply Z.mod_pos_bound; lia).
  assert (PP : forall line s, 986 <= line <= 995 -> Win s h old -> framed r0 s -> P line s).
  { intros line s Hl Ws Fs. apply (HP line s done (b :: t)); auto. discriminate. }
  apply always_at; [apply PP; [lia|exact W|exact F]|]. intros s1 p1 E1.
  destruct (zlen b >? 0); [|discriminate]. rewrite (zget_ok slot0) in E1 by (rewrite (w_mv _ _ _ W); lia). cbn [obind] in E1.
  rewrite zset_ok in E1 by (rewrite (w_mv _ _ _ W); lia). cbn [obind] in E1.
  injection E1 as <- <-.
  set (mv1 := zupd (r_mv r) p (mkslot (r_i r) (sl_len (znth slot0 (r_mv r) p)))).
  assert (W1 : Win (r <| r_mv := mv1 |>) h old) by (apply win_slot_junk; [exact W|lia]).
  assert (F1 : framed r0 (r <| r_mv := mv1 |>)).
  { pose proof (framed_set r0 r mv1 (r_d r) (r_i r) F) as G. destruct r; exact G. }
  apply always_at; [apply PP; [lia|exact W1|exact F1]|]. intros s1 p1 E1. cbn [r_mv set] in E1.
  assert (L1 : zlen mv1 = r_mm r) by (unfold mv1; rewrite zlen_zupd; apply (w_mv _ _ _ W)).
  rewrite (zget_ok slot0) in E1 by lia. cbn [obind] in E1. rewrite zset_ok in E1 by lia. cbn [obind] in E1.
  injection E1 as <- <-.
  assert (E2 : zupd mv1 p (mkslot (sl_pos (znth slot0 mv1 p)) (zlen b)) = zupd (r_mv r) p (mkslot (r_i r) (zlen b))).
  { unfold mv1 at 2. rewrite znth_zupd, Z.eqb_refl by (rewrite ?(w_mv _ _ _ W); lia). cbn [sl_pos].
    unfold mv1. apply set_nat_twice. }
  change ((r <| r_mv := mv1 |>) <| r_mv := zupd mv1 p (mkslot (sl_pos (znth slot0 mv1 p)) (zlen b)) |>)
    with (r <| r_mv := zupd mv1 p (mkslot (sl_pos (znth slot0 mv1 p)) (zlen b)) |>).
  rewrite E2. set (mv2 := zupd (r_mv r) p (mkslot (r_i r) (zlen b))) in *.
  set (r2 := r <| r_mv := mv2 |>).
  assert (W2 : Win r2 h old) by (apply win_slot_junk; [exact W|lia]).
  assert (F2 : forall d i, framed r0 (r2 <| r_d := d |> <| r_i := i |>)).
  { intros d i. pose proof (framed_set r0 r mv2 d i F) as G. destruct r; exact G. }
  assert (F2' : framed r0 r2) by (pose proof (F2 (r_d r2) (r_i r2)) as G; unfold r2 in *; destruct r; exact G).
  apply always_at; [apply PP; [lia|exact W2|exact F2']|]. intros s1 p1 E1.
  pose proof (w_i _ _ _ W) as Hi. pose proof (w_d _ _ _ W) as Hd.
  pose proof (start_nonneg h old) as Hs0. pose proof (start_le_tot h old ltac:(lia)) as Hs1.
  assert (Hib : 0 <= r_i r < r_n r) by (rewrite Hi; apply Z.mod_pos_bound; lia).
  change (r_i r2) with (r_i r) in E1. change (r_n r2) with (r_n r) in E1.
  set (wr := u64 (r_i r + zlen b) >? r_n r) in *.
  set (l1 := if wr then u64 (r_n r - r_i r) else zlen b) in *.
  set (l2 := if wr then u64 (zlen b - l1) else 0) in *.
  assert (HL : 0 <= l1 /\ 0 <= l2 /\ l1 + l2 = zlen b /\ r_i r + l1 <= r_n r /\ (l2 = 0 \/ r_i r + l1 = r_n r)).
  { unfold l2, l1, wr. rewrite (u64_small (r_i r + zlen b)) by lia. destruct (Z.gtb_spec (r_i r + zlen b) (r_n r)).
    - rewrite (u64_small (r_n r - r_i r)) by lia. rewrite u64_small by lia. lia.
    - lia. }
  rewrite rd_mem_ok in E1 by lia. cbn [obind] in E1.
  assert (E3 : (if l2 =? 0 then Ok [] else rd_mem l1 l2 b) = Ok (sub l1 l2 b)).
  { destruct (Z.eqb_spec l2 0) as [E0|]; [rewrite E0, sub_0_0; reflexivity|]. apply rd_mem_ok; lia. }
  rewrite E3 in E1. cbn [obind] in E1. injection E1 as <- <-.
  assert (Z1 : zlen (sub 0 l1 b) = l1) by (apply zlen_sub; lia).
  assert (Z2 : zlen (sub l1 l2 b) = l2) by (apply zlen_sub; lia).
  assert (WJ : forall d, junk (r_n r) (r_i r) (zlen b) (r_d r) d -> Win (r2 <| r_d := d |>) h old).
  { intros d J. apply win_junk with (len := zlen b); [exact W2|lia|change (r_n r2) with (r_n r); lia|exact J]. }
  assert (FD : forall d, framed r0 (r2 <| r_d := d |>)).
  { intros d. pose proof (F2 d (r_i r2)) as G. unfold r2 in *; destruct r; exact G. }
  set (d1 := blit (r_i r) (sub 0 l1 b) (r_d r)).
  assert (Ld1 : zlen d1 = r_n r) by (unfold d1; rewrite zlen_blit; lia).
  apply bytes_always; change (r_d r2) with (r_d r); [lia|lia| |].
  { intros d Ld Hd'. apply PP; [lia| |apply FD]. apply WJ. split; [exact Ld|]. intros y Hy N1 N2. apply Hd'; lia. }
  fold d1. apply bytes_always; cbn [r_d set]; [lia|lia| |].
  { intros d Ld Hd'. apply PP; [lia| |apply FD]. apply (WJ d). split; [lia|]. intros y Hy N1 N2.
    rewrite Hd' by lia. unfold d1. rewrite znth_blit by lia.
    destruct (Z.leb_spec (r_i r) y), (Z.ltb_spec y (r_i r + zlen (sub 0 l1 b))); cbn [andb]; try reflexivity. lia. }
  set (d2 := blit 0 (sub l1 l2 b) d1).
  change ((r2 <| r_d := d1 |>) <| r_d := d2 |>) with (r2 <| r_d := d2 |>).
  assert (Ed2 : d2 = ring_put (r_d r) (r_n r) (r_i r) b).
  { pose proof (ring_put_model r b (zlen (concat h)) Hn Hd Hi ltac:(lia)) as M. cbv zeta in M. fold wr in M. fold l1 in M. fold l2 in M.
    rewrite rd_mem_ok in M by lia. cbn [obind] in M. rewrite wr_mem_ok in M by lia. cbn [obind] in M. fold d1 in M.
    destruct (Z.eqb_spec l2 0) as [E0|E0].
    - injection M as <-. unfold d2. rewrite E0, sub_0_0, blit_nil. reflexivity.
    - rewrite rd_mem_ok in M by lia. cbn [obind] in M. rewrite wr_mem_ok in M by lia. injection M as <-. reflexivity. }
  apply always_at.
  { apply PP; [lia| |apply FD]. apply WJ. split; [unfold d2; rewrite zlen_blit; lia|]. intros y Hy N1 N2.
    unfold d2. rewrite znth_blit by lia. unfold d1. rewrite znth_blit by lia. rewrite Z1, Z2.
    destruct (Z.leb_spec (r_i r) y), (Z.ltb_spec y (r_i r + l1)), (Z.leb_spec 0 y), (Z.ltb_spec y (0 + l2)); cbn [andb]; try reflexivity; lia. }
  intros s1 p1 E1. change (r_i (r2 <| r_d := d2 |>)) with (r_i r) in E1. change (r_n (r2 <| r_d := d2 |>)) with (r_n r) in E1.
  rewrite umod_ok in E1 by lia. cbn [obind] in E1. injection E1 as <- <-.
  rewrite (u64_small (r_i r + zlen b)) by lia.
  change (r_mm (r2 <| r_d := d2 |>)) with (r_mm r). rewrite (u64_small (p + 1)) by lia.
  unfold p. rewrite mod_step by lia.
  set (r3 := (r2 <| r_d := d2 |>) <| r_i := (r_i r + zlen b) mod r_n r |>).
  assert (E4 : r3 = put_one r h b).
  { unfold r3, put_one, r2. rewrite Ed2. fold p. fold mv2.
    replace ((zlen (concat h) + zlen b) mod r_n r) with ((r_i r + zlen b) mod r_n r) by (rewrite Hi; apply Zplus_mod_idemp_l). reflexivity. }
  assert (Ez : zlen (h0 ++ done ++ [b]) = zlen h + 1) by (rewrite app_assoc, zlen_app; reflexivity).
  rewrite <- Ez. change (r_mm r) with (r_mm r3). apply IH.
  - rewrite <- app_assoc. exact E.
  - rewrite E4. rewrite app_assoc. fold h. apply win_put; try assumption; lia.
  - apply F2.
  - exact Hne'.
  - change (r_n r3) with (r_n r). rewrite app_assoc. fold h. rewrite start_app by lia. lia.
  - change (r_mm r3) with (r_mm r). lia.
Qed.

(** ** the write section *)
Lemma win_prefix r h ms old : Win r (h ++ ms) old -> old <= zlen h ->
  Win (r <| r_i := zlen (concat h) mod r_n r |>) h old.
Proof.
  intros W Ho. pose proof (zlen_app h ms) as E1. pose proof (zlen_nonneg ms).
  assert (E2 : zlen (concat (h ++ ms)) = zlen (concat h) + zlen (concat ms)) by (rewrite concat_app, zlen_app; reflexivity).
  pose proof (zlen_nonneg (concat ms)). pose proof (w_old _ _ _ W) as Hold. pose proof (w_n _ _ _ W).
  destruct W as [A1 A2 A3 A4 A5 A6 A7 A8 A9 A10 A11]. rewrite start_app in * by lia.
  constructor; cbn [r_n r_mm r_d r_mv r_i set]; try assumption; try lia.
  - apply Forall_app in A9; apply A9.
  - intros k Hk. rewrite A10 by lia. rewrite start_app, hmsg_app1 by lia. reflexivity.
  - intros x Hx. rewrite A11 by lia. rewrite concat_app, znth_app1 by (pose proof (start_nonneg h old); lia). reflexivity.
Qed.

(** same as far as a reader of a ring without SHR_FARM can tell *)
Definition agree (s s0 : ring) : Prop :=
  r_gflags s = r_gflags s0 /\ r_n s = r_n s0 /\ r_mm s = r_mm s0 /\ r_d s = r_d s0 /\ r_mv s = r_mv s0
  /\ r_r s = r_r s0 /\ r_m s = r_m s0.
Lemma agree_refl s : agree s s.
Proof. repeat split. Qed.
Lemma walk_agree s s0 : r_mm s = r_mm s0 -> r_d s = r_d s0 -> r_mv s = r_mv s0 -> forall c p, walk s p c = walk s0 p c.
Proof. intros A B C. induction c as [|c IH]; intros p; cbn [walk]; [reflexivity|]. rewrite A, B, C, IH. reflexivity. Qed.
Lemma unread_agree s s0 : agree s s0 -> ring_unread s = ring_unread s0.
Proof. intros (_ & _ & A & B & C & D & E). unfold ring_unread. rewrite D, E. apply walk_agree; assumption. Qed.

(** [s], left by a process killed at [line], reads like [s0], and is [s0] if
    the process was not between stores that belong together *)
Definition left (r : ring) (h iov : list bytes) (safe : bool) (line : Z) (s : ring) : Prop := 949 <= line /\ exists s0,
  agree s s0 /\ (safe = true -> s = s0)
  /\ ((line < 1004 /\ Inv0 s0 h /\ r_m s0 = r_m r) \/ (1004 <= line /\ Inv0 s0 (h ++ iov) /\ r_m s0 = r_m r + zlen iov))
  /\ same_fixed r s0
  /\ (r_farm r = true -> 979 <= line -> r_m s0 = r_mp s0)
  /\ (line < 1004 -> r_mp s0 = r_mp r \/ lastn (r_mp s0) h = fit_suffix (r_n r) (r_mm r) iov (lastn (r_mp r) h)).

Lemma left_self r h iov b line : Inv0 r h -> 949 <= line < 979 -> left r h iov b line r.
Proof. intros I L. split; [lia|]. exists r. split; [apply agree_refl|]. split; [auto|]. split; [left; auto with zarith|]. split; [apply same_fixed_refl|]. split; [lia|auto]. Qed.

Lemma evict_always {R} (P : Z -> ring -> Prop) smm len n niov i (k : Z -> Z -> Z -> prog ring R) r : P 961 r -> forall mp e a,
  (forall e' a' mp', evict_loop mp (r_mv r) n smm len niov i e a = Ok (e', a', mp') -> always P (k e' a' mp') r) ->
  always P (evict_p smm len mp n niov i e a k) r.
Proof.
  intros HP. induction mp as [|mp IH]; intros e a HK; cbn [evict_p evict_loop] in *; [apply HK; reflexivity|].
  apply always_at; [exact HP|]. intros s' p' E.
  destruct (zget (r_mv r) e) as [sl| | |]; cbn [obind] in *; try discriminate.
  match type of E with context [if ?c then _ else _] => destruct c end.
  - injection E as <- <-. apply HK. reflexivity.
  - injection E as <- <-. apply IH. intros e' a' mp' E'. apply HK. exact E'.
Qed.

Lemma commit_always r h iov woken : Inv0 r h -> nonempty iov -> iov <> [] ->
  has_space r (nbytes iov) (zlen iov) ->
  (r_farm r = true -> forall j, r_m r < j <= r_mp r -> ~ fits (r_n r) (r_mm r) (nbytes iov) (zlen iov) h j) ->
  always (fun line s => left r h iov (negb (torn_commit r s line)) line s) (commit_p (r_mm r) iov (nbytes iov) woken) r.
Proof.
  intros I Hne Hnn Hsp HF. pose proof (i_win _ _ I) as W. pose proof (i_m _ _ I) as Hm.
  pose proof (w_n _ _ _ W) as Hn. pose proof (w_mm _ _ _ W) as Hmm.
  pose proof (w_old _ _ _ W) as Hold. pose proof (w_cnt _ _ _ W) as Hcnt.
  pose proof (inv_u_le _ _ I) as Hu.
  set (len := nbytes iov) in *. set (niov := zlen iov) in *.
  assert (Hlen : 0 < len /\ 0 < niov).
  { destruct (iov_ok_pos len niov iov) as [A B]; [|auto]. repeat split; auto; lia. }
  pose proof (proj2 (fits_m r h len niov I) Hsp) as Fm.
  destruct Hsp as [Sp1 Sp2].
  unfold commit_p. fold niov. set (P := fun line s => left r h iov _ line s).
  apply always_at; [apply left_self; [exact I|lia]|]. intros s1 p1 E1.
  destruct (u64 (r_n r - r_u r) >=? len); [|discriminate]. destruct (u64 (r_m r + niov) <=? r_mm r); [|discriminate].
  destruct (r_mp r <=? r_mm r); [|discriminate]. injection E1 as <- <-.
  apply evict_always; [apply left_self; [exact I|lia]|]. intros e a mp EV.
  destruct (evict_ok h len niov (Z.to_nat (r_mp r)) r 0) as (keep & E & B & F & M).
  { rewrite Z2Nat.id by lia. exact W. }
  all: try lia.
  rewrite Z2Nat.id in * by lia. rewrite (i_e _ _ I), E in EV. injection EV as <- <- <-.
  assert (Hk : r_m r <= keep).
  { destruct (Z_lt_ge_dec keep (r_m r)); [|lia]. exfalso; apply (M (r_m r)); [lia|exact Fm]. }
  assert (Fk : fits (r_n r) (r_mm r) len niov h keep).
  { destruct F as [->|F]; [|exact F]. eapply fits_mono; [exact Fm|lia|lia]. }
  assert (HFk : r_farm r = true -> r_m r = keep).
  { intros Hf. destruct (Z_lt_ge_dec (r_m r) keep); [|lia]. exfalso. apply (HF Hf keep); [lia|exact Fk]. }
  assert (KEEP : lastn keep h = fit_suffix (r_n r) (r_mm r) iov (lastn (r_mp r) h)).
  { symmetry. apply fit_suffix_lastn; try lia; try assumption. }
  set (e' := (zlen h - keep) mod r_mm r). set (q' := u64 (r_q r + (r_mp r - keep))).
  assert (AG : forall e q, agree (r <| r_e := e |> <| r_q := q |>) r) by (intros; repeat split).
  apply always_at; [apply left_self; [exact I|lia]|]. intros s1 p1 E1. injection E1 as <- <-.
  apply always_at; [|intros s1 p1 E1; injection E1 as <- <-].
  { split; [lia|]. exists r. split; [repeat split|]. split.
    - unfold torn_commit. change (975 =? 975) with true. cbn [orb andb r_e r_q set]. rewrite Z.eqb_refl, andb_true_r.
      change (1000 <=? 975) with false. change (986 <=? 975) with false. cbn [andb orb]. rewrite orb_false_r, negb_involutive, ?andb_true_r, Z.eqb_eq.
      intros Ee. rewrite Ee. destruct r; reflexivity.
    - split; [left; auto with zarith|]. split; [apply same_fixed_refl|]. split; [lia|auto]. }
  apply always_at; [|intros s1 p1 E1; injection E1 as <- <-].
  { split; [lia|]. exists r. split; [repeat split|]. split.
    - unfold torn_commit. change (976 =? 976) with true. cbn [orb andb r_e r_q set].
      change (1000 <=? 976) with false. change (986 <=? 976) with false. cbn [andb orb]. rewrite orb_true_r, orb_false_r. cbn [andb].
      rewrite negb_involutive, andb_true_iff, !Z.eqb_eq.
      intros [Ee Eq]. change (r_q (r <| r_e := e' |>)) with (r_q r) in *. rewrite Ee, Eq. destruct r; reflexivity.
    - split; [left; auto with zarith|]. split; [apply same_fixed_refl|]. split; [lia|auto]. }
  set (rc := r <| r_e := e' |> <| r_q := q' |> <| r_mp := keep |>).
  match goal with |- always _ _ ?x => change x with rc end.
  assert (W1 : Win rc h (zlen h - keep)).
  { pose proof (win_shrink r h _ (zlen h - keep) W ltac:(lia)) as W1. eapply win_ext; [exact W1|reflexivity..]. }
  assert (SF : same_fixed r rc) by (unfold rc; destruct r; repeat split).
  (* a ring with rc's fields whose window is right *)
  assert (IK : forall s, Win s h (zlen h - keep) -> framed rc s -> Inv0 s h /\ r_m s = r_m r /\ r_mp s = keep /\ same_fixed r s).
  { intros s Ws Fs. rewrite Fs in Ws |- *. clear Fs.
    split; [|split; [reflexivity|split; [reflexivity|destruct r; repeat split]]].
    constructor; cbn [rc r_mp r_m r_e r_r r_q r_u r_mm set]; try lia.
    - exact Ws.
    - apply (i_r _ _ I).
    - unfold q'. rewrite (i_q _ _ I). rewrite u64_add_l. f_equal; lia.
    - apply (i_u _ _ I). }
  destruct (IK rc W1 (framed_refl rc)) as (I1 & Em1 & Ep1 & SF1).
  apply always_at.
  { split; [lia|]. exists rc. split; [apply agree_refl|]. split; [reflexivity|]. split; [left; auto with zarith|]. split; [exact SF1|].
    split; [intros Hf _; rewrite Em1, Ep1; auto|]. intros _. right. rewrite Ep1. exact KEEP. }
  intros s1 p1 E1. change (r_mm rc) with (r_mm r) in E1. change (r_e rc) with e' in E1. change (r_mp rc) with keep in E1.
  rewrite umod_ok in E1 by lia. cbn [obind] in E1. injection E1 as <- <-.
  pose proof (Z.mod_pos_bound (zlen h - keep) (r_mm r) ltac:(lia)) as Hp. fold e' in Hp.
  rewrite (u64_small (e' + keep)) by lia.
  replace ((e' + keep) mod r_mm r) with (zlen (h ++ []) mod r_mm rc)
    by (rewrite app_nil_r; unfold e'; rewrite Zplus_mod_idemp_l; f_equal; lia).
  destruct Fk as [Fk1 Fk2].
  (* the states in which the window already reaches over some of iov *)
  assert (BACK : forall line done s, Win s (h ++ done) (zlen h - keep) -> framed rc s -> 949 <= line < 1004 ->
     (negb (torn_commit r s line) = true -> r_i s = r_i r) -> left r h iov (negb (torn_commit r s line)) line s).
  { intros line done s Ws Fs Hl Ht. set (s0 := s <| r_i := zlen (concat h) mod r_n s |>).
    assert (W0 : Win s0 h (zlen h - keep)) by (apply win_prefix with done; [exact Ws|lia]).
    assert (En : r_n s = r_n r) by (rewrite Fs; reflexivity).
    assert (F0 : framed rc s0).
    { unfold s0. pose proof (framed_set rc s (r_mv s) (r_d s) (zlen (concat h) mod r_n s) Fs) as G.
      destruct s; exact G. }
    destruct (IK s0 W0 F0) as (I0 & Em0 & Ep0 & SF0).
    split; [lia|]. exists s0. split; [repeat split|]. split.
    - intros Ht'. specialize (Ht Ht'). unfold s0. rewrite En, <- (w_i _ _ _ W), <- Ht. destruct s; reflexivity.
    - split; [left; split; [lia|auto]|]. split; [exact SF0|]. split; [intros Hf _; rewrite Em0, Ep0; auto|]. intros _. right. rewrite Ep0. exact KEEP. }
  apply (copy_always P _ rc h iov (zlen h - keep)) with (done := []).
  - intros line s done rest Ei Hr Hl Ws Fs. apply (BACK line done s Ws Fs); [lia|].
    unfold torn_commit. destruct (Z.leb_spec 986 line); [|lia]. destruct (Z.leb_spec line 995); [|lia]. cbn [andb].
    intros X. rewrite negb_true_iff in X. apply orb_false_iff in X. destruct X as [_ X].
    apply negb_false_iff, Z.eqb_eq in X. exact X.
  - intros s Ws Fs.
    assert (TORN : forall s line, line = 1000 \/ line = 1001 \/ line = 1002 -> torn_commit r s line = true).
    { intros s' line [->|[->| ->]]; reflexivity. }
    assert (AGR : forall s' line, agree s' s -> line = 1000 \/ line = 1001 \/ line = 1002 ->
       left r h iov (negb (torn_commit r s' line)) line s').
    { intros s' line A Hl. destruct (BACK 1000 iov s Ws Fs ltac:(lia)) as (_ & s0 & A0 & _ & X & Y & Zf & Zk).
      { rewrite (TORN s) by lia. discriminate. }
      split; [lia|]. exists s0. split; [unfold agree in *; intuition congruence|]. split; [rewrite TORN by exact Hl; discriminate|].
      split; [|split; [exact Y|]].
      - destruct X as [(_ & X)|X]; [left; split; [lia|exact X]|lia].
      - split; [intros Hf _; apply Zf; [exact Hf|lia]|]. intros _. apply Zk. lia. }
    apply always_at; [apply AGR; [apply agree_refl|lia]|]. intros s1 p1 E1. injection E1 as <- <-.
    apply always_at; [apply AGR; [repeat split|lia]|]. intros s1 p1 E1. injection E1 as <- <-.
    apply always_at; [apply AGR; [repeat split|lia]|]. intros s1 p1 E1. injection E1 as <- <-.
    match goal with |- always _ _ ?x => set (s2 := x) end.
    assert (I2 : Inv0 s2 (h ++ iov) /\ r_m s2 = r_m r + niov /\ r_mp s2 = keep + niov /\ same_fixed r s2).
    { unfold s2. rewrite Fs in Ws |- *. clear Fs AGR. assert (Hzl : zlen (h ++ iov) = zlen h + niov) by apply zlen_app.
      split; [|split; [|split; [|destruct r; repeat split]]].
      - constructor; cbn [rc r_e r_q r_mp r_u r_m r_mm r_r set]; rewrite ?Hzl; u64s; try lia.
        + replace (zlen h + niov - (keep + niov)) with (zlen h - keep) by lia.
          eapply win_ext; [exact Ws|reflexivity..].
        + unfold e'; f_equal; lia.
        + rewrite (i_r _ _ I). f_equal; lia.
        + unfold q'. rewrite (i_q _ _ I). rewrite u64_add_l. f_equal; lia.
        + rewrite concat_app, zlen_app. fold (nbytes iov). fold len. rewrite (i_u _ _ I).
          replace (zlen h + niov - (r_m r + niov)) with (zlen h - r_m r) by lia.
          rewrite start_app by lia. lia.
      - cbn [rc r_m set]. u64s. reflexivity.
      - cbn [rc r_mp set]. u64s. reflexivity. }
    destruct I2 as (I2 & Em2 & Ep2 & SF2).
    assert (ST : forall st line, 1004 <= line -> left r h iov (negb (torn_commit r (s2 <| r_stat := st |>) line)) line (s2 <| r_stat := st |>)).
    { intros st line Hl. split; [lia|]. exists (s2 <| r_stat := st |>). split; [apply agree_refl|]. split; [reflexivity|].
      split; [|split; [|split; [intros Hf _|lia]]].
      - right. split; [exact Hl|]. split; [|exact Em2].
        destruct I2 as [Wx ? ? ? ? ?]; constructor; cbn [r_mp r_m r_e r_r r_q r_u r_mm set]; try assumption.
        eapply win_ext; [exact Wx|reflexivity..].
      - exact SF2.
      - change (r_m s2 = r_mp s2). rewrite Em2, Ep2. rewrite HFk by exact Hf. reflexivity. }
    clearbody s2. clear Ws Fs AGR.
    apply always_at; [pose proof (ST (r_stat s2) 1004 ltac:(lia)) as G; destruct s2; exact G|]. intros s1 p1 E1. injection E1 as <- <-.
    destruct woken; [|exact I0 || exact Logic.I].
    apply always_at; [pose proof (ST (r_stat s2) 1006 ltac:(lia)) as G; destruct s2; exact G|]. intros s1 p1 E1. injection E1 as <- <-.
    apply always_at; [apply ST; lia|]. intros s1 p1 E1. injection E1 as <- <-. exact Logic.I.
  - reflexivity.
  - rewrite app_nil_r. exact W1.
  - apply framed_refl.
  - exact Hne.
  - rewrite app_nil_r. change (r_n rc) with (r_n r). rewrite concat_app, zlen_app. fold (nbytes iov). fold len. lia.
  - change (r_mm rc) with (r_mm r). rewrite zlen_app. fold niov. lia.
Qed.

Lemma drop_loop_always {R} (P : Z -> ring -> Prop) smm niov need am ab (k : Z -> Z -> Z -> prog ring R) r :
  P 656 r -> P 655 r -> forall fuel i z p,
  (forall i' z' p', drop_loop fuel (r_mv r) smm niov need am ab i z p = Ok (i', z', p') -> always P (k i' z' p') r) ->
  always P (drop_loop_p smm fuel niov need am ab i z p k) r.
Proof.
  intros H6 H5. induction fuel as [|fuel IH]; intros i z p HK; cbn [drop_loop_p drop_loop] in *; destruct (_ || _).
  - apply always_at; [exact H5|discriminate].
  - apply HK; reflexivity.
  - apply always_at; [exact H6|]. intros s' p' E.
    destruct (zget (r_mv r) p) as [sl| | |]; cbn [obind] in *; try discriminate.
    injection E as <- <-. apply IH. exact HK.
  - apply HK; reflexivity.
Qed.

Lemma drop_always {R} (P : Z -> ring -> Prop) smm need niov (k : prog ring R) r r1 :
  drop_unread r smm need niov = Ok r1 ->
  P 639 r -> P 655 r -> P 656 r -> P 662 r ->
  (forall s, P 663 s) -> (forall s, P 664 s) ->
  (forall st line, 665 <= line <= 668 -> P line (r1 <| r_stat := st |>)) ->
  always P k r1 -> always P (drop_p smm need niov k) r.
Proof.
  intros HD H1 H2 H3 H4 T1 T2 HS HK. unfold drop_p, drop_unread in *.
  remember (S (Z.to_nat (r_mm r))) as fuel.
  apply always_at; [exact H1|]. intros s p E.
  destruct (r_drop r); [|discriminate]. destruct (r_mm r >=? niov); [|discriminate]. destruct (r_m r <=? r_mp r); [|discriminate].
  destruct (r_m r <=? r_mm r); [|discriminate]. destruct (negb (r_mp r =? 0)); [|discriminate].
  subst fuel. match type of E with Ok (_, ?x) = _ => set (body := x) in E end. injection E as <- <-. unfold body. clear body.
  apply drop_loop_always; [exact H3|exact H2|]. intros i z p ED. rewrite ED in HD. cbn [obind] in HD.
  set (rr := r <| r_r := p |> <| r_u := u64 (r_u r - z) |> <| r_m := u64 (r_m r - i) |>
       <| r_stat := r_stat r <| st_bd := u64 (st_bd (r_stat r) + z) |> <| st_md := u64 (st_md (r_stat r) + i) |> |>) in *.
  destruct (u64 (r_n rr - r_u rr) >=? need) eqn:A1; [|discriminate].
  destruct (u64 (r_mm rr - r_m rr) >=? niov) eqn:A2; [|discriminate].
  injection HD as <-.
  set (r2 := r <| r_r := p |> <| r_u := u64 (r_u r - z) |> <| r_m := u64 (r_m r - i) |>).
  assert (HS' : forall st line, 665 <= line <= 668 -> P line (r2 <| r_stat := st |>)).
  { intros st line Hl. apply (HS st line Hl). }
  apply always_at; [exact H4|]. intros s p1 E. injection E as <- <-.
  apply always_at; [apply T1|]. intros s p1 E. injection E as <- <-.
  apply always_at; [apply T2|]. intros s p1 E. injection E as <- <-.
  apply always_at; [apply (HS' (r_stat r2)); lia|]. intros s p1 E. injection E as <- <-.
  apply always_at; [apply HS'; lia|]. intros s p1 E. injection E as <- <-.
  apply always_at; [apply HS'; lia|]. intros s p1 E.
  match type of E with context [r_n ?x] => change x with rr in E end. rewrite A1, A2 in E.
  injection E as <- <-. exact HK.
Qed.

Lemma left_inv r h iov b line s : left r h iov b line s -> Inv0 r h -> exists s0 hh,
  agree s s0 /\ (b = true -> s = s0) /\ Inv0 s0 hh /\ same_fixed r s0
  /\ (hh = h /\ line < 1004 \/ hh = h ++ iov /\ 1004 <= line)
  /\ ring_unread s = (if line <? 1004 then ring_unread r else ring_unread r ++ iov)
  /\ (r_farm r = true -> 979 <= line -> r_m s0 = r_mp s0)
  /\ (line < 1004 -> r_mp s0 = r_mp r \/ lastn (r_mp s0) h = fit_suffix (r_n r) (r_mm r) iov (lastn (r_mp r) h)).
Proof.
  intros (_ & s0 & A & B & C & D & E & G) I. pose proof (i_win _ _ I) as W. pose proof (w_old _ _ _ W). pose proof (i_m _ _ I).
  destruct C as [(L & I0 & M0)|(L & I0 & M0)].
  - exists s0, h. split; [exact A|]. split; [exact B|]. split; [exact I0|]. split; [exact D|]. split; [auto|]. split; [|split; [exact E|exact G]].
    rewrite (unread_agree _ _ A), (unread_eq _ _ I0), M0. destruct (Z.ltb_spec line 1004); [|lia].
    symmetry; apply unread_eq, I.
  - exists s0, (h ++ iov). split; [exact A|]. split; [exact B|]. split; [exact I0|]. split; [exact D|]. split; [auto|]. split; [|split; [exact E|exact G]].
    rewrite (unread_agree _ _ A), (unread_eq _ _ I0), M0. destruct (Z.ltb_spec line 1004); [lia|].
    rewrite (unread_eq _ _ I). apply lastn_app; lia.
Qed.

(** what is unread after a writer of [iov] is killed at [line] *)
Definition unread_at (r : ring) (iov : list bytes) (line : Z) : list bytes :=
  let rest := fit_suffix (r_n r) (r_mm r) iov (ring_unread r) in
  if (line =? 929) || (line <=? 662) then ring_unread r
  else if line <? 1004 then rest else rest ++ iov.

Definition left_w (r : ring) (h iov : list bytes) (line : Z) (s : ring) : Prop :=
  line <> 663 -> line <> 664 -> exists s0 hh,
  agree s s0 /\ (torn r s line = false -> s = s0 /\ Inv s hh) /\ Inv0 s0 hh /\ same_fixed r s0
  /\ (hh = h /\ line < 1004 \/ hh = h ++ iov /\ 1004 <= line)
  /\ ring_unread s = unread_at r iov line
  /\ (line < 1004 -> r_mp s0 = r_mp r \/ line <> 929 /\ 662 < line /\ lastn (r_mp s0) h = fit_suffix (r_n r) (r_mm r) iov (lastn (r_mp r) h))
  /\ (line = 929 \/ line <= 662 \/ room (r_n r) (r_mm r) iov (ring_unread r) = true \/ r_drop r = true).

Lemma write_always r h iov woken : Inv r h -> iov_ok (r_n r) (r_mm r) iov ->
  always (left_w r h iov) (write_p (r_mm r) iov (nbytes iov) woken) r.
Proof.
  intros II Hok. pose proof Hok as (Hnn & Hne & Hl & Hc). pose proof (i_inv0 _ _ II) as I.
  pose proof (i_win _ _ I) as W. pose proof (i_m _ _ I) as Hm.
  pose proof (w_n _ _ _ W) as Hn. pose proof (w_mm _ _ _ W) as Hmm.
  pose proof (w_cnt _ _ _ W) as Hcnt. pose proof (w_old _ _ _ W) as Hold.
  destruct (iov_ok_pos (r_n r) (r_mm r) iov Hok) as [Lp Cp].
  pose proof (wr_space_iff r h (nbytes iov) (zlen iov) I ltac:(lia) ltac:(lia)) as WS.
  assert (SELF : forall line, line = 929 \/ line <= 662 -> left_w r h iov line r).
  { intros line Hline _ _. exists r, h. split; [apply agree_refl|]. split; [intros _; auto|]. split; [exact I|].
    split; [apply same_fixed_refl|]. split; [left; split; [reflexivity|lia]|]. unfold unread_at.
    split; [|split; [auto|tauto]].
    destruct (Z.eqb_spec line 929), (Z.leb_spec line 662); cbn [orb]; try reflexivity; lia. }
  unfold write_p. apply always_at; [apply SELF; auto|]. intros s p E.
  assert (FH : forall r1 i, r_m r1 = r_m r - i -> r_mp r1 = r_mp r -> same_fixed r r1 -> 0 <= i <= r_m r ->
      (forall j, 0 <= j < i -> ~ fits (r_n r) (r_mm r) (nbytes iov) (zlen iov) h (r_m r - j)) ->
      r_farm r1 = true -> forall j, r_m r1 < j <= r_mp r1 -> ~ fits (r_n r1) (r_mm r1) (nbytes iov) (zlen iov) h j).
  { intros r1 i Em Emp SF Hi Hmin Hf j Hj. pose proof SF as (_ & En & Emm & _). rewrite En, Emm.
    rewrite (same_fixed_farm _ _ SF) in Hf. destruct (i_farm _ _ II Hf) as [EE _].
    replace j with (r_m r - (r_m r - j)) by lia. apply Hmin. lia. }
  (* the commit after the drop *)
  assert (FIN : forall r1 i, Inv0 r1 h -> same_fixed r r1 -> r_mp r1 = r_mp r -> r_e r1 = r_e r -> r_q r1 = r_q r -> r_i r1 = r_i r ->
      r_m r1 = r_m r - i -> 0 <= i <= r_m r -> has_space r1 (nbytes iov) (zlen iov) -> (i = 0 \/ r_drop r = true) ->
      (forall j, 0 <= j < i -> ~ fits (r_n r) (r_mm r) (nbytes iov) (zlen iov) h (r_m r - j)) ->
      ring_unread r1 = fit_suffix (r_n r) (r_mm r) iov (ring_unread r)
      /\ always (left_w r h iov) (commit_p (r_mm r) iov (nbytes iov) woken) r1).
  { intros r1 i I1 SF Emp Ee Eq Ei Em Hi Hsp Hid Hmin. pose proof SF as (Eg & En & Emm & _).
    assert (F1 : fits (r_n r) (r_mm r) (nbytes iov) (zlen iov) h (r_m r - i)).
    { rewrite <- Em, <- En, <- Emm. apply fits_m; assumption. }
    assert (FU : fit_suffix (r_n r) (r_mm r) iov (ring_unread r) = lastn (r_m r - i) h).
    { rewrite (unread_eq _ _ I). apply fit_suffix_lastn; try lia; try assumption.
      intros j Hj. replace j with (r_m r - (r_m r - j)) by lia. apply Hmin; lia. }
    assert (EU : ring_unread r1 = fit_suffix (r_n r) (r_mm r) iov (ring_unread r)).
    { rewrite FU, (unread_eq _ _ I1), Em. reflexivity. }
    split; [exact EU|].
    pose proof (commit_always r1 h iov woken I1 Hne Hnn Hsp (FH r1 i Em Emp SF Hi Hmin)) as A. rewrite Emm in A.
    revert A. apply always_impl. intros line s1 L _ _.
    destruct (left_inv _ _ _ _ _ _ L I1) as (s0 & hh & A & B & I0 & SF0 & HH & U & FF & FK).
    pose proof (proj1 L) as Hge.
    assert (TE : torn_commit r1 s1 line = torn_commit r s1 line) by (unfold torn_commit; rewrite Ee, Eq, Ei; reflexivity).
    exists s0, hh. split; [exact A|]. split; [|split; [exact I0|split; [exact (same_fixed_trans _ _ _ SF SF0)|split; [exact HH|split; [|split]]]]].
    - intros T. unfold torn in T. apply orb_false_iff in T. destruct T as [T TF]. apply orb_false_iff in T. destruct T as [_ TC].
      assert (Es : s1 = s0) by (apply B; rewrite TE, TC; reflexivity). split; [exact Es|]. rewrite Es. constructor; [exact I0|].
      intros Hf. rewrite (same_fixed_farm _ _ (same_fixed_trans _ _ _ SF SF0)) in Hf.
      rewrite (same_fixed_drop _ _ (same_fixed_trans _ _ _ SF SF0)). split; [|apply (i_farm _ _ II Hf)].
      destruct (Z_lt_ge_dec line 979).
      + rewrite Hf in TF. destruct (Z.ltb_spec line 979); [|lia]. cbn [andb] in TF. apply negb_false_iff, Z.eqb_eq in TF. congruence.
      + apply FF; [|lia]. rewrite (same_fixed_farm _ _ SF). exact Hf.
    - rewrite U, EU. unfold unread_at. destruct (Z.leb_spec line 662); [lia|]. rewrite orb_false_r.
      destruct (Z.eqb_spec line 929); [lia|]. reflexivity.
    - intros Hlt. rewrite <- Emp, <- En, <- Emm. destruct (FK Hlt) as [G|G]; [left; exact G|right]. split; [lia|]. split; [lia|exact G].
    - right. right. destruct Hid as [->|Hid]; [left|right; exact Hid]. rewrite (unread_eq _ _ I), room_fits by lia.
      rewrite Z.sub_0_r in F1. exact F1. }
  destruct (wr_space r (nbytes iov) (zlen iov)) eqn:EW.
  { injection E as <- <-. apply (FIN r 0); try assumption; try lia; try reflexivity; try apply same_fixed_refl. apply WS; reflexivity. }
  destruct (r_drop r) eqn:Hd.
  2:{ injection E as <- <-. exact Logic.I. }
  match type of E with Ok (_, ?x) = _ => set (body := x) in E end. injection E as <- <-. unfold body. clear body.
  destruct (drop_unread_ok r h (zlen iov) (nbytes iov) I Hd) as (r1 & i & ED & I1 & SF & Emp & Em & Hi & Hsp & Hmin & Est);
    try lia. { intros Hs; apply WS in Hs; congruence. }
  assert (EF : r_e r1 = r_e r /\ r_q r1 = r_q r /\ r_i r1 = r_i r).
  { rewrite (i_e _ _ I1), (i_e _ _ I), (i_q _ _ I1), (i_q _ _ I), (w_i _ _ _ (i_win _ _ I1)), (w_i _ _ _ W), Emp.
    destruct SF as (_ & En & Emm & _). rewrite En, Emm. auto. }
  destruct EF as (Ee & Eq & Ei).
  destruct (FIN r1 i) as [EU AL]; try assumption; try lia.
  apply (drop_always _ _ _ _ _ _ r1); try assumption.
  - apply SELF; lia.
  - apply SELF; lia.
  - apply SELF; lia.
  - apply SELF; lia.
  - intros s1 A _. congruence.
  - intros s1 _ A. congruence.
  - intros st line Hline _ _. exists (r1 <| r_stat := st |>), h. split; [apply agree_refl|].
    assert (I2 : Inv0 (r1 <| r_stat := st |>) h).
    { destruct I1 as [Wx ? ? ? ? ?]; constructor; cbn [r_mp r_m r_e r_r r_q r_u r_mm set]; try assumption.
      eapply win_ext; [exact Wx|reflexivity..]. }
    split; [|split; [exact I2|split; [exact SF|split; [left; split; [reflexivity|lia]|split; [|split; [left; exact Emp|auto]]]]]].
    + intros T. split; [reflexivity|]. constructor; [exact I2|]. intros Hf. change (r_farm r1 = true) in Hf.
      rewrite (same_fixed_farm _ _ SF) in Hf. change (r_m r1 = r_mp r1 /\ r_drop r1 = true). rewrite (same_fixed_drop _ _ SF).
      split; [|exact Hd]. unfold torn in T. apply orb_false_iff in T. destruct T as [_ T]. rewrite Hf in T.
      destruct (Z.ltb_spec line 979); [|lia]. cbn [andb] in T. apply negb_false_iff, Z.eqb_eq in T. exact T.
    + rewrite (unread_agree (r1 <| r_stat := st |>) r1) by (repeat split). rewrite EU. unfold unread_at.
      destruct (Z.leb_spec line 662); [lia|]. destruct (Z.eqb_spec line 929); [lia|]. cbn [orb].
      destruct (Z.ltb_spec line 1004); [reflexivity|lia].
Qed.

(** ** a ring satisfying the invariant is usable *)
Lemma okb_ok n mm iov : okb n mm iov = true <-> iov_ok n mm iov.
Proof.
  unfold okb, iov_ok. rewrite !andb_true_iff, Z.ltb_lt, !Z.leb_le, forallb_forall. unfold nonempty. rewrite Forall_forall.
  split.
  - intros [[[A B] C] D]. split; [apply zlen_pos; exact A|]. split; [|auto]. intros x Hx. apply Z.ltb_lt, B, Hx.
  - intros (A & B & C & D). split; [split; [split|]|]; auto.
    + destruct iov; [congruence|]. rewrite zlen_cons. pose proof (zlen_nonneg iov). lia.
    + intros x Hx. apply Z.ltb_lt, B, Hx.
Qed.
Lemma clamp_min x : clamp x = Z.min x SSIZE_MAX.
Proof. unfold clamp. destruct (Z.gtb_spec x SSIZE_MAX); lia. Qed.
Lemma clamp_min' buf : clamp (zlen buf) = usable buf.
Proof. apply clamp_min. Qed.
Lemma abs_stat r s : abs (r <| r_stat := s |>) = abs r.
Proof.
  unfold abs, ring_retained, ring_unread. f_equal; apply walk_agree; reflexivity.
Qed.
Lemma zlen_retained_q r h : Inv r h -> r_farm r = true -> zlen h < W64 ->
  r_q r = zlen h - zlen (ring_retained r) /\ zlen (ring_retained r) <= zlen h.
Proof.
  intros II Hf Hh. pose proof (i_inv0 _ _ II) as I. rewrite (retained_len _ _ I). rewrite (i_q _ _ I).
  pose proof (w_old _ _ _ (i_win _ _ I)). pose proof (i_m _ _ I). rewrite u64_small by lia. lia.
Qed.

Lemma step_sim r h op a x : Inv r h -> (r_farm r = true -> zlen h < W64) -> aq_step (abs r) op = Some (a, x) ->
  exists r' h', r_step r op = Ok (r', x) /\ abs r' = a /\ Inv r' h' /\ (r_farm r' = true -> zlen h' < W64).
Proof.
  intros II HW. pose proof (i_inv0 _ _ II) as I. pose proof (i_win _ _ I) as W. pose proof (w_old _ _ _ W) as Hold. pose proof (i_m _ _ I) as Hm.
  destruct op as [iov|q md buf niov]; cbn [aq_step r_step abs q_n q_mm q_drop q_farm q_seq q_kept q_unread].
  - destruct (okb (r_n r) (r_mm r) iov) eqn:Eo; [|discriminate]. cbn [andb]. apply okb_ok in Eo.
    destruct (_ || (_ <? W64)) eqn:EB; [|discriminate].
    destruct (ring_write_ok r h iov II Eo) as [HF HT].
    assert (HB : r_farm r = true -> zlen (h ++ iov) < W64).
    { intros Hf. rewrite Hf in EB. cbn [negb orb] in EB. apply Z.ltb_lt in EB.
      destruct (zlen_retained_q r h II Hf (HW Hf)) as [E1 _]. rewrite zlen_app. lia. }
    destruct (room (r_n r) (r_mm r) iov (ring_unread r) || r_drop r) eqn:ER.
    + destruct HT as (r' & E & I' & SF & EU & EK & _). { apply orb_true_iff in ER. tauto. }
      intros H; injection H as <- <-. rewrite E. cbn [obind].
      exists (stat_wrote r' (nbytes iov) (zlen iov)), (h ++ iov). split; [reflexivity|].
      split; [|split; [apply inv_stat; exact I'|]].
      2:{ intros Hf. apply HB. change (r_farm r' = true) in Hf. rewrite (same_fixed_farm _ _ SF) in Hf. exact Hf. }
      unfold stat_wrote. rewrite abs_stat. unfold abs. rewrite (same_fixed_farm _ _ SF), (same_fixed_drop _ _ SF), EU, EK.
      destruct SF as (_ & En & Emm & _). rewrite En, Emm. f_equal.
      pose proof (retained_len _ _ (i_inv0 _ _ I')) as L'. rewrite EK, zlen_app in L'.
      rewrite (i_q _ _ (i_inv0 _ _ I')), (i_q _ _ I), (retained_len _ _ I), u64_add_l, zlen_app. f_equal. lia.
    + apply orb_false_iff in ER. destruct ER as [ER ED]. intros H; injection H as <- <-.
      rewrite (HF ED ER). cbn [obind]. exists r, h. auto.
  - destruct (Z.ltb_spec 0 (zlen buf)) as [Hb|]; [|discriminate]. destruct (Z.ltb_spec 0 niov) as [Hv|]; [|discriminate]. cbn [andb].
    rewrite <- clamp_min'. destruct (r_farm r) eqn:Hf.
    + destruct (Z.leb_spec 0 q) as [Hq0|]; [|discriminate]. destruct (Z.leb_spec q (r_q r + zlen (ring_retained r))) as [Hq1|]; [|discriminate].
      cbn [andb]. destruct (zlen_retained_q r h II Hf (HW eq_refl)) as [Eq Lq].
      assert (QO : qok r h q) by (intros _; split; [auto|lia]).
      destruct (ring_read_ok r h q md buf niov II QO Hb Hv) as [RN RS]. unfold rpos in RN, RS. rewrite Hf in RN, RS. cbn [andb] in RN, RS.
      rewrite (retained_len _ _ I) in *. rewrite <- Eq in RN, RS.
      set (k := Z.max q (r_q r)) in *.
      assert (EA : skipn (Z.to_nat (k - r_q r)) (ring_retained r) = skipn (Z.to_nat k) h).
      { rewrite (retained_eq _ _ I). unfold lastn. rewrite skipn_skipn. f_equal. lia. }
      rewrite EA. set (avail := skipn (Z.to_nat k) h) in *. set (taken := take_fit (Z.to_nat niov) (clamp (zlen buf)) avail) in *.
      destruct avail as [|v0 vt] eqn:EAv.
      * intros H; injection H as <- <-. rewrite (RN eq_refl). cbn [obind]. exists r, h. auto.
      * destruct RS as (X & cur' & E & I' & SF & EU & EK & Emp & _ & EB & EI & _); [discriminate|].
        intros H; injection H as <- <-. rewrite E. cbn [obind]. exists (rd_ring X), h. split.
        { rewrite EB, EI. rewrite tile_read; [reflexivity|lia|].
          pose proof (take_fit_len (Z.to_nat niov) (clamp (zlen buf)) (v0 :: vt)) as TL. fold taken in TL. unfold nbytes.
          rewrite clamp_min in TL. lia. }
        split; [|split; [exact I'|intros _; auto]].
        unfold abs. rewrite (same_fixed_farm _ _ SF), (same_fixed_drop _ _ SF), EU, EK, Hf.
        destruct SF as (_ & En & Emm & _). rewrite En, Emm. f_equal.
        rewrite (i_q _ _ (i_inv0 _ _ I')), (i_q _ _ I), Emp. reflexivity.
    + assert (QO : qok r h q) by (intros X; congruence).
      destruct (ring_read_ok r h q md buf niov II QO Hb Hv) as [RN RS]. unfold rpos in RN, RS. rewrite Hf in RN, RS. cbn [andb] in RN, RS.
      set (k := Z.max (zlen h - r_m r) (zlen h - r_mp r)) in *.
      assert (EA : skipn (Z.to_nat k) h = ring_unread r).
      { rewrite (unread_eq _ _ I). unfold lastn, k. f_equal. lia. }
      rewrite EA in RN, RS. set (taken := take_fit (Z.to_nat niov) (clamp (zlen buf)) (ring_unread r)) in *.
      destruct (ring_unread r) as [|v0 vt] eqn:EAv.
      * intros H; injection H as <- <-. rewrite (RN eq_refl). cbn [obind]. exists r, h.
        split; [reflexivity|]. split; [|split; [exact II|congruence]]. unfold abs. rewrite EAv, Hf. unfold taken. destruct (Z.to_nat niov); reflexivity.
      * destruct RS as (X & cur' & E & I' & SF & EU & EK & Emp & _ & EB & EI & _); [discriminate|].
        intros H; injection H as <- <-. rewrite E. cbn [obind]. exists (rd_ring X), h. split.
        { rewrite EB, EI. rewrite tile_read; [reflexivity|lia|].
          pose proof (take_fit_len (Z.to_nat niov) (clamp (zlen buf)) (v0 :: vt)) as TL. fold taken in TL. unfold nbytes.
          rewrite clamp_min in TL. lia. }
        split; [|split; [exact I'|]].
        2:{ rewrite (same_fixed_farm _ _ SF). congruence. }
        unfold abs. rewrite (same_fixed_farm _ _ SF), (same_fixed_drop _ _ SF), EU, EK, Hf.
        destruct SF as (_ & En & Emm & _). rewrite En, Emm. unfold zlen at 1. rewrite Nat2Z.id. f_equal.
        rewrite (i_q _ _ (i_inv0 _ _ I')), (i_q _ _ I), Emp. reflexivity.
Qed.

Lemma works_inv r h : Inv r h -> (r_farm r = true -> zlen h < W64) -> works_as_queue r.
Proof.
  intros II HW ops. revert r h II HW. induction ops as [|op t IH]; intros r h II HW a xs H; cbn [aq_run r_run] in *.
  - injection H as <- <-. exists r; auto.
  - destruct (aq_step (abs r) op) as [[a1 x]|] eqn:E1; [|discriminate].
    destruct (step_sim r h op a1 x II HW E1) as (r1 & h1 & ER & EA & I1 & HW1). rewrite <- EA in H.
    destruct (aq_run (abs r1) t) as [[a2 xs2]|] eqn:E2; [|discriminate]. injection H as <- <-.
    destruct (IH r1 h1 I1 HW1 a2 xs2 E2) as (r2 & EN & EF). exists r2. rewrite ER. cbn [obind]. rewrite EN. cbn [obind]. auto.
Qed.

(** ** reads on a ring that reads like one satisfying the invariant *)
Lemma next_agree s s0 q md : agree s s0 -> r_farm s0 = false -> next_msg_info s q md = next_msg_info s0 q md.
Proof.
  intros (Eg & En & Em & Ed & Ev & Er & Emm) Hf. assert (Hf' : r_farm s = false) by (unfold r_farm in *; congruence).
  unfold next_msg_info. rewrite Hf, Hf'. cbn [andb]. rewrite Emm, Er, Ev, En. reflexivity.
Qed.
Lemma rd_loop_agree niov : forall cur s s0 q md buf off len nr iov, agree s s0 -> r_farm s0 = false ->
  forall X0 cur', rd_loop niov cur (mkrd s0 q md buf off len nr iov) = Ok (X0, cur') ->
  exists s', rd_loop niov cur (mkrd s q md buf off len nr iov)
    = Ok (mkrd s' (rd_q X0) (rd_md X0) (rd_buf X0) (rd_off X0) (rd_len X0) (rd_nr X0) (rd_iov X0), cur') /\ agree s' (rd_ring X0).
Proof.
  induction niov as [|niov IH]; intros cur s s0 q md buf off len nr iov A Hf X0 cur' H; destruct cur as [sg|]; cbn [rd_loop] in *;
    try (injection H as <- <-; exists s; split; [reflexivity|exact A]).
  cbn [rd_ring rd_q rd_md rd_buf rd_off rd_len rd_nr rd_iov] in *.
  destruct (u64 (seg_l1 sg + seg_l2 sg) >? len); [injection H as <- <-; exists s; split; [reflexivity|exact A]|].
  pose proof A as (Eg & En & Em & Ed & Ev & Er & Emm). assert (Hf' : r_farm s = false) by (unfold r_farm in *; congruence).
  rewrite Hf in H. rewrite Hf', Ed, Er, Em, Emm.
  destruct (rd_mem (seg_pos sg) (seg_l1 sg) (r_d s0)) as [a| | |]; cbn [obind] in *; try discriminate.
  destruct (wr_mem off a buf) as [b1| | |]; cbn [obind] in *; try discriminate.
  match type of H with obind (if ?c then ?A else ?B) _ = _ => destruct (if c then A else B) as [b2| | |] end; cbn [obind] in *; try discriminate.
  destruct (umod (u64 (r_r s0 + 1)) (r_mm s0)) as [rr| | |]; cbn [obind] in *; try discriminate.
  set (s0' := s0 <| r_r := rr |> <| r_u := u64 (r_u s0 - u64 (seg_l1 sg + seg_l2 sg)) |> <| r_m := u64 (r_m s0 - 1) |>) in *.
  set (s' := s <| r_r := rr |> <| r_u := u64 (r_u s - u64 (seg_l1 sg + seg_l2 sg)) |> <| r_m := u64 (r_m s0 - 1) |>) in *.
  assert (A' : agree s' s0') by (unfold agree in *; cbn [s' s0' r_gflags r_n r_mm r_d r_mv r_r r_m set]; repeat split; assumption).
  rewrite (next_agree s' s0' _ _ A') by exact Hf.
  destruct (next_msg_info s0' q md) as [[[q1 md1] cur1]| | |]; cbn [obind] in *; try discriminate.
  destruct (IH cur1 s' s0' q1 md1 b2 _ _ _ _ A' Hf X0 cur' H) as (s2 & E & A2). exists s2. auto.
Qed.

Lemma drain_inv ops : forallb is_read ops = true -> forall s s0 h, agree s s0 -> Inv s0 h -> r_farm s0 = false ->
  exists s' xs, r_run s ops = Ok (s', xs) /\ map got xs = drain (ring_unread s) ops.
Proof.
  intros HR. induction ops as [|op t IH]; intros s s0 h A II Hf; cbn [r_run drain].
  { exists s, []. auto. }
  cbn [forallb] in HR. apply andb_true_iff in HR. destruct HR as [Ho HR]. destruct op as [iov|q md buf niov]; [discriminate|].
  cbn [is_read] in Ho.
  assert (EX : exists a x, aq_step (abs s0) (QRead q md buf niov) = Some (a, x)
     /\ got x = take_fit (Z.to_nat niov) (usable buf) (ring_unread s0)
     /\ q_unread a = skipn (length (got x)) (ring_unread s0) /\ q_farm a = false).
  { cbn [aq_step abs q_n q_mm q_drop q_farm q_seq q_kept q_unread]. rewrite Ho, Hf.
    eexists; eexists. split; [reflexivity|]. cbn [q_unread q_farm].
    assert (EG : forall x, got (match ring_unread s0 with [] => RNone q md | _ => RGot x q md end) = match ring_unread s0 with [] => [] | _ => x end)
      by (intros; destruct (ring_unread s0); reflexivity).
    rewrite EG. destruct (ring_unread s0) as [|v vt]; [|auto]. split; [destruct (Z.to_nat niov); reflexivity|].
    split; [destruct (Z.to_nat niov); reflexivity|reflexivity]. }
  destruct EX as (a & x & EX & Eg & Eu & Ef).
  destruct (step_sim s0 h _ a x II ltac:(congruence) EX) as (s0' & h' & ER & EA & I' & _).
  assert (ES : exists s', r_step s (QRead q md buf niov) = Ok (s', x) /\ agree s' s0').
  { cbn [r_step] in *. unfold ring_read in *. rewrite (next_agree s s0 q md A Hf).
    destruct (next_msg_info s0 q md) as [[[q1 md1] cur]| | |]; cbn [obind] in *; try discriminate.
    destruct cur as [sg|]; cbn [obind] in *.
    2:{ injection ER as <- <-. exists s. auto. }
    match type of ER with context [rd_loop ?n ?c ?m] => destruct (rd_loop n c m) as [[X0 cur']| | |] eqn:EL end; cbn [obind] in *; try discriminate.
    destruct (rd_loop_agree _ _ s s0 _ _ _ _ _ _ _ A Hf X0 cur' EL) as (s1 & EL1 & A1).
    rewrite EL1. cbn [obind rd_ring rd_q rd_md rd_buf rd_off rd_len rd_nr rd_iov] in *. injection ER as <- <-.
    eexists; split; [reflexivity|]. unfold agree in *. cbn [stat_read r_gflags r_n r_mm r_d r_mv r_r r_m set]. exact A1. }
  destruct ES as (s' & ES & A').
  assert (Hf' : r_farm s0' = false) by (rewrite <- EA in Ef; exact Ef).
  destruct (IH HR s' s0' h' A' I' Hf') as (s2 & xs & E2 & M2).
  exists s2, (x :: xs). rewrite ES. cbn [obind]. rewrite E2. cbn [obind map]. split; [reflexivity|].
  rewrite (unread_agree _ _ A), <- Eg. f_equal. rewrite M2, (unread_agree _ _ A'). f_equal.
  rewrite <- Eu, <- EA. reflexivity.
Qed.

(** ** the read section *)
Definition left_r (r : ring) (h : list bytes) (maxc : Z) (line : Z) (s : ring) : Prop :=
  torn_read line = false ->
  Inv s h /\ same_fixed r s /\ r_mp s = r_mp r /\ (r_farm r = true -> r_m s = r_m r)
  /\ 0 <= r_m r - r_m s <= maxc.

Lemma read_loop_always {R} r0 h maxc (k : rloc -> option seg -> prog ring R) :
  r_farm r0 = false ->
  (forall x cur r, left_r r0 h maxc 847 r -> always (left_r r0 h maxc) (k x cur) r) ->
  forall niov cur x r, Inv r h -> same_fixed r0 r -> r_mp r = r_mp r0 -> cur_is r h (zlen h - r_m r) cur -> 0 <= rl_len x < W64 ->
  r_m r <= r_m r0 -> r_m r0 - r_m r + zlen (take_fit niov (rl_len x) (lastn (r_m r) h)) <= maxc ->
  always (left_r r0 h maxc) (read_loop_p niov cur x k) r.
Proof.
  intros Hf0 HK. induction niov as [|niov IH]; intros cur x r I SF Emp Hc Hlen Hm HT.
  - assert (L : left_r r0 h maxc 847 r).
    { intros _. split; [exact I|]. split; [exact SF|]. split; [exact Emp|]. split; [congruence|]. cbn [take_fit] in HT. unfold zlen at 1 in HT. cbn in HT. lia. }
    destruct cur; cbn [read_loop_p]; apply HK, L.
  - assert (L : forall line, left_r r0 h maxc line r).
    { intros line _. split; [exact I|]. split; [exact SF|]. split; [exact Emp|]. split; [congruence|].
      pose proof (zlen_nonneg (take_fit (S niov) (rl_len x) (lastn (r_m r) h))). lia. }
    destruct cur as [sg|]; cbn [read_loop_p]; [|apply HK, L].
    destruct Hc as [Hkh Hs]. pose proof (sg_len _ _ _ Hs) as Hsl. rewrite Hsl.
    pose proof (i_inv0 _ _ I) as I0. pose proof (i_win _ _ I0) as W. pose proof (i_m _ _ I0) as Hmm0.
    pose proof (w_n _ _ _ W) as Hn. pose proof (w_mm _ _ _ W) as Hmm. pose proof (w_old _ _ _ W) as Hold2. pose proof (w_cnt _ _ _ W) as Hcnt.
    destruct (msg_le_n _ h _ (zlen h - r_m r) W ltac:(lia)) as (Hml & Hm2 & Hm3).
    rewrite (u64_small (zlen (hmsg h (zlen h - r_m r)))) by lia. set (m := hmsg h (zlen h - r_m r)) in *.
    destruct (Z.gtb_spec (zlen m) (rl_len x)) as [Hgt|Hle]; [apply HK, L|].
    apply always_at; [apply L|]. intros s1 p1 E1.
    destruct (rd_mem (seg_pos sg) (seg_l1 sg) (r_d r)) as [a| | |]; cbn [obind] in E1; try discriminate.
    destruct (wr_mem (rl_off x) a (rl_buf x)) as [bf| | |]; cbn [obind] in E1; try discriminate.
    match type of E1 with obind (if ?c then ?A else ?B) _ = _ => destruct (if c then A else B) as [bf2| | |] end; cbn [obind] in E1; try discriminate.
    assert (Hf : r_farm r = false) by (rewrite (same_fixed_farm _ _ SF); exact Hf0). rewrite Hf in E1. injection E1 as <- <-.
    apply always_at; [apply L|]. intros s1 p1 E1. rewrite umod_ok in E1 by lia. cbn [obind] in E1. injection E1 as <- <-.
    apply always_at; [intros X; discriminate X|]. intros s1 p1 E1. injection E1 as <- <-.
    apply always_at; [intros X; discriminate X|]. intros s1 p1 E1. injection E1 as <- <-.
    pose proof (inv_u_le _ _ I0) as Hu.
    assert (Hmu : zlen m <= r_u r) by (rewrite (i_u _ _ I0); lia).
    pose proof (Z.mod_pos_bound (zlen h - r_m r) (r_mm r) ltac:(lia)) as Hb.
    match goal with |- always _ _ ?s => assert (ES : s = ring_adv r h 1 (zlen m)) end.
    { unfold ring_adv. rewrite Hf. change (r_u (r <| r_r := u64 (r_r r + 1) mod r_mm r |>)) with (r_u r).
      match goal with |- context [r_m ?s] => change (r_m s) with (r_m r) end.
      rewrite (u64_small (r_u r - zlen m)) by lia. rewrite (u64_small (r_m r - 1)) by lia.
      rewrite (i_r _ _ I0). rewrite (u64_small (_ + 1)) by lia. rewrite Zplus_mod_idemp_l. reflexivity. }
    rewrite ES. set (r1 := ring_adv r h 1 (zlen m)) in *. clear ES.
    assert (I1 : Inv r1 h).
    { unfold r1. replace (zlen m) with (start h (zlen h - r_m r + 1) - start h (zlen h - r_m r)) by (rewrite start_S by lia; fold m; lia).
      apply ring_adv_inv; [exact I|lia]. }
    assert (SF1 : same_fixed r0 r1) by (eapply same_fixed_trans; [exact SF|apply ring_adv_same]).
    assert (Em1 : r_m r1 = r_m r - 1) by (unfold r1, ring_adv; rewrite Hf; reflexivity).
    assert (Emp1 : r_mp r1 = r_mp r) by (unfold r1, ring_adv; rewrite Hf; reflexivity).
    assert (Hf1 : r_farm r1 = false) by (rewrite (same_fixed_farm _ _ SF1); exact Hf0).
    assert (ELn : lastn (r_m r) h = m :: lastn (r_m r1) h).
    { unfold lastn. rewrite (skipn_hmsg h (zlen h - r_m r)) by lia. fold m. rewrite Em1. do 3 f_equal. lia. }
    rewrite ELn in HT. cbn [take_fit] in HT. destruct (Z.leb_spec (zlen m) (rl_len x)); [|lia]. rewrite zlen_cons in HT.
    pose proof (zlen_nonneg (take_fit niov (rl_len x - zlen m) (lastn (r_m r1) h))) as TN.
    assert (L1 : forall line, left_r r0 h maxc line r1).
    { intros line _. split; [exact I1|]. split; [exact SF1|]. split; [congruence|]. split; [congruence|]. lia. }
    apply always_at; [apply L1|]. intros s1 p1 E1.
    destruct (next_at r1 h (rl_q x) (rl_md x) I1 ltac:(intros X; congruence)) as (q' & md' & cur' & E & C' & _).
    rewrite E in E1. cbn [obind] in E1. injection E1 as <- <-.
    pose proof (i_m _ _ (i_inv0 _ _ I1)) as Hm1.
    apply IH; try assumption; try congruence; cbn [rl_len]; try lia.
    + unfold rpos in C'. rewrite Hf1 in C'. replace (Z.max (zlen h - r_m r1) (zlen h - r_mp r1)) with (zlen h - r_m r1) in C' by lia. exact C'.
    + apply u64_range.
    + rewrite (u64_small (rl_len x - zlen m)) by lia. lia.
Qed.

Lemma read_loop_farm {R} (P : Z -> ring -> Prop) (k : rloc -> option seg -> prog ring R) r : r_farm r = true ->
  (forall line, P line r) -> (forall x cur, always P (k x cur) r) ->
  forall niov cur x, always P (read_loop_p niov cur x k) r.
Proof.
  intros Hf HP HK. induction niov as [|niov IH]; intros [sg|] x; cbn [read_loop_p]; try apply HK.
  destruct (_ >? _); [apply HK|]. apply always_at; [apply HP|]. intros s1 p1 E1.
  destruct (rd_mem (seg_pos sg) (seg_l1 sg) (r_d r)) as [a| | |]; cbn [obind] in E1; try discriminate.
  destruct (wr_mem (rl_off x) a (rl_buf x)) as [bf| | |]; cbn [obind] in E1; try discriminate.
  match type of E1 with obind (if ?c then ?A else ?B) _ = _ => destruct (if c then A else B) as [bf2| | |] end; cbn [obind] in E1; try discriminate.
  rewrite Hf in E1. injection E1 as <- <-. apply always_at; [apply HP|]. intros s1 p1 E1.
  destruct (next_msg_info r _ _) as [[[q' md'] cur']| | |]; cbn [obind] in E1; try discriminate.
  injection E1 as <- <-. apply IH.
Qed.

Lemma left_r_stat r h c line line' s st : left_r r h c line s -> torn_read line = false -> left_r r h c line' (s <| r_stat := st |>).
Proof.
  intros L T _. destruct (L T) as (I & SF & A & B & C). split; [apply inv_stat, I|]. split; [exact SF|]. auto.
Qed.

Lemma read_always r h q md buf niov : Inv r h -> 0 < zlen buf -> 0 <= niov ->
  always (left_r r h (if r_farm r then 0 else zlen (take_fit (Z.to_nat niov) (usable buf) (ring_unread r)))) (read_p q md buf niov) r.
Proof.
  intros I Hb Hv. set (c := if r_farm r then 0 else _).
  assert (C0 : 0 <= c) by (unfold c; destruct (r_farm r); [lia|apply zlen_nonneg]).
  assert (L : forall line, left_r r h c line r).
  { intros line _. split; [exact I|]. split; [apply same_fixed_refl|]. split; [reflexivity|]. split; [reflexivity|]. lia. }
  unfold read_p. apply always_at; [apply L|]. intros s1 p1 E1.
  destruct (next_msg_info r q md) as [[[q1 md1] cur]| | |] eqn:EN; cbn [obind] in E1; try discriminate.
  match type of E1 with Ok (_, ?x) = _ => set (body := x) in E1 end. injection E1 as <- <-. unfold body. clear body.
  destruct cur as [sg|]; [|exact Logic.I].
  assert (FINAL : forall x cur r1, left_r r h c 847 r1 -> always (left_r r h c)
     ((fun (x : rloc) (cur' : option seg) => At 847 (fun r => Ok (r <| r_stat := r_stat r <| st_br := u64 (st_br (r_stat r) + rl_nr x) |> |>,
      At 848 (fun r => Ok (r <| r_stat := r_stat r <| st_mr := u64 (st_mr (r_stat r) + zlen (rl_iov x)) |> |>,
      Ret (rl_q x, rl_md x, Some (x, cur')))))) : prog ring (Z * Z * option (rloc * option seg))) x cur) r1).
  { intros x cur r1 L1. apply always_at; [exact L1|]. intros s1 p1 E1. injection E1 as <- <-.
    apply always_at; [apply (left_r_stat _ _ _ 847); [exact L1|reflexivity]|]. intros s1 p1 E1. injection E1 as <- <-. exact Logic.I. }
  destruct (r_farm r) eqn:Hf.
  - apply read_loop_farm; [exact Hf|exact L|]. intros x cur. apply FINAL, L.
  - apply read_loop_always; [exact Hf|exact FINAL|exact I|apply same_fixed_refl|reflexivity| | |lia|]; cbn [rl_len].
    + destruct (next_at r h q md I ltac:(intros X; congruence)) as (q' & md' & cur' & E & C' & _). rewrite EN in E. injection E as <- <- <-.
      unfold rpos in C'. rewrite Hf in C'. pose proof (i_m _ _ (i_inv0 _ _ I)).
      replace (Z.max (zlen h - r_m r) (zlen h - r_mp r)) with (zlen h - r_m r) in C' by lia. exact C'.
    + fold (clamp (zlen buf)). rewrite clamp_min. lia.
    + fold (clamp (zlen buf)). rewrite clamp_min'. unfold c. rewrite (unread_eq _ _ (i_inv0 _ _ I)). lia.
Qed.
