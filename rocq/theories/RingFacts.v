(** * The ring invariant, and what each critical section does under it. *)
From Verif Require Export Spec HistFacts.

Definition slot0 : slot := mkslot 0 0.

(** The data and slot regions hold messages [old, zlen h) of history [h]. *)
Record Win (r : ring) (h : list bytes) (old : Z) : Prop := mkWin {
  w_n : 0 < r_n r < 9223372036854775808;
  w_mm : 0 < r_mm r < 1152921504606846976;
  w_d : zlen (r_d r) = r_n r;
  w_mv : zlen (r_mv r) = r_mm r;
  w_old : 0 <= old <= zlen h;
  w_cnt : zlen h - old <= r_mm r;
  w_occ : zlen (concat h) - start h old <= r_n r;
  w_i : r_i r = zlen (concat h) mod r_n r;
  w_ne : nonempty h;
  w_slot : forall k, old <= k < zlen h ->
    znth slot0 (r_mv r) (k mod r_mm r) = mkslot (start h k mod r_n r) (zlen (hmsg h k));
  w_data : forall x, start h old <= x < zlen (concat h) ->
    znth 0 (r_d r) (x mod r_n r) = znth 0 (concat h) x }.

(** [h] is every message ever committed; the last [r_mp] of them are present
    and the last [r_m] of them unread. *)
Record Inv0 (r : ring) (h : list bytes) : Prop := mkInv0 {
  i_win : Win r h (zlen h - r_mp r);
  i_m : 0 <= r_m r <= r_mp r;
  i_e : r_e r = (zlen h - r_mp r) mod r_mm r;
  i_r : r_r r = (zlen h - r_m r) mod r_mm r;
  i_q : r_q r = u64 (zlen h - r_mp r);
  i_u : r_u r = zlen (concat h) - start h (zlen h - r_m r) }.

Record Inv (r : ring) (h : list bytes) : Prop := mkInv {
  i_inv0 : Inv0 r h;
  i_farm : r_farm r = true -> r_m r = r_mp r /\ r_drop r = true }.

Lemma win_ext r r' h old : Win r h old -> r_n r' = r_n r -> r_mm r' = r_mm r -> r_d r' = r_d r ->
  r_mv r' = r_mv r -> r_i r' = r_i r -> Win r' h old.
Proof.
  intros W En Em Ed Ev Ei; destruct W; constructor; rewrite ?En, ?Em, ?Ed, ?Ev, ?Ei; assumption.
Qed.

(** ** basic consequences *)
Lemma start_tot h : start h (zlen h) = zlen (concat h).
Proof. apply start_all; reflexivity. Qed.

Lemma start_le_tot h k : 0 <= k <= zlen h -> start h k <= zlen (concat h).
Proof. intros; rewrite <- start_tot; apply start_mono; lia. Qed.

Lemma msg_le_n r h old k : Win r h old -> old <= k < zlen h ->
  0 < zlen (hmsg h k) <= r_n r /\ start h k + zlen (hmsg h k) <= zlen (concat h)
  /\ start h old <= start h k.
Proof.
  intros W Hk. pose proof (w_old _ _ _ W). pose proof (w_occ _ _ _ W).
  pose proof (nonempty_hmsg h k (w_ne _ _ _ W) ltac:(lia)).
  pose proof (start_S h k ltac:(lia)). pose proof (start_le_tot h (k+1) ltac:(lia)).
  pose proof (start_mono h old k ltac:(lia) ltac:(lia)). lia.
Qed.

(** u bounds *)
Lemma inv_u_le r h : Inv0 r h -> 0 <= r_u r <= r_n r.
Proof.
  intros I. pose proof (i_win _ _ I) as W. pose proof (w_old _ _ _ W).
  pose proof (w_occ _ _ _ W). pose proof (i_m _ _ I). rewrite (i_u _ _ I).
  pose proof (start_le_tot h (zlen h - r_m r) ltac:(lia)).
  pose proof (start_mono h (zlen h - r_mp r) (zlen h - r_m r) ltac:(lia) ltac:(lia)). lia.
Qed.
Lemma inv_u0 r h : Inv0 r h -> (r_u r = 0 <-> r_m r = 0).
Proof.
  intros I. pose proof (i_win _ _ I) as W. pose proof (w_old _ _ _ W).
  pose proof (i_m _ _ I). rewrite (i_u _ _ I).
  pose proof (start_gap h (zlen h - r_m r) (zlen h) (w_ne _ _ _ W) ltac:(lia) ltac:(lia)) as G.
  rewrite start_tot in G. split; intros E; [lia|].
  rewrite E, Z.sub_0_r, start_tot; lia.
Qed.

(** ** the copy of new messages *)
Lemma ring_put_model r b (T : Z) :
  0 < r_n r < 9223372036854775808 -> zlen (r_d r) = r_n r -> r_i r = T mod r_n r ->
  0 < zlen b <= r_n r ->
  (let wraps := u64 (r_i r + zlen b) >? r_n r in
   let l1 := if wraps then u64 (r_n r - r_i r) else zlen b in
   let l2 := if wraps then u64 (zlen b - l1) else 0 in
   do s1 <- rd_mem 0 l1 b;
   do d <- wr_mem (r_i r) s1 (r_d r);
   (if l2 =? 0 then Ok d else do s2 <- rd_mem l1 l2 b; wr_mem 0 s2 d))
  = Ok (ring_put (r_d r) (r_n r) (r_i r) b).
Proof.
  intros Hn Hd Hi Hb.
  assert (0 <= r_i r < r_n r) by (rewrite Hi; apply Z.mod_pos_bound; lia).
  unfold ring_put. u64s.
  destruct (Z.gtb_spec (r_i r + zlen b) (r_n r)) as [Hw|Hw].
  - u64s. cbv zeta.
    assert (L1 : zlen (sub 0 (r_n r - r_i r) b) = r_n r - r_i r) by (apply zlen_sub; lia).
    assert (L2 : zlen (sub (r_n r - r_i r) (zlen b - (r_n r - r_i r)) b) = zlen b - (r_n r - r_i r))
      by (apply zlen_sub; lia).
    rewrite rd_mem_ok by lia; cbn [obind].
    rewrite wr_mem_ok by lia; cbn [obind].
    destruct (Z.eqb_spec (zlen b - (r_n r - r_i r)) 0); [lia|].
    rewrite rd_mem_ok by lia; cbn [obind].
    rewrite wr_mem_ok; [reflexivity|lia|]. rewrite zlen_blit by lia. lia.
  - cbv zeta. rewrite rd_mem_ok by lia; cbn [obind].
    rewrite sub_0_all by reflexivity.
    rewrite wr_mem_ok by lia; cbn [obind Z.eqb]. reflexivity.
Qed.

Definition put_one (r : ring) (h : list bytes) (b : bytes) : ring :=
  r <| r_mv := zupd (r_mv r) (zlen h mod r_mm r) (mkslot (r_i r) (zlen b)) |>
    <| r_d := ring_put (r_d r) (r_n r) (r_i r) b |>
    <| r_i := (zlen (concat h) + zlen b) mod r_n r |>.

Lemma win_put r h old b : Win r h old -> 0 < zlen b ->
  zlen (concat h) + zlen b - start h old <= r_n r -> zlen h + 1 - old <= r_mm r ->
  Win (put_one r h b) (h ++ [b]) old.
Proof.
  intros W Hb Hocc Hcnt.
  pose proof (w_n _ _ _ W) as Hn. pose proof (w_mm _ _ _ W) as Hmm.
  pose proof (w_old _ _ _ W) as Hold.
  pose proof (start_le_tot h old ltac:(lia)) as Hs. pose proof (start_nonneg h old) as Hs0.
  assert (Hcl : zlen (concat (h ++ [b])) = zlen (concat h) + zlen b).
  { rewrite concat_app, zlen_app; cbn [concat]; rewrite app_nil_r; reflexivity. }
  assert (Hhl : zlen (h ++ [b]) = zlen h + 1) by (rewrite zlen_app; reflexivity).
  pose proof (Z.mod_pos_bound (zlen h) (r_mm r) ltac:(lia)) as Hp.
  assert (Hbn : zlen b <= r_n r) by lia.
  destruct (ring_put_spec (r_d r) (r_n r) (zlen (concat h)) b (w_d _ _ _ W) ltac:(lia) ltac:(lia) Hbn)
    as [P1 P2]. rewrite <- (w_i _ _ _ W) in P1, P2.
  pose proof (Z.mod_pos_bound (zlen (concat h)) (r_n r) ltac:(lia)) as Hib. rewrite <- (w_i _ _ _ W) in Hib.
  constructor; cbn [put_one r_n r_mm r_d r_mv r_i set]; try assumption; try lia.
  - apply zlen_ring_put; [apply (w_d _ _ _ W)|lia|lia].
  - rewrite zlen_zupd; apply (w_mv _ _ _ W).
  - rewrite Hcl, start_app; lia.
  - rewrite Hcl; reflexivity.
  - apply Forall_app; split; [apply (w_ne _ _ _ W)|constructor; [assumption|constructor]].
  - rewrite Hhl; intros k Hk.
    rewrite znth_zupd; [|rewrite (w_mv _ _ _ W); lia|apply Z.mod_pos_bound; lia].
    destruct (Z.eqb_spec (k mod r_mm r) (zlen h mod r_mm r)) as [E|E].
    + apply mod_inj_window in E; [|lia|lia]. subst k.
      rewrite start_app by lia. rewrite start_tot, hmsg_app_last. rewrite (w_i _ _ _ W). reflexivity.
    + assert (k <> zlen h) by (intros ->; apply E; reflexivity).
      rewrite start_app, hmsg_app1 by lia. apply (w_slot _ _ _ W); lia.
  - rewrite start_app by lia. rewrite Hcl. intros x Hx.
    rewrite concat_app; cbn [concat]; rewrite app_nil_r.
    destruct (Z_lt_ge_dec x (zlen (concat h))).
    + rewrite znth_app1 by lia. rewrite P2 by lia. apply (w_data _ _ _ W); lia.
    + rewrite znth_app2 by lia. apply P1; lia.
Qed.

Lemma copy_loop_ok ms : forall r h old, Win r h old -> nonempty ms ->
  zlen (concat h) + zlen (concat ms) - start h old <= r_n r ->
  zlen h + zlen ms - old <= r_mm r ->
  exists mv d i, copy_loop ms r (zlen h mod r_mm r)
      = Ok (r <| r_mv := mv |> <| r_d := d |> <| r_i := i |>)
    /\ Win (r <| r_mv := mv |> <| r_d := d |> <| r_i := i |>) (h ++ ms) old.
Proof.
  induction ms as [|b ms IH]; intros r h old W Hne Hocc Hcnt.
  - exists (r_mv r), (r_d r), (r_i r). cbn [copy_loop]. rewrite app_nil_r.
    destruct r; split; [reflexivity|exact W].
  - inversion Hne as [|? ? Hb Hne']; subst.
    cbn [concat] in Hocc; rewrite zlen_app in Hocc. rewrite zlen_cons in Hcnt.
    pose proof (w_n _ _ _ W) as Hn. pose proof (w_mm _ _ _ W) as Hmm.
    pose proof (w_old _ _ _ W) as Hold.
    pose proof (start_le_tot h old ltac:(lia)) as Hs.
    pose proof (zlen_nonneg (concat ms)). pose proof (zlen_nonneg ms).
    assert (Hbn : zlen b <= r_n r) by lia.
    pose proof (Z.mod_pos_bound (zlen h) (r_mm r) ltac:(lia)) as Hp.
    pose proof (Z.mod_pos_bound (zlen (concat h)) (r_n r) ltac:(lia)) as Hib. rewrite <- (w_i _ _ _ W) in Hib.
    pose proof (win_put r h old b W Hb ltac:(lia) ltac:(lia)) as W'.
    cbn [copy_loop].
    destruct (Z.gtb_spec (zlen b) 0); [|lia].
    rewrite zset_ok by (rewrite (w_mv _ _ _ W); lia); cbn [obind].
    pose proof (ring_put_model (r <| r_mv := zupd (r_mv r) (zlen h mod r_mm r) (mkslot (r_i r) (zlen b)) |>)
       b (zlen (concat h))) as Q.
    specialize (Q ltac:(cbn; lia) (w_d _ _ _ W) (w_i _ _ _ W) ltac:(cbn; lia)).
    cbn [r_d r_i r_n r_mm set] in Q |- *. cbv zeta in Q.
    destruct (IH (put_one r h b) (h ++ [b]) old W' Hne') as (mv & d & i & E & WW).
    { rewrite concat_app, zlen_app; cbn [concat]; rewrite app_nil_r, start_app by lia.
      cbn [put_one r_n set]. lia. }
    { rewrite zlen_app; cbn [put_one r_mm set zlen length]. unfold zlen in *; cbn [length]. lia. }
    exists mv, d, i.
    rewrite <- app_assoc in WW; cbn [app] in WW.
    split; [|destruct r; exact WW].
    transitivity (copy_loop ms (put_one r h b) (zlen (h ++ [b]) mod r_mm (put_one r h b)));
      [|rewrite E; destruct r; reflexivity].
    set (wr := u64 (r_i r + zlen b) >? r_n r) in *.
    set (l1 := if wr then u64 (r_n r - r_i r) else zlen b) in *.
    set (l2 := if wr then u64 (zlen b - l1) else 0) in *.
    destruct (rd_mem 0 l1 b) as [s1| | |] eqn:E1; cbn [obind] in Q |- *; try discriminate Q.
    destruct (wr_mem (r_i r) s1 (r_d r)) as [d1| | |] eqn:E2; cbn [obind] in Q |- *; try discriminate Q.
    match goal with |- obind ?A _ = _ => replace A with (Ok (ring_put (r_d r) (r_n r) (r_i r) b)) by (rewrite <- Q; reflexivity) end.
    cbn [obind].
    rewrite umod_ok by (cbn; lia); cbn [obind r_i r_n r_mm set].
    f_equal.
    + assert (Ei : u64 (r_i r + zlen b) mod r_n r = (zlen (concat h) + zlen b) mod r_n r).
      { rewrite u64_small by lia. rewrite (w_i _ _ _ W), Zplus_mod_idemp_l. reflexivity. }
      rewrite Ei. unfold put_one. destruct r; reflexivity.
    + cbn [put_one r_mm set]. rewrite u64_small by lia.
      rewrite zlen_app. replace (zlen [b]) with 1 by reflexivity.
      apply mod_step; [lia|apply zlen_nonneg].
Qed.

(** ** eviction *)

(** the last [j] messages can stay when [len] bytes in [niov] messages arrive *)
Definition fits (n mm len niov : Z) (h : list bytes) (j : Z) : Prop :=
  len <= n - (zlen (concat h) - start h (zlen h - j)) /\ niov <= mm - j.

Lemma evict_gap n T s : 0 < n -> 0 <= s < T -> T - s <= n ->
  (if T mod n >? s mod n then n - T mod n + s mod n else s mod n - T mod n) = n - (T - s).
Proof.
  intros Hn Hs Hd.
  pose proof (Z.mod_pos_bound T n Hn). pose proof (Z.mod_pos_bound s n Hn).
  assert (E : T mod n = if s mod n + (T - s) <? n then s mod n + (T - s) else s mod n + (T - s) - n).
  { rewrite <- mod_add_cases by lia. f_equal; lia. }
  destruct (Z.gtb_spec (T mod n) (s mod n)); destruct (Z.ltb_spec (s mod n + (T - s)) n); lia.
Qed.

Lemma evict_ok h len niov : forall mp r a, Win r h (zlen h - Z.of_nat mp) -> 0 < len ->
  0 <= niov -> 0 <= a -> a + Z.of_nat mp < W64 ->
  exists mp', evict_loop mp (r_mv r) (r_n r) (r_mm r) len niov (r_i r)
                ((zlen h - Z.of_nat mp) mod r_mm r) a
     = Ok ((zlen h - mp') mod r_mm r, a + (Z.of_nat mp - mp'), mp')
   /\ 0 <= mp' <= Z.of_nat mp
   /\ (mp' = 0 \/ fits (r_n r) (r_mm r) len niov h mp')
   /\ (forall j, mp' < j <= Z.of_nat mp -> ~ fits (r_n r) (r_mm r) len niov h j).
Proof.
  induction mp as [|mp IH]; intros r a W Hlen Hniov Ha Hab.
  - exists 0. cbn [evict_loop Z.of_nat]. rewrite Z.sub_0_r, Z.add_0_r.
    split; [reflexivity|]. split; [lia|]. split; [left; reflexivity|intros; lia].
  - pose proof (w_n _ _ _ W) as Hn. pose proof (w_mm _ _ _ W) as Hmm.
    pose proof (w_old _ _ _ W) as Hold. pose proof (w_occ _ _ _ W) as Hocc.
    pose proof (w_cnt _ _ _ W) as Hcnt.
    set (old := zlen h - Z.of_nat (S mp)) in *.
    assert (Hk : old <= old < zlen h) by (unfold old; lia).
    destruct (msg_le_n r h old old W Hk) as (Hm & Hm2 & _).
    pose proof (start_nonneg h old) as Hs0.
    cbn [evict_loop].
    pose proof (Z.mod_pos_bound old (r_mm r) ltac:(lia)) as Hp.
    rewrite (zget_ok slot0) by (rewrite (w_mv _ _ _ W); lia). cbn [obind].
    rewrite (w_slot _ _ _ W) by lia. cbn [sl_pos sl_len].
    pose proof (Z.mod_pos_bound (zlen (concat h)) (r_n r) ltac:(lia)) as Hib.
    pose proof (Z.mod_pos_bound (start h old) (r_n r) ltac:(lia)) as Hsb.
    assert (El : (if r_i r >? start h old mod r_n r
             then u64 (u64 (r_n r - r_i r) + start h old mod r_n r)
             else u64 (start h old mod r_n r - r_i r))
      = r_n r - (zlen (concat h) - start h old)).
    { rewrite (w_i _ _ _ W).
      rewrite <- (evict_gap (r_n r) (zlen (concat h)) (start h old)) by lia.
      destruct (Z.gtb_spec (zlen (concat h) mod r_n r) (start h old mod r_n r)); u64s; lia. }
    rewrite El.
    rewrite (u64_small (r_mm r - Z.of_nat (S mp))) by (unfold old in *; lia).
    destruct (Z.leb_spec len (r_n r - (zlen (concat h) - start h old))) as [F1|F1];
      [destruct (Z.geb_spec (r_mm r - Z.of_nat (S mp)) niov) as [F2|F2]|]; cbn [andb].
    + exists (Z.of_nat (S mp)). fold old. split; [f_equal; f_equal; f_equal; lia|].
      split; [lia|]. split; [right; split; fold old; lia|intros; lia].
    + destruct (IH r (a + 1)) as (mp' & E & B & F & M).
      { replace (zlen h - Z.of_nat mp) with (old + 1) by (unfold old; lia).
        pose proof (start_mono h old (old+1) ltac:(lia) ltac:(lia)).
        destruct W; constructor; try assumption; try lia; intros; [apply w_slot0|apply w_data0]; lia. }
      all: try lia.
      exists mp'. split; [|split; [lia|split; [exact F|]]].
      * rewrite !u64_small by lia. rewrite mod_step by lia.
        replace (old + 1) with (zlen h - Z.of_nat mp) by (unfold old; lia).
        rewrite E. do 3 f_equal. lia.
      * intros j Hj. destruct (Z.eq_dec j (Z.of_nat (S mp))) as [->|]; [|apply M; lia].
        intros [G1 G2]; fold old in G1; lia.
    + destruct (IH r (a + 1)) as (mp' & E & B & F & M).
      { replace (zlen h - Z.of_nat mp) with (old + 1) by (unfold old; lia).
        pose proof (start_mono h old (old+1) ltac:(lia) ltac:(lia)).
        destruct W; constructor; try assumption; try lia; intros; [apply w_slot0|apply w_data0]; lia. }
      all: try lia.
      exists mp'. split; [|split; [lia|split; [exact F|]]].
      * rewrite !u64_small by lia. rewrite mod_step by lia.
        replace (old + 1) with (zlen h - Z.of_nat mp) by (unfold old; lia).
        rewrite E. do 3 f_equal. lia.
      * intros j Hj. destruct (Z.eq_dec j (Z.of_nat (S mp))) as [->|]; [|apply M; lia].
        intros [G1 G2]; fold old in G1; lia.
Qed.

Lemma fits_mono n mm len niov h j k : fits n mm len niov h j -> 0 <= k <= j -> j <= zlen h ->
  fits n mm len niov h k.
Proof.
  intros [F1 F2] Hk Hj; split; [|lia].
  pose proof (start_mono h (zlen h - j) (zlen h - k) ltac:(lia) ltac:(lia)); lia.
Qed.

Lemma win_shrink r h old old' : Win r h old -> old <= old' <= zlen h -> Win r h old'.
Proof.
  intros W H. pose proof (w_old _ _ _ W).
  pose proof (start_mono h old old' ltac:(lia) ltac:(lia)).
  destruct W; constructor; try assumption; try lia; intros; [apply w_slot0|apply w_data0]; lia.
Qed.

(** Fields a commit leaves alone. *)
Definition same_fixed (r r' : ring) : Prop :=
  r_gflags r' = r_gflags r /\ r_n r' = r_n r /\ r_mm r' = r_mm r /\
  r_mv_len r' = r_mv_len r /\ r_pad_len r' = r_pad_len r /\ r_app_len r' = r_app_len r /\
  r_app r' = r_app r.
Lemma same_fixed_refl r : same_fixed r r.
Proof. repeat split. Qed.
Lemma same_fixed_trans a b c : same_fixed a b -> same_fixed b c -> same_fixed a c.
Proof. unfold same_fixed; intuition congruence. Qed.
Lemma same_fixed_farm a b : same_fixed a b -> r_farm b = r_farm a.
Proof. intros (E & _); unfold r_farm; rewrite E; reflexivity. Qed.
Lemma same_fixed_drop a b : same_fixed a b -> r_drop b = r_drop a.
Proof. intros (E & _); unfold r_drop; rewrite E; reflexivity. Qed.

Definition has_space (r : ring) (len niov : Z) : Prop :=
  r_u r + len <= r_n r /\ r_m r + niov <= r_mm r.

Lemma fits_m r h len niov : Inv0 r h ->
  (fits (r_n r) (r_mm r) len niov h (r_m r) <-> has_space r len niov).
Proof. intros I; unfold fits, has_space; rewrite (i_u _ _ I); lia. Qed.

Lemma wr_commit_ok r h ms : Inv0 r h -> nonempty ms -> ms <> [] ->
  has_space r (zlen (concat ms)) (zlen ms) ->
  exists r' keep, wr_commit r (r_mm r) ms (zlen (concat ms)) = Ok r'
    /\ Inv0 r' (h ++ ms)
    /\ same_fixed r r' /\ r_stat r' = r_stat r
    /\ r_m r' = r_m r + zlen ms
    /\ r_u r' = r_u r + zlen (concat ms)
    /\ r_mp r' = keep + zlen ms
    /\ r_m r <= keep <= r_mp r
    /\ fits (r_n r) (r_mm r) (zlen (concat ms)) (zlen ms) h keep
    /\ (forall j, keep < j <= r_mp r ->
          ~ fits (r_n r) (r_mm r) (zlen (concat ms)) (zlen ms) h j).
Proof.
  intros I Hne Hnn Hsp. pose proof (i_win _ _ I) as W. pose proof (i_m _ _ I) as Hm.
  pose proof (w_n _ _ _ W) as Hn. pose proof (w_mm _ _ _ W) as Hmm.
  pose proof (w_old _ _ _ W) as Hold. pose proof (w_cnt _ _ _ W) as Hcnt.
  pose proof (inv_u_le _ _ I) as Hu.
  set (len := zlen (concat ms)) in *. set (niov := zlen ms) in *.
  assert (Hlen : 0 < len /\ 0 < niov).
  { destruct ms as [|b t]; [congruence|]. inversion Hne; subst.
    unfold len, niov; cbn [concat]; rewrite zlen_app, zlen_cons.
    pose proof (zlen_nonneg (concat t)); pose proof (zlen_nonneg t); lia. }
  pose proof (proj2 (fits_m r h len niov I) Hsp) as Fm.
  destruct Hsp as [Sp1 Sp2].
  unfold wr_commit. fold niov. fold len.
  rewrite !u64_small by lia.
  destruct (Z.geb_spec (r_n r - r_u r) len); [|lia].
  destruct (Z.leb_spec (r_m r + niov) (r_mm r)); [|lia].
  destruct (Z.leb_spec (r_mp r) (r_mm r)); [|lia].
  destruct (evict_ok h len niov (Z.to_nat (r_mp r)) r 0) as (keep & E & B & F & M).
  { rewrite Z2Nat.id by lia. exact W. }
  all: try lia.
  rewrite Z2Nat.id in * by lia.
  rewrite (i_e _ _ I), E. cbn [obind].
  assert (Hk : r_m r <= keep).
  { destruct (Z_lt_ge_dec keep (r_m r)); [|lia]. exfalso; apply (M (r_m r)); [lia|exact Fm]. }
  assert (Fk : fits (r_n r) (r_mm r) len niov h keep).
  { destruct F as [->|F]; [|exact F]. eapply fits_mono; [exact Fm|lia|lia]. }
  cbn [r_e r_mp r_mm r_q set].
  pose proof (Z.mod_pos_bound (zlen h - keep) (r_mm r) ltac:(lia)) as Hp.
  rewrite umod_ok by lia. cbn [obind].
  rewrite (u64_small ((zlen h - keep) mod r_mm r + keep)) by lia.
  replace (((zlen h - keep) mod r_mm r + keep) mod r_mm r) with (zlen h mod r_mm r)
    by (rewrite Zplus_mod_idemp_l; f_equal; lia).
  set (r1 := r <| r_e := (zlen h - keep) mod r_mm r |> <| r_q := u64 (r_q r + (0 + (r_mp r - keep))) |>
               <| r_mp := keep |>).
  assert (W1 : Win r1 h (zlen h - keep)).
  { pose proof (win_shrink r h _ (zlen h - keep) W ltac:(lia)) as W1.
    eapply win_ext; [exact W1|reflexivity..]. }
  destruct Fk as [Fk1 Fk2].
  destruct (copy_loop_ok ms r1 h (zlen h - keep) W1 Hne) as (mv & d & i & E2 & W2).
  { cbn [r1 r_n set]. fold len. lia. }
  { cbn [r1 r_mm set]. fold niov. lia. }
  cbn [r1 r_mm set] in E2. fold r1 in E2. rewrite E2. cbn [obind].
  eexists; exists keep. split; [reflexivity|].
  assert (Hzl : zlen (h ++ ms) = zlen h + niov) by apply zlen_app.
  split; [|split; [|split; [|split; [|split; [|split; [|split; [|split]]]]]]].
  - constructor; cbn [r1 r_e r_q r_mp r_u r_m r_mm r_r set]; rewrite ?Hzl; u64s; try lia.
    + replace (zlen h + niov - (keep + niov)) with (zlen h - keep) by lia.
      eapply win_ext; [exact W2|reflexivity..].
    + f_equal; lia.
    + rewrite (i_r _ _ I). f_equal; lia.
    + rewrite (i_q _ _ I). rewrite u64_add_l. f_equal; lia.
    + rewrite concat_app, zlen_app. fold len. rewrite (i_u _ _ I).
      replace (zlen h + niov - (r_m r + niov)) with (zlen h - r_m r) by lia.
      rewrite start_app by lia. lia.
  - destruct r; repeat split.
  - destruct r; reflexivity.
  - cbn [r1 r_m set]. rewrite u64_small by lia. reflexivity.
  - cbn [r1 r_u set]. rewrite u64_small by lia. reflexivity.
  - cbn [r1 r_mp set]. rewrite u64_small by lia. reflexivity.
  - lia.
  - split; assumption.
  - exact M.
Qed.

(** ** dropping *)
Lemma drop_loop_ok r h niov need : Inv0 r h -> 0 <= niov <= r_mm r -> 0 <= need <= r_n r ->
  let rdp := zlen h - r_m r in
  forall c, (c <= Z.to_nat (r_m r))%nat -> forall fuel, (c < fuel)%nat ->
  let i0 := r_m r - Z.of_nat c in
  exists i, drop_loop fuel (r_mv r) (r_mm r) niov need (r_mm r - r_m r) (r_n r - r_u r)
              i0 (start h (rdp + i0) - start h rdp) ((rdp + i0) mod r_mm r)
     = Ok (i, start h (rdp + i) - start h rdp, (rdp + i) mod r_mm r)
   /\ i0 <= i <= r_m r
   /\ fits (r_n r) (r_mm r) need niov h (r_m r - i)
   /\ (forall j, i0 <= j < i -> ~ fits (r_n r) (r_mm r) need niov h (r_m r - j)).
Proof.
  intros I Hniov Hneed rdp. pose proof (i_win _ _ I) as W. pose proof (i_m _ _ I) as Hm.
  pose proof (w_n _ _ _ W) as Hn. pose proof (w_mm _ _ _ W) as Hmm.
  pose proof (w_old _ _ _ W) as Hold. pose proof (w_cnt _ _ _ W) as Hcnt.
  pose proof (inv_u_le _ _ I) as Hu. pose proof (i_u _ _ I) as Eu. fold rdp in Eu.
  assert (Hst : forall i, 0 <= i <= r_m r -> start h rdp <= start h (rdp + i) <= zlen (concat h)).
  { intros i Hi; split; [apply start_mono; unfold rdp; lia|apply start_le_tot; unfold rdp; lia]. }
  assert (Hf : forall i, fits (r_n r) (r_mm r) need niov h (r_m r - i) <->
     need <= r_n r - r_u r + (start h (rdp + i) - start h rdp) /\ niov <= r_mm r - r_m r + i).
  { intros i; unfold fits. replace (zlen h - (r_m r - i)) with (rdp + i) by (unfold rdp; lia). lia. }
  induction c as [|c IH]; intros Hc fuel Hfuel i0.
  - exists (r_m r). subst i0. cbn [Z.of_nat]. rewrite Z.sub_0_r.
    assert (Fm : fits (r_n r) (r_mm r) need niov h (r_m r - r_m r)).
    { rewrite Hf. replace (rdp + r_m r) with (zlen h) by (unfold rdp; lia). rewrite start_tot. lia. }
    split; [|split; [lia|split; [exact Fm|intros; lia]]].
    rewrite Hf in Fm. pose proof (Hst (r_m r) ltac:(lia)).
    destruct fuel as [|f]; [lia|]; cbn [drop_loop].
    rewrite !u64_small by lia.
    destruct (Z.gtb_spec niov (r_mm r - r_m r + r_m r)); [lia|].
    destruct (Z.gtb_spec need (r_n r - r_u r + (start h (rdp + r_m r) - start h rdp))); [lia|].
    reflexivity.
  - assert (Hi0 : 0 <= i0 < r_m r) by (unfold i0; lia).
    pose proof (Hst i0 ltac:(lia)) as Hs0.
    destruct fuel as [|f]; [lia|]. cbn [drop_loop].
    rewrite (u64_small (r_mm r - r_m r + i0)) by lia.
    rewrite (u64_small (r_n r - r_u r + _)) by lia.
    destruct ((niov >? r_mm r - r_m r + i0) || (need >? r_n r - r_u r + (start h (rdp + i0) - start h rdp))) eqn:EC.
    + pose proof (Z.mod_pos_bound (rdp + i0) (r_mm r) ltac:(lia)) as Hp.
      rewrite (zget_ok slot0) by (rewrite (w_mv _ _ _ W); lia). cbn [obind].
      rewrite (w_slot _ _ _ W) by (unfold rdp; lia). cbn [sl_len].
      pose proof (start_S h (rdp + i0) ltac:(unfold rdp; lia)) as ES.
      pose proof (Hst (i0 + 1) ltac:(lia)) as Hs1.
      destruct (IH ltac:(lia) f ltac:(lia)) as (i & E & B & F & M).
      replace (r_m r - Z.of_nat c) with (i0 + 1) in * by (unfold i0; lia).
      replace (rdp + (i0 + 1)) with (rdp + i0 + 1) in * by lia.
      rewrite !u64_small by (try apply Z.mod_pos_bound; lia).
      rewrite mod_step by (unfold rdp; lia).
      replace (start h (rdp + i0) - start h rdp + zlen (hmsg h (rdp + i0)))
        with (start h (rdp + i0 + 1) - start h rdp) by lia.
      exists i. split; [exact E|]. split; [lia|]. split; [exact F|].
      intros j Hj. destruct (Z.eq_dec j i0) as [->|]; [|apply M; lia].
      rewrite Hf. apply orb_true_iff in EC. destruct EC as [EC|EC]; apply Z.gtb_lt in EC; lia.
    + apply orb_false_iff in EC. destruct EC as [EC1 EC2].
      rewrite Z.gtb_ltb in EC1, EC2. apply Z.ltb_ge in EC1, EC2.
      exists i0. split; [reflexivity|]. split; [lia|]. split; [rewrite Hf; lia|intros; lia].
Qed.

Lemma drop_unread_ok r h niov need : Inv0 r h -> r_drop r = true ->
  0 <= niov <= r_mm r -> 0 <= need <= r_n r -> ~ has_space r need niov ->
  exists r' i, drop_unread r (r_mm r) need niov = Ok r'
    /\ Inv0 r' h /\ same_fixed r r'
    /\ r_mp r' = r_mp r /\ r_m r' = r_m r - i /\ 0 < i <= r_m r
    /\ has_space r' need niov
    /\ (forall j, 0 <= j < i -> ~ fits (r_n r) (r_mm r) need niov h (r_m r - j))
    /\ r_stat r' = r_stat r <| st_bd := u64 (st_bd (r_stat r) + (r_u r - r_u r')) |>
                            <| st_md := u64 (st_md (r_stat r) + i) |>.
Proof.
  intros I Hd Hniov Hneed Hns. pose proof (i_win _ _ I) as W. pose proof (i_m _ _ I) as Hm.
  pose proof (w_n _ _ _ W) as Hn. pose proof (w_mm _ _ _ W) as Hmm.
  pose proof (w_old _ _ _ W) as Hold. pose proof (w_cnt _ _ _ W) as Hcnt.
  pose proof (inv_u_le _ _ I) as Hu. pose proof (inv_u0 _ _ I) as Hu0.
  unfold drop_unread. rewrite Hd. rewrite (u64_small (r_n r - r_u r)), (u64_small (r_mm r - r_m r)) by lia.
  destruct (Z.geb_spec (r_mm r) niov); [|lia].
  destruct (Z.leb_spec (r_m r) (r_mp r)); [|lia].
  destruct (Z.leb_spec (r_m r) (r_mm r)); [|lia].
  destruct (Z.eqb_spec (r_mp r) 0) as [E0|E0].
  { exfalso; apply Hns. unfold has_space. assert (r_m r = 0) by lia. lia. }
  cbn [negb].
  pose proof (drop_loop_ok r h niov need I Hniov Hneed (Z.to_nat (r_m r)) ltac:(lia)
     (S (Z.to_nat (r_mm r))) ltac:(lia)) as D. cbv zeta in D.
  rewrite Z2Nat.id in D by lia. rewrite Z.sub_diag in D.
  destruct D as (i & E & B & F & M).
  rewrite !Z.add_0_r, Z.sub_diag in E. rewrite (i_r _ _ I). rewrite E. cbn [obind].
  set (rdp := zlen h - r_m r) in *.
  assert (Hst : start h rdp <= start h (rdp + i) <= zlen (concat h)).
  { split; [apply start_mono; unfold rdp; lia|apply start_le_tot; unfold rdp; lia]. }
  pose proof (start_nonneg h rdp) as Hs0.
  pose proof (i_u _ _ I) as Eu. fold rdp in Eu.
  rewrite (u64_small (r_u r - _)) by lia. rewrite (u64_small (r_m r - i)) by lia.
  cbn [r_n r_u r_mm r_m r_stat set].
  assert (Hsp : need <= r_n r - (r_u r - (start h (rdp + i) - start h rdp)) /\ niov <= r_mm r - (r_m r - i)).
  { unfold fits in F. replace (zlen h - (r_m r - i)) with (rdp + i) in F by (unfold rdp; lia). lia. }
  rewrite (u64_small (r_n r - _)) by lia. rewrite (u64_small (r_mm r - _)) by lia.
  destruct (Z.geb_spec (r_n r - (r_u r - (start h (rdp + i) - start h rdp))) need); [|lia].
  destruct (Z.geb_spec (r_mm r - (r_m r - i)) niov); [|lia].
  eexists; exists i. split; [reflexivity|].
  assert (Hi0 : 0 < i).
  { destruct (Z.eq_dec i 0) as [->|]; [|lia]. exfalso. apply Hns.
    rewrite Z.sub_0_r in F. apply (fits_m r h); assumption. }
  split; [|split; [|split; [|split; [|split; [|split; [|split]]]]]].
  - constructor; cbn [r_mp r_m r_e r_r r_q r_u r_mm set]; try lia.
    + eapply win_ext; [exact W|reflexivity..].
    + apply (i_e _ _ I).
    + replace (zlen h - (r_m r - i)) with (rdp + i) by (unfold rdp; lia). reflexivity.
    + apply (i_q _ _ I).
    + replace (zlen h - (r_m r - i)) with (rdp + i) by (unfold rdp; lia). lia.
  - destruct r; repeat split.
  - destruct r; reflexivity.
  - destruct r; reflexivity.
  - lia.
  - unfold has_space; cbn [r_u r_n r_m r_mm set]. lia.
  - exact M.
  - cbn [r_stat r_u set].
    replace (r_u r - (r_u r - (start h (rdp + i) - start h rdp))) with (start h (rdp + i) - start h rdp) by lia.
    destruct r as [????????? st ???????]; destruct st; reflexivity.
Qed.

(** ** locating and copying messages out *)

(** segment [s] of ring [r] denotes message [b] *)
Record seg_is (r : ring) (s : seg) (b : bytes) : Prop := mkSegIs {
  sg_pos : 0 <= seg_pos s;
  sg_l1 : 0 <= seg_l1 s;
  sg_l2 : 0 <= seg_l2 s;
  sg_b1 : seg_pos s + seg_l1 s <= zlen (r_d r);
  sg_b2 : seg_l2 s <= zlen (r_d r);
  sg_len : seg_l1 s + seg_l2 s = zlen b;
  sg_eq : sub (seg_pos s) (seg_l1 s) (r_d r) ++ sub 0 (seg_l2 s) (r_d r) = b }.

Definition slot_seg (r : ring) (sl : slot) : seg :=
  let pos := sl_pos sl in
  let len := sl_len sl in
  let wraps := u64 (pos + len) >? r_n r in
  let l1 := if wraps then u64 (r_n r - pos) else len in
  let l2 := if wraps then u64 (len - l1) else 0 in
  mkseg pos l1 l2.

Lemma slot_seg_ok r h old k : Win r h old -> old <= k < zlen h ->
  seg_is r (slot_seg r (znth slot0 (r_mv r) (k mod r_mm r))) (hmsg h k).
Proof.
  intros W Hk. destruct (msg_le_n r h old k W Hk) as (Hm & Hm2 & Hm3).
  pose proof (w_n _ _ _ W) as Hn. pose proof (w_old _ _ _ W). pose proof (w_occ _ _ _ W).
  rewrite (w_slot _ _ _ W) by lia. unfold slot_seg; cbn [sl_pos sl_len].
  pose proof (Z.mod_pos_bound (start h k) (r_n r) ltac:(lia)) as Hp.
  pose proof (start_nonneg h k) as Hs0.
  pose proof (ring_get_spec (r_d r) (r_n r) (start h k) (zlen (hmsg h k)) (concat h)
     (w_d _ _ _ W) ltac:(lia) ltac:(lia) ltac:(lia) ltac:(lia)) as G.
  assert (G' : forall x, start h k <= x < start h k + zlen (hmsg h k) ->
     znth 0 (r_d r) (x mod r_n r) = znth 0 (concat h) x).
  { intros x Hx; apply (w_data _ _ _ W); lia. }
  specialize (G G'). rewrite <- hmsg_sub in G by lia.
  u64s.
  destruct (Z.gtb_spec (start h k mod r_n r + zlen (hmsg h k)) (r_n r)) as [Hw|Hw].
  - u64s. constructor; cbn [seg_pos seg_l1 seg_l2]; rewrite ?(w_d _ _ _ W); try lia. exact G.
  - constructor; cbn [seg_pos seg_l1 seg_l2]; rewrite ?(w_d _ _ _ W); try lia.
    rewrite sub_0_0, app_nil_r. exact G.
Qed.

(** The logical read position of a reader: for a FARM ring its own sequence
    number, otherwise the ring's shared position. *)
Definition rpos (r : ring) (h : list bytes) (q : Z) : Z :=
  if r_farm r then q else zlen h - r_m r.

(** A farm reader's position is a message index that fits size_t. *)
Definition qok (r : ring) (h : list bytes) (q : Z) : Prop :=
  r_farm r = true -> zlen h < W64 /\ 0 <= q <= zlen h.

Lemma next_nonfarm r h q md : Inv0 r h -> r_farm r = false ->
  (r_m r = 0 -> next_msg_info r q md = Ok (q, md, None)) /\
  (0 < r_m r -> exists s, next_msg_info r q md = Ok (q, md, Some s)
     /\ seg_is r s (hmsg h (zlen h - r_m r))).
Proof.
  intros I Hf. pose proof (i_win _ _ I) as W. pose proof (i_m _ _ I) as Hm.
  pose proof (w_mm _ _ _ W) as Hmm.
  unfold next_msg_info; rewrite Hf; cbn [andb]. split; intros H.
  - rewrite H; reflexivity.
  - destruct (Z.eqb_spec (r_m r) 0); [lia|]; cbn [negb obind].
    rewrite (i_r _ _ I).
    rewrite (zget_ok slot0) by (rewrite (w_mv _ _ _ W); apply Z.mod_pos_bound; lia).
    cbn [obind]. eexists; split; [reflexivity|].
    apply (slot_seg_ok r h _ _ W). lia.
Qed.

Lemma next_farm r h q md : Inv0 r h -> r_farm r = true -> zlen h < W64 -> 0 <= q <= zlen h ->
  let q' := Z.max q (zlen h - r_mp r) in
  let md' := if q <? zlen h - r_mp r then u64 (md + (q' - q)) else md in
  (q' = zlen h -> next_msg_info r q md = Ok (q', md', None)) /\
  (q' < zlen h -> exists s, next_msg_info r q md = Ok (q', md', Some s)
     /\ seg_is r s (hmsg h q')).
Proof.
  intros I Hf Ht Hq q' md'. pose proof (i_win _ _ I) as W. pose proof (i_m _ _ I) as Hm.
  pose proof (w_mm _ _ _ W) as Hmm. pose proof (w_old _ _ _ W) as Hold.
  unfold next_msg_info; rewrite Hf; cbn [andb].
  rewrite (i_q _ _ I). rewrite !(u64_small (zlen h - r_mp r)) by lia.
  replace (if q <? zlen h - r_mp r then (zlen h - r_mp r, u64 (md + u64 (zlen h - r_mp r - q))) else (q, md))
    with (q', md').
  2:{ unfold q', md'. destruct (Z.ltb_spec q (zlen h - r_mp r)).
      - rewrite (u64_small (zlen h - r_mp r - q)) by lia. f_equal; [lia|]. do 2 f_equal; lia.
      - rewrite Z.max_l by lia. reflexivity. }
  rewrite (u64_small (zlen h - r_mp r + r_mp r)) by lia.
  replace (zlen h - r_mp r + r_mp r) with (zlen h) by lia.
  assert (Hq' : zlen h - r_mp r <= q' <= zlen h) by (unfold q'; lia).
  clearbody q' md'.
  split; intros H.
  - destruct (Z.ltb_spec q' (zlen h)); [lia|]; reflexivity.
  - destruct (Z.ltb_spec q' (zlen h)); [|lia]; cbn [negb].
    rewrite umod_ok by lia; cbn [obind].
    rewrite (zget_ok slot0) by (rewrite (w_mv _ _ _ W); apply Z.mod_pos_bound; lia).
    cbn [obind]. eexists; split; [reflexivity|].
    apply (slot_seg_ok r h _ _ W). lia.
Qed.

(** ring with [c] messages ([z] bytes) consumed *)
Definition ring_adv (r : ring) (h : list bytes) (c z : Z) : ring :=
  if r_farm r then r else
  r <| r_r := (zlen h - r_m r + c) mod r_mm r |>
    <| r_u := r_u r - z |> <| r_m := r_m r - c |>.

Lemma ring_adv_inv r h c : Inv r h -> 0 <= c <= r_m r ->
  Inv (ring_adv r h c (start h (zlen h - r_m r + c) - start h (zlen h - r_m r))) h.
Proof.
  intros I Hc. unfold ring_adv. destruct (r_farm r) eqn:Hf; [exact I|].
  pose proof (i_inv0 _ _ I) as I0.
  pose proof (i_win _ _ I0) as W. pose proof (i_m _ _ I0) as Hm.
  constructor.
  - constructor; cbn [r_mp r_m r_e r_r r_q r_u r_mm set]; try lia.
    + eapply win_ext; [exact W|reflexivity..].
    + apply (i_e _ _ I0).
    + f_equal; lia.
    + apply (i_q _ _ I0).
    + rewrite (i_u _ _ I0). replace (zlen h - (r_m r - c)) with (zlen h - r_m r + c) by lia. lia.
  - intros Hf'. exfalso. unfold r_farm in *; cbn in Hf'. congruence.
Qed.

(** [cur] is what next_msg_info reports at logical position [k] *)
Definition cur_is (r : ring) (h : list bytes) (k : Z) (cur : option seg) : Prop :=
  match cur with
  | None => k = zlen h
  | Some s => k < zlen h /\ seg_is r s (hmsg h k)
  end.

Lemma next_at r h q md : Inv r h -> qok r h q ->
  let k := Z.max (rpos r h q) (zlen h - r_mp r) in
  exists q' md' cur, next_msg_info r q md = Ok (q', md', cur)
    /\ cur_is r h k cur /\ rpos r h q' = k /\ qok r h q'
    /\ q' = (if r_farm r then k else q)
    /\ md' = (if r_farm r && (q <? zlen h - r_mp r) then u64 (md + (k - q)) else md).
Proof.
  intros I Hq k. pose proof (i_inv0 _ _ I) as I0.
  pose proof (i_win _ _ I0) as W. pose proof (i_m _ _ I0) as Hm.
  pose proof (w_old _ _ _ W) as Hold.
  unfold rpos in *. destruct (r_farm r) eqn:Hf.
  - destruct (Hq Hf) as [Ht Hq'].
    destruct (next_farm r h q md I0 Hf Ht Hq') as [N1 N2]. cbv zeta in N1, N2. fold k in N1, N2.
    destruct (Z_lt_ge_dec k (zlen h)) as [L|L].
    + destruct (N2 L) as (s & E & S). exists k, (if q <? zlen h - r_mp r then u64 (md + (k - q)) else md), (Some s).
      split; [exact E|]. split; [split; assumption|]. split; [reflexivity|].
      split; [|split; reflexivity]. intros _. split; [assumption|]. subst k; lia.
    + assert (k = zlen h) by (subst k; lia).
      exists k, (if q <? zlen h - r_mp r then u64 (md + (k - q)) else md), None.
      split; [apply N1; assumption|]. split; [assumption|]. split; [reflexivity|].
      split; [|split; reflexivity]. intros _. split; [assumption|]. subst k; lia.
  - destruct (next_nonfarm r h q md I0 Hf) as [N1 N2].
    assert (k = zlen h - r_m r) by (subst k; lia).
    destruct (Z.eq_dec (r_m r) 0) as [E0|E0].
    + exists q, md, None. split; [apply N1; assumption|]. cbn [cur_is andb].
      split; [lia|]. split; [lia|]. split; [exact Hq|]. split; reflexivity.
    + destruct (N2 ltac:(lia)) as (s & E & S). exists q, md, (Some s).
      split; [exact E|]. cbn [cur_is andb]. rewrite H.
      split; [split; [lia|exact S]|]. split; [reflexivity|]. split; [exact Hq|]. split; reflexivity.
Qed.

Lemma take_fit_len n : forall len ms, 0 <= len -> zlen (concat (take_fit n len ms)) <= len.
Proof.
  induction n as [|n IH]; intros len ms Hl; [cbn; lia|].
  destruct ms as [|m t]; [cbn; lia|]. cbn [take_fit].
  destruct (Z.leb_spec (zlen m) len); [|cbn; lia].
  cbn [concat]; rewrite zlen_app. specialize (IH (len - zlen m) t ltac:(lia)). lia.
Qed.
Lemma take_fit_prefix n : forall len ms, exists rest, ms = take_fit n len ms ++ rest.
Proof.
  induction n as [|n IH]; intros len ms; [exists ms; reflexivity|].
  destruct ms as [|m t]; [exists []; reflexivity|]. cbn [take_fit].
  destruct (zlen m <=? len); [|exists (m :: t); reflexivity].
  destruct (IH (len - zlen m) t) as [rest E]. exists rest. cbn [app]. f_equal. exact E.
Qed.
Lemma take_fit_cnt n len ms : zlen (take_fit n len ms) <= zlen ms.
Proof.
  destruct (take_fit_prefix n len ms) as [rest E]. rewrite E at 2. rewrite zlen_app.
  pose proof (zlen_nonneg rest); lia.
Qed.
Lemma start_take n len h k : 0 <= k <= zlen h ->
  start h (k + zlen (take_fit n len (skipn (Z.to_nat k) h)))
  = start h k + zlen (concat (take_fit n len (skipn (Z.to_nat k) h))).
Proof.
  intros Hk. destruct (take_fit_prefix n len (skipn (Z.to_nat k) h)) as [rest E].
  set (t := take_fit n len (skipn (Z.to_nat k) h)) in *.
  unfold start.
  replace (firstn (Z.to_nat (k + zlen t)) h) with (firstn (Z.to_nat k) h ++ t).
  - rewrite concat_app, zlen_app. reflexivity.
  - rewrite <- (firstn_skipn (Z.to_nat k) h) at 2. rewrite E.
    rewrite app_assoc, firstn_app.
    assert (L : length (firstn (Z.to_nat k) h ++ t) = Z.to_nat (k + zlen t)).
    { rewrite app_length, firstn_length. unfold zlen in *. lia. }
    rewrite <- L. rewrite firstn_all, Nat.sub_diag. cbn [firstn]. rewrite app_nil_r. reflexivity.
Qed.

Lemma ring_adv_0 r h z : Inv r h -> z = 0 -> ring_adv r h 0 z = r.
Proof.
  intros I ->. unfold ring_adv. destruct (r_farm r); [reflexivity|].
  pose proof (i_r _ _ (i_inv0 _ _ I)) as E. rewrite !Z.sub_0_r, Z.add_0_r, <- E. destruct r; reflexivity.
Qed.

Lemma ring_adv_same r h c z : same_fixed r (ring_adv r h c z).
Proof. unfold ring_adv; destruct (r_farm r); [apply same_fixed_refl|]; destruct r; repeat split. Qed.

Lemma rd_loop_ok niov : forall cur x h k,
  Inv (rd_ring x) h -> qok (rd_ring x) h (rd_q x) ->
  rpos (rd_ring x) h (rd_q x) = k -> zlen h - r_mp (rd_ring x) <= k ->
  cur_is (rd_ring x) h k cur ->
  0 <= rd_off x -> 0 <= rd_len x < W64 -> rd_off x + rd_len x <= zlen (rd_buf x) ->
  let taken := take_fit niov (rd_len x) (skipn (Z.to_nat k) h) in
  let z := zlen (concat taken) in
  let c := zlen taken in
  let r' := ring_adv (rd_ring x) h c z in
  exists cur', rd_loop niov cur x = Ok
    (mkrd r' (if r_farm (rd_ring x) then rd_q x + c else rd_q x) (rd_md x)
       (blit (rd_off x) (concat taken) (rd_buf x)) (rd_off x + z) (rd_len x - z) (rd_nr x + z)
       (rev (tile (rd_off x) taken) ++ rd_iov x), cur')
    /\ Inv r' h /\ cur_is r' h (k + c) cur'.
Proof.
  assert (STOP : forall cur x h k,
    Inv (rd_ring x) h -> rpos (rd_ring x) h (rd_q x) = k -> cur_is (rd_ring x) h k cur ->
    exists cur', Ok (x, cur) = Ok
    (mkrd (ring_adv (rd_ring x) h (zlen (@nil bytes)) (zlen (concat (@nil bytes))))
       (if r_farm (rd_ring x) then rd_q x + zlen (@nil bytes) else rd_q x) (rd_md x)
       (blit (rd_off x) (concat []) (rd_buf x)) (rd_off x + zlen (concat (@nil bytes)))
       (rd_len x - zlen (concat (@nil bytes))) (rd_nr x + zlen (concat (@nil bytes)))
       (rev (tile (rd_off x) []) ++ rd_iov x), cur')
    /\ Inv (ring_adv (rd_ring x) h (zlen (@nil bytes)) (zlen (concat (@nil bytes)))) h
    /\ cur_is (ring_adv (rd_ring x) h (zlen (@nil bytes)) (zlen (concat (@nil bytes)))) h
         (k + zlen (@nil bytes)) cur').
  { intros cur x h k I Hk Hc. cbn [concat rev tile app].
    change (zlen (@nil bytes)) with 0. change (zlen (@nil Z)) with 0.
    rewrite (ring_adv_0 _ _ 0 I eq_refl). rewrite blit_nil, !Z.add_0_r, Z.sub_0_r.
    exists cur. split; [|split; [exact I|exact Hc]].
    destruct (r_farm (rd_ring x)); rewrite ?Z.add_0_r; destruct x; reflexivity. }
  induction niov as [|niov IH]; intros cur x h k I Hq Hk Hold Hc Hoff Hlen Hbuf.
  - cbn [take_fit]. destruct cur; cbn [rd_loop]; apply STOP; assumption.
  - destruct cur as [s|].
    2:{ cbn [cur_is] in Hc. cbn [rd_loop].
        replace (skipn (Z.to_nat k) h) with (@nil bytes)
          by (symmetry; apply skipn_all2; unfold zlen in *; lia).
        cbn [take_fit]. apply STOP; assumption. }
    destruct Hc as [Hkh Hs]. cbn [rd_loop].
    pose proof (i_inv0 _ _ I) as I0. pose proof (i_win _ _ I0) as W. pose proof (i_m _ _ I0) as Hm.
    pose proof (w_n _ _ _ W) as Hn. pose proof (w_mm _ _ _ W) as Hmm.
    pose proof (w_old _ _ _ W) as Hold2.
    assert (Hkr : zlen h - r_mp (rd_ring x) <= k < zlen h) by lia.
    destruct (msg_le_n _ h _ k W Hkr) as (Hml & Hm2 & Hm3).
    rewrite (skipn_hmsg h k) by lia. cbn [take_fit].
    pose proof (sg_len _ _ _ Hs) as Hsl. rewrite Hsl.
    rewrite (u64_small (zlen (hmsg h k))) by lia.
    destruct (Z.gtb_spec (zlen (hmsg h k)) (rd_len x)) as [Hgt|Hle].
    { destruct (Z.leb_spec (zlen (hmsg h k)) (rd_len x)); [lia|]. apply STOP; try assumption. split; assumption. }
    destruct (Z.leb_spec (zlen (hmsg h k)) (rd_len x)); [|lia].
    set (m := hmsg h k) in *.
    (* the copy *)
    assert (CP : (do a <- rd_mem (seg_pos s) (seg_l1 s) (r_d (rd_ring x));
                  do buf <- wr_mem (rd_off x) a (rd_buf x);
                  (if seg_l2 s =? 0 then Ok buf else
                   do b <- rd_mem 0 (seg_l2 s) (r_d (rd_ring x));
                   wr_mem (rd_off x + seg_l1 s) b buf))
                 = Ok (blit (rd_off x) m (rd_buf x))).
    { destruct Hs as [S1 S2 S3 S4 S5 S6 S7].
      assert (L1 : zlen (sub (seg_pos s) (seg_l1 s) (r_d (rd_ring x))) = seg_l1 s) by (apply zlen_sub; lia).
      assert (L2 : zlen (sub 0 (seg_l2 s) (r_d (rd_ring x))) = seg_l2 s) by (apply zlen_sub; lia).
      rewrite rd_mem_ok by lia; cbn [obind]. rewrite wr_mem_ok by lia; cbn [obind].
      destruct (Z.eqb_spec (seg_l2 s) 0) as [E2|E2].
      - rewrite E2, sub_0_0, app_nil_r in S7. rewrite S7; reflexivity.
      - rewrite rd_mem_ok by lia; cbn [obind]. rewrite wr_mem_ok; [|lia|rewrite zlen_blit; lia].
        rewrite <- S7 at 1. rewrite <- blit_blit_app by lia. rewrite L1. reflexivity. }
    destruct (rd_mem (seg_pos s) (seg_l1 s) (r_d (rd_ring x))) as [a| | |]; cbn [obind] in CP |- *; try discriminate CP.
    destruct (wr_mem (rd_off x) a (rd_buf x)) as [bf| | |]; cbn [obind] in CP |- *; try discriminate CP.
    rewrite CP; cbn [obind]. clear CP.
    (* the position *)
    set (r1 := ring_adv (rd_ring x) h 1 (zlen m)).
    assert (Hz1 : start h (zlen h - r_m (rd_ring x) + 1) - start h (zlen h - r_m (rd_ring x)) = zlen m
                  \/ r_farm (rd_ring x) = true).
    { destruct (r_farm (rd_ring x)) eqn:Hf; [right; reflexivity|left].
      unfold rpos in Hk; rewrite Hf in Hk. rewrite Hk. rewrite start_S by lia. fold m; lia. }
    assert (I1 : Inv r1 h).
    { unfold r1. destruct Hz1 as [Hz1|Hf].
      - destruct (r_farm (rd_ring x)) eqn:Hf; [unfold ring_adv; rewrite Hf; exact I|].
        unfold rpos in Hk; rewrite Hf in Hk.
        rewrite <- Hz1. apply ring_adv_inv; [exact I|lia].
      - unfold ring_adv; rewrite Hf; exact I. }
    assert (F1 : r_farm r1 = r_farm (rd_ring x)) by (apply same_fixed_farm, ring_adv_same).
    assert (Hmp1 : r_mp r1 = r_mp (rd_ring x)) by (unfold r1, ring_adv; destruct (r_farm (rd_ring x)); reflexivity).
    set (q1 := if r_farm (rd_ring x) then rd_q x + 1 else rd_q x).
    assert (Hq1 : qok r1 h q1).
    { intros Hf. rewrite F1 in Hf. unfold q1; rewrite Hf. destruct (Hq Hf).
      unfold rpos in Hk; rewrite Hf in Hk. lia. }
    assert (Hk1 : rpos r1 h q1 = k + 1).
    { unfold rpos, q1. rewrite F1. unfold rpos in Hk. unfold r1, ring_adv.
      destruct (r_farm (rd_ring x)); [lia|]. cbn [r_m set]. lia. }
    match goal with |- context [obind ?A _] =>
      replace A with (Ok (r1, q1)) end.
    2:{ unfold r1, q1, ring_adv. destruct (r_farm (rd_ring x)) eqn:Hf.
        - destruct (Hq Hf). unfold rpos in Hk; rewrite Hf in Hk. rewrite u64_small by lia. reflexivity.
        - unfold rpos in Hk; rewrite Hf in Hk.
          pose proof (Z.mod_pos_bound (zlen h - r_m (rd_ring x)) (r_mm (rd_ring x)) ltac:(lia)) as Hb.
          rewrite umod_ok by lia; cbn [obind].
          pose proof (inv_u_le _ _ I0) as Hu. pose proof (w_cnt _ _ _ W) as Hcnt.
          assert (zlen m <= r_u (rd_ring x)).
          { rewrite (i_u _ _ I0), Hk. lia. }
          rewrite (u64_small (r_u _ - _)) by lia. rewrite (u64_small (r_m _ - _)) by lia.
          rewrite (i_r _ _ I0). rewrite u64_small by lia. rewrite Zplus_mod_idemp_l. reflexivity. }
    cbn [obind].
    destruct (next_at r1 h q1 (rd_md x) I1 Hq1) as (q' & md' & cur' & E & C' & P' & Q' & Eq' & Em').
    rewrite E. cbn [obind].
    assert (Emax : Z.max (rpos r1 h q1) (zlen h - r_mp r1) = k + 1) by (rewrite Hk1, Hmp1; lia).
    rewrite Emax in *.
    assert (Eqq : q' = q1).
    { rewrite Eq', F1. unfold q1. destruct (r_farm (rd_ring x)) eqn:Hf; [|reflexivity].
      unfold rpos in Hk1; rewrite F1 in Hk1. unfold q1 in Hk1. lia. }
    assert (Emm : md' = rd_md x).
    { rewrite Em', F1. destruct (r_farm (rd_ring x)) eqn:Hf; cbn [andb]; [|reflexivity].
      unfold rpos in Hk1; rewrite F1 in Hk1. destruct (Z.ltb_spec q1 (zlen h - r_mp r1)); [lia|reflexivity]. }
    clear Eq' Em'; subst q' md'.
    rewrite (u64_small (rd_len x - zlen m)) by lia.
    specialize (IH cur' (mkrd r1 q1 (rd_md x) (blit (rd_off x) m (rd_buf x)) (rd_off x + zlen m)
                  (rd_len x - zlen m) (rd_nr x + zlen m) ((rd_off x, zlen m) :: rd_iov x)) h (k + 1)).
    cbn [rd_ring rd_q rd_md rd_buf rd_off rd_len rd_nr rd_iov] in IH.
    destruct IH as (cur2 & E2 & I2 & C2); try assumption; try lia.
    { rewrite zlen_blit; lia. }
    set (tk := take_fit niov (rd_len x - zlen m) (skipn (Z.to_nat (k + 1)) h)) in *.
    cbn [concat tile rev]. rewrite zlen_app, zlen_cons.
    pose proof (take_fit_len niov (rd_len x - zlen m) (skipn (Z.to_nat (k + 1)) h) ltac:(lia)) as TL. fold tk in TL.
    assert (RA : ring_adv r1 h (zlen tk) (zlen (concat tk))
               = ring_adv (rd_ring x) h (zlen tk + 1) (zlen m + zlen (concat tk))).
    { unfold ring_adv at 1. rewrite F1. unfold r1, ring_adv.
      destruct (r_farm (rd_ring x)); [reflexivity|].
      cbn [r_m r_u r_mm set].
      replace (zlen h - (r_m (rd_ring x) - 1) + zlen tk) with (zlen h - r_m (rd_ring x) + (zlen tk + 1)) by lia.
      replace (r_u (rd_ring x) - zlen m - zlen (concat tk)) with (r_u (rd_ring x) - (zlen m + zlen (concat tk))) by lia.
      replace (r_m (rd_ring x) - 1 - zlen tk) with (r_m (rd_ring x) - (zlen tk + 1)) by lia.
      destruct (rd_ring x); reflexivity. }
    exists cur2. rewrite E2. split; [|split].
    + rewrite RA, F1. do 2 f_equal. f_equal; try lia.
      * unfold q1; destruct (r_farm (rd_ring x)); lia.
      * rewrite <- blit_blit_app by lia. reflexivity.
      * rewrite <- app_assoc. reflexivity.
    + rewrite <- RA. exact I2.
    + rewrite <- RA. replace (k + (zlen tk + 1)) with (k + 1 + zlen tk) by lia. exact C2.
Qed.
