(** * The ring critical sections refine the abstract queue of Spec.v. *)
From Verif Require Export RingFacts.

Lemma circ_ok r h old k : Win r h old -> old <= k < zlen h ->
  circ (r_d r) (start h k mod r_n r) (zlen (hmsg h k)) = hmsg h k.
Proof.
  intros W Hk. destruct (msg_le_n r h old k W Hk) as (Hm & Hm2 & Hm3).
  pose proof (w_n _ _ _ W) as Hn. pose proof (w_old _ _ _ W). pose proof (w_occ _ _ _ W).
  pose proof (w_d _ _ _ W) as Hd.
  pose proof (Z.mod_pos_bound (start h k) (r_n r) ltac:(lia)) as Hp.
  pose proof (start_nonneg h k) as Hs0.
  apply (list_ext 0); unfold circ.
  - apply zlen_sub; [lia..|]. rewrite zlen_app. lia.
  - rewrite zlen_sub by (rewrite ?zlen_app; lia). intros j Hj.
    rewrite znth_sub by lia. rewrite hmsg_byte by lia.
    rewrite <- (w_data _ _ _ W) by lia. rewrite mod_add_cases by lia.
    destruct (Z.ltb_spec (start h k mod r_n r + j) (r_n r)).
    + rewrite znth_app1 by lia. reflexivity.
    + rewrite znth_app2 by lia. f_equal. lia.
Qed.

Lemma walk_ok r h old : Win r h old -> forall cnt k, old <= k -> k + Z.of_nat cnt <= zlen h ->
  walk r (k mod r_mm r) cnt = firstn cnt (skipn (Z.to_nat k) h).
Proof.
  intros W. pose proof (w_mm _ _ _ W) as Hmm. pose proof (w_old _ _ _ W) as Hold.
  induction cnt as [|cnt IH]; intros k Hk Hc; [reflexivity|].
  cbn [walk]. change (mkslot 0 0) with slot0. rewrite (w_slot _ _ _ W) by lia. cbn [sl_pos sl_len].
  rewrite (circ_ok r h old k W) by lia. rewrite (skipn_hmsg h k) by lia. cbn [firstn]. f_equal.
  rewrite Zplus_mod_idemp_l. apply IH; lia.
Qed.

Lemma firstn_all_zlen {A} (l : list A) k : Z.of_nat k = zlen l -> firstn k l = l.
Proof. intros H; apply firstn_all2; unfold zlen in H; lia. Qed.
Lemma zlen_skipn {A} (l : list A) k : 0 <= k <= zlen l -> zlen (skipn (Z.to_nat k) l) = zlen l - k.
Proof. intros H; unfold zlen in *; rewrite skipn_length; lia. Qed.

(** the last [j] messages of [h] *)
Definition lastn (j : Z) (h : list bytes) : list bytes := skipn (Z.to_nat (zlen h - j)) h.
Lemma zlen_lastn j h : 0 <= j <= zlen h -> zlen (lastn j h) = j.
Proof. intros; unfold lastn; rewrite zlen_skipn; lia. Qed.
Lemma nbytes_lastn j h : 0 <= j <= zlen h ->
  nbytes (lastn j h) = zlen (concat h) - start h (zlen h - j).
Proof. intros; unfold lastn, nbytes; apply zlen_concat_skipn; lia. Qed.
Lemma lastn_0 h : lastn 0 h = [].
Proof. unfold lastn; apply skipn_all2; unfold zlen; lia. Qed.
Lemma lastn_S j h : 0 < j <= zlen h -> exists b, lastn j h = b :: lastn (j - 1) h.
Proof.
  intros H. unfold lastn. rewrite (skipn_hmsg h (zlen h - j)) by lia.
  eexists; do 3 f_equal. lia.
Qed.
Lemma lastn_app j h ms : 0 <= j <= zlen h -> lastn (j + zlen ms) (h ++ ms) = lastn j h ++ ms.
Proof.
  intros H. unfold lastn. rewrite zlen_app.
  replace (zlen h + zlen ms - (j + zlen ms)) with (zlen h - j) by lia.
  rewrite skipn_app. replace (Z.to_nat (zlen h - j) - length h)%nat with 0%nat by (unfold zlen in *; lia).
  reflexivity.
Qed.
Lemma lastn_all h : lastn (zlen h) h = h.
Proof. unfold lastn; rewrite Z.sub_diag; reflexivity. Qed.

Lemma unread_eq r h : Inv0 r h -> ring_unread r = lastn (r_m r) h.
Proof.
  intros I. pose proof (i_win _ _ I) as W. pose proof (i_m _ _ I). pose proof (w_old _ _ _ W).
  unfold ring_unread. rewrite (i_r _ _ I). rewrite (walk_ok r h _ W) by lia.
  apply firstn_all_zlen. rewrite zlen_lastn; lia.
Qed.
Lemma retained_eq r h : Inv0 r h -> ring_retained r = lastn (r_mp r) h.
Proof.
  intros I. pose proof (i_win _ _ I) as W. pose proof (i_m _ _ I). pose proof (w_old _ _ _ W).
  unfold ring_retained. rewrite (i_e _ _ I). rewrite (walk_ok r h _ W) by lia.
  apply firstn_all_zlen. rewrite zlen_lastn; lia.
Qed.
Lemma unread_len r h : Inv0 r h -> zlen (ring_unread r) = r_m r.
Proof.
  intros I; rewrite (unread_eq _ _ I). pose proof (i_win _ _ I) as W.
  pose proof (i_m _ _ I). pose proof (w_old _ _ _ W). apply zlen_lastn; lia.
Qed.
Lemma unread_bytes r h : Inv0 r h -> nbytes (ring_unread r) = r_u r.
Proof.
  intros I; rewrite (unread_eq _ _ I). pose proof (i_win _ _ I) as W.
  pose proof (i_m _ _ I). pose proof (w_old _ _ _ W). rewrite nbytes_lastn by lia. symmetry; apply (i_u _ _ I).
Qed.
Lemma retained_len r h : Inv0 r h -> zlen (ring_retained r) = r_mp r.
Proof.
  intros I; rewrite (retained_eq _ _ I). pose proof (i_win _ _ I) as W.
  pose proof (i_m _ _ I). pose proof (w_old _ _ _ W). apply zlen_lastn; lia.
Qed.

Lemma room_fits n mm iov h j : 0 <= j <= zlen h ->
  room n mm iov (lastn j h) = true <-> fits n mm (nbytes iov) (zlen iov) h j.
Proof.
  intros H. unfold room, fits. rewrite zlen_lastn, nbytes_lastn by lia.
  rewrite andb_true_iff, !Z.leb_le. lia.
Qed.

Lemma fit_suffix_eq n mm iov h : forall j k, 0 <= k <= Z.of_nat j -> Z.of_nat j <= zlen h ->
  fits n mm (nbytes iov) (zlen iov) h k ->
  (forall i, k < i <= Z.of_nat j -> ~ fits n mm (nbytes iov) (zlen iov) h i) ->
  fit_suffix n mm iov (lastn (Z.of_nat j) h) = lastn k h.
Proof.
  induction j as [|j IH]; intros k Hk Hj F M.
  - assert (k = 0) by lia; subst. change (Z.of_nat 0) with 0. rewrite lastn_0.
    cbn [fit_suffix]. destruct (room n mm iov []); reflexivity.
  - destruct (Z.eq_dec k (Z.of_nat (S j))) as [->|Hne].
    + apply room_fits in F; [|lia]. destruct (lastn (Z.of_nat (S j)) h); cbn [fit_suffix]; rewrite F; reflexivity.
    + destruct (room n mm iov (lastn (Z.of_nat (S j)) h)) eqn:ER.
      { exfalso. apply (M (Z.of_nat (S j))); [lia|]. apply room_fits; [lia|exact ER]. }
      destruct (lastn_S (Z.of_nat (S j)) h ltac:(lia)) as [b E].
      rewrite E in ER |- *. cbn [fit_suffix]. rewrite ER.
      replace (Z.of_nat (S j) - 1) with (Z.of_nat j) by lia. apply IH; try lia; try assumption.
      intros i Hi; apply M; lia.
Qed.
Lemma fit_suffix_lastn n mm iov h j k : 0 <= k <= j -> j <= zlen h ->
  fits n mm (nbytes iov) (zlen iov) h k ->
  (forall i, k < i <= j -> ~ fits n mm (nbytes iov) (zlen iov) h i) ->
  fit_suffix n mm iov (lastn j h) = lastn k h.
Proof.
  intros Hk Hj F M. replace j with (Z.of_nat (Z.to_nat j)) in * by lia.
  apply fit_suffix_eq; assumption.
Qed.

(** an iovec shr_writev may carry into the ring *)
Definition iov_ok (n mm : Z) (iov : list bytes) : Prop :=
  iov <> [] /\ nonempty iov /\ nbytes iov <= n /\ zlen iov <= mm.

Lemma iov_ok_pos n mm iov : iov_ok n mm iov -> 0 < nbytes iov /\ 0 < zlen iov.
Proof.
  intros (Hn & Hne & _). destruct iov as [|b t]; [congruence|]. inversion Hne; subst.
  unfold nbytes; cbn [concat]; rewrite zlen_app, zlen_cons.
  pose proof (zlen_nonneg (concat t)); pose proof (zlen_nonneg t); lia.
Qed.

Lemma wr_space_iff r h len niov : Inv0 r h -> 0 <= len < W64 -> 0 <= niov < W64 ->
  wr_space r len niov = true <-> has_space r len niov.
Proof.
  intros I Hl Hv. pose proof (i_win _ _ I) as W. pose proof (i_m _ _ I) as Hm.
  pose proof (w_n _ _ _ W). pose proof (w_mm _ _ _ W). pose proof (w_cnt _ _ _ W).
  pose proof (inv_u_le _ _ I).
  unfold wr_space, has_space. rewrite !u64_small by lia.
  rewrite andb_true_iff, !Z.geb_le. lia.
Qed.

Definition stat_dropped (s : rstat) (b m : Z) : rstat :=
  if m =? 0 then s else s <| st_bd := u64 (st_bd s + b) |> <| st_md := u64 (st_md s + m) |>.

Theorem ring_write_ok r h iov : Inv r h -> iov_ok (r_n r) (r_mm r) iov ->
  (r_drop r = false -> room (r_n r) (r_mm r) iov (ring_unread r) = false ->
     ring_write r (r_mm r) iov (nbytes iov) = Ok None)
  /\ (r_drop r = true \/ room (r_n r) (r_mm r) iov (ring_unread r) = true ->
     exists r', ring_write r (r_mm r) iov (nbytes iov) = Ok (Some r')
       /\ Inv r' (h ++ iov) /\ same_fixed r r'
       /\ ring_unread r' = fit_suffix (r_n r) (r_mm r) iov (ring_unread r) ++ iov
       /\ ring_retained r' = fit_suffix (r_n r) (r_mm r) iov (ring_retained r) ++ iov
       /\ exists dropped, ring_unread r = dropped ++ fit_suffix (r_n r) (r_mm r) iov (ring_unread r)
            /\ (dropped <> [] -> r_drop r = true)
            /\ r_stat r' = stat_dropped (r_stat r) (nbytes dropped) (zlen dropped)).
Proof.
  intros II (Hnn & Hne & Hl & Hc). pose proof (i_inv0 _ _ II) as I.
  pose proof (i_win _ _ I) as W. pose proof (i_m _ _ I) as Hm.
  pose proof (w_n _ _ _ W) as Hn. pose proof (w_mm _ _ _ W) as Hmm.
  pose proof (w_cnt _ _ _ W) as Hcnt. pose proof (w_old _ _ _ W) as Hold.
  destruct (iov_ok_pos (r_n r) (r_mm r) iov ltac:(repeat split; assumption)) as [Lp Cp].
  pose proof (wr_space_iff r h (nbytes iov) (zlen iov) I ltac:(lia) ltac:(lia)) as WS.
  assert (RF : room (r_n r) (r_mm r) iov (ring_unread r) = true <-> has_space r (nbytes iov) (zlen iov)).
  { rewrite (unread_eq _ _ I), room_fits by lia. apply fits_m; assumption. }
  (* the commit after [i] drops *)
  assert (FIN : forall r1 i, Inv0 r1 h -> same_fixed r r1 -> r_mp r1 = r_mp r ->
      r_m r1 = r_m r - i -> 0 <= i <= r_m r -> has_space r1 (nbytes iov) (zlen iov) ->
      (forall j, 0 <= j < i -> ~ fits (r_n r) (r_mm r) (nbytes iov) (zlen iov) h (r_m r - j)) ->
      (0 < i -> r_drop r = true) ->
      r_stat r1 = stat_dropped (r_stat r) (r_u r - r_u r1) i ->
      exists r', (do x <- wr_commit r1 (r_mm r) iov (nbytes iov); Ok (Some x)) = Ok (Some r')
       /\ Inv r' (h ++ iov) /\ same_fixed r r'
       /\ ring_unread r' = fit_suffix (r_n r) (r_mm r) iov (ring_unread r) ++ iov
       /\ ring_retained r' = fit_suffix (r_n r) (r_mm r) iov (ring_retained r) ++ iov
       /\ exists dropped, ring_unread r = dropped ++ fit_suffix (r_n r) (r_mm r) iov (ring_unread r)
            /\ (dropped <> [] -> r_drop r = true)
            /\ r_stat r' = stat_dropped (r_stat r) (nbytes dropped) (zlen dropped)).
  { intros r1 i I1 SF Emp Em Hi Hsp Hmin Hdrop Est.
    pose proof SF as (Eg & En & Emm & _).
    destruct (wr_commit_ok r1 h iov I1 Hne Hnn Hsp)
      as (r' & keep & E & I' & SF' & Est' & Em' & Eu' & Emp' & Hk & Fk & Mk).
    rewrite Emm in E. fold (nbytes iov) in E. rewrite E. cbn [obind].
    exists r'. split; [reflexivity|].
    assert (F1 : fits (r_n r) (r_mm r) (nbytes iov) (zlen iov) h (r_m r - i)).
    { rewrite <- Em, <- En, <- Emm. apply fits_m; assumption. }
    assert (FU : fit_suffix (r_n r) (r_mm r) iov (ring_unread r) = lastn (r_m r - i) h).
    { rewrite (unread_eq _ _ I). apply fit_suffix_lastn; try lia; try assumption.
      intros j Hj. replace j with (r_m r - (r_m r - j)) by lia. apply Hmin; lia. }
    rewrite En, Emm, Emp in Mk. rewrite En, Emm in Fk.
    fold (nbytes iov) in *.
    assert (FR : fit_suffix (r_n r) (r_mm r) iov (ring_retained r) = lastn keep h).
    { rewrite (retained_eq _ _ I). apply fit_suffix_lastn; try lia; assumption. }
    split.
    { constructor; [exact I'|]. intros Hf.
      pose proof (same_fixed_trans _ _ _ SF SF') as SFt.
      rewrite (same_fixed_farm _ _ SFt) in Hf. destruct (i_farm _ _ II Hf) as [EE DD].
      split; [|rewrite (same_fixed_drop _ _ SFt); exact DD].
      rewrite Em', Emp', Em.
      assert (keep = r_m r - i); [|lia].
      destruct (Z_lt_ge_dec (r_m r - i) keep); [|lia]. exfalso.
      apply (Hmin (r_m r - keep)); [lia|]. replace (r_m r - (r_m r - keep)) with keep by lia. exact Fk. }
    split; [exact (same_fixed_trans _ _ _ SF SF')|].
    split. { rewrite (unread_eq _ _ I'), FU, Em', Em. apply lastn_app; lia. }
    split. { rewrite (retained_eq _ _ I'), FR, Emp'. apply lastn_app; lia. }
    exists (firstn (Z.to_nat i) (ring_unread r)).
    assert (ED : ring_unread r = firstn (Z.to_nat i) (ring_unread r) ++ lastn (r_m r - i) h).
    { rewrite <- (firstn_skipn (Z.to_nat i) (ring_unread r)) at 1. f_equal.
      rewrite (unread_eq _ _ I). unfold lastn. rewrite skipn_skipn. f_equal. lia. }
    rewrite FU. split; [exact ED|].
    assert (Li : zlen (firstn (Z.to_nat i) (ring_unread r)) = i).
    { pose proof (unread_len _ _ I). unfold zlen in *. rewrite firstn_length. lia. }
    split. { intros Hd. apply Hdrop. destruct (Z.eq_dec i 0) as [->|]; [exfalso; apply Hd; reflexivity|lia]. }
    rewrite Est', Est, Li.
    replace (nbytes (firstn (Z.to_nat i) (ring_unread r))) with (r_u r - r_u r1); [reflexivity|].
    rewrite <- (unread_bytes _ _ I), <- (unread_bytes _ _ I1).
    rewrite (unread_eq _ _ I1), Em.
    assert (nbytes (ring_unread r) = nbytes (firstn (Z.to_nat i) (ring_unread r)) + nbytes (lastn (r_m r - i) h)).
    { rewrite ED at 1. unfold nbytes. rewrite concat_app, zlen_app. reflexivity. }
    lia. }
  split.
  - intros Hd Hr. unfold ring_write. rewrite Hd.
    destruct (wr_space r (nbytes iov) (zlen iov)) eqn:EW; [|reflexivity].
    exfalso. pose proof (proj2 RF (proj1 WS eq_refl)). congruence.
  - intros H. unfold ring_write.
    destruct (wr_space r (nbytes iov) (zlen iov)) eqn:EW; cbn [obind].
    + apply (FIN r 0); try assumption; try lia; try (apply same_fixed_refl).
      * apply WS; reflexivity.
      * reflexivity.
    + assert (Hd : r_drop r = true).
      { destruct H as [H|H]; [exact H|]. apply RF, WS in H. congruence. }
      match goal with |- context [if r_drop r then ?A else ?B] =>
        replace (if r_drop r then A else B) with A by (rewrite Hd; reflexivity) end.
      destruct (drop_unread_ok r h (zlen iov) (nbytes iov) I Hd) as (r1 & i & E & I1 & SF & Emp & Em & Hi & Hsp & Hmin & Est);
        try lia. { intros Hs; apply WS in Hs; congruence. }
      rewrite E. cbn [obind]. apply (FIN r1 i); try assumption; try lia; try (intros _; exact Hd).
      rewrite Est. unfold stat_dropped. destruct (Z.eqb_spec i 0); [lia|reflexivity].
Qed.

(** ** reading *)
Lemma tile_read taken : forall buf off, 0 <= off -> off + nbytes taken <= zlen buf ->
  map (fun p => sub (fst p) (snd p) (blit off (concat taken) buf)) (tile off taken) = taken.
Proof.
  assert (G : forall t buf off base pre, 0 <= off -> off = base + zlen pre -> 0 <= base ->
     base + zlen pre + nbytes t <= zlen buf ->
     map (fun p => sub (fst p) (snd p) (blit base (pre ++ concat t) buf)) (tile off t) = t).
  { induction t as [|m t IH]; intros buf off base pre Ho Hoff Hb Hl; [reflexivity|].
    cbn [tile map fst snd concat]. unfold nbytes in *; cbn [concat] in Hl. rewrite zlen_app in Hl.
    pose proof (zlen_nonneg m). pose proof (zlen_nonneg (concat t)). pose proof (zlen_nonneg pre).
    f_equal.
    - apply (list_ext 0).
      + apply zlen_sub; try lia. rewrite zlen_blit; rewrite ?zlen_app; lia.
      + rewrite zlen_sub by (try rewrite zlen_blit; rewrite ?zlen_app; lia).
        intros j Hj. rewrite znth_sub by lia. rewrite znth_blit by (rewrite ?zlen_app; lia).
        rewrite !zlen_app.
        destruct (Z.leb_spec base (off + j)); [|lia].
        destruct (Z.ltb_spec (off + j) (base + (zlen pre + (zlen m + zlen (concat t))))); [|lia]. cbn [andb].
        rewrite znth_app2 by lia. rewrite znth_app1 by lia. f_equal; lia.
    - rewrite app_assoc. apply IH; rewrite ?zlen_app; lia. }
  intros buf off Ho Hl. apply (G taken buf off off []); cbn [zlen length]; unfold zlen in *; cbn [length] in *; lia.
Qed.

Lemma skipn_is_nil {A} (l : list A) k : skipn k l = [] <-> (length l <= k)%nat.
Proof.
  split; intros H; [|apply skipn_all2; exact H].
  pose proof (skipn_length k l) as E. rewrite H in E. cbn in E. lia.
Qed.

(** counters after a read of [taken] *)
Definition stat_took (s : rstat) (taken : list bytes) : rstat :=
  s <| st_br := u64 (st_br s + nbytes taken) |> <| st_mr := u64 (st_mr s + zlen taken) |>.

Definition clamp (len : Z) : Z := if len >? SSIZE_MAX then SSIZE_MAX else len.

Lemma inv_stat r h s : Inv r h -> Inv (r <| r_stat := s |>) h.
Proof.
  intros [I F]. constructor; [|intros H; apply F; exact H].
  destruct I as [W ? ? ? ? ?]; constructor; cbn [r_mp r_m r_e r_r r_q r_u r_mm set]; try assumption.
  eapply win_ext; [exact W|reflexivity..].
Qed.

Theorem ring_read_ok r h q md buf niov : Inv r h -> qok r h q -> 0 < zlen buf -> 0 < niov ->
  let k := Z.max (rpos r h q) (zlen h - r_mp r) in
  let avail := skipn (Z.to_nat k) h in
  let taken := take_fit (Z.to_nat niov) (clamp (zlen buf)) avail in
  let md' := if r_farm r && (q <? zlen h - r_mp r) then u64 (md + (k - q)) else md in
  (avail = [] -> ring_read r q md buf niov = Ok (if r_farm r then k else q, md', None))
  /\ (avail <> [] -> exists x cur',
      ring_read r q md buf niov = Ok (if r_farm r then k + zlen taken else q, md', Some (x, cur'))
      /\ Inv (rd_ring x) h /\ same_fixed r (rd_ring x)
      /\ ring_unread (rd_ring x) =
           (if r_farm r then ring_unread r else skipn (Z.to_nat (zlen taken)) (ring_unread r))
      /\ ring_retained (rd_ring x) = ring_retained r
      /\ r_mp (rd_ring x) = r_mp r
      /\ r_stat (rd_ring x) = stat_took (r_stat r) taken
      /\ rd_buf x = blit 0 (concat taken) buf
      /\ rev (rd_iov x) = tile 0 taken
      /\ rd_nr x = nbytes taken
      /\ zlen (rd_iov x) = zlen taken
      /\ (cur' = None <-> k + zlen taken = zlen h)).
Proof.
  intros II Hq Hb Hniov k avail taken md'.
  pose proof (i_inv0 _ _ II) as I. pose proof (i_win _ _ I) as W. pose proof (i_m _ _ I) as Hm.
  pose proof (w_old _ _ _ W) as Hold.
  destruct (next_at r h q md II Hq) as (q' & md1 & cur & E & C & P & Q & Eq & Em). fold k in C, P, Eq, Em.
  assert (Hk : 0 <= k <= zlen h).
  { unfold k, rpos. destruct (r_farm r) eqn:Hf; [destruct (Hq Hf)|]; lia. }
  assert (Hav : avail = [] <-> k = zlen h).
  { unfold avail. rewrite skipn_is_nil. unfold zlen in *; lia. }
  assert (HL : ring_read r q md buf niov =
     match cur with
     | None => Ok (q', md1, None)
     | Some _ =>
      do (x, cur') <- rd_loop (Z.to_nat niov) cur (mkrd r q' md1 buf 0 (clamp (zlen buf)) 0 []);
      let x := mkrd (stat_read (rd_ring x) (rd_nr x) (zlen (rd_iov x))) (rd_q x) (rd_md x)
                    (rd_buf x) (rd_off x) (rd_len x) (rd_nr x) (rd_iov x) in
      Ok (rd_q x, rd_md x, Some (x, cur'))
     end) by (unfold ring_read; rewrite E; reflexivity).
  split; intros Ha.
  - rewrite HL. apply Hav in Ha. destruct cur as [s|]; [destruct C; lia|].
    rewrite Eq, Em. reflexivity.
  - assert (Hkk : k < zlen h) by (assert (k <> zlen h) by (intros X; apply Ha, Hav, X); lia).
    destruct cur as [s|]; [|cbn [cur_is] in C; lia].
    assert (Hcl : 0 < clamp (zlen buf) <= zlen buf /\ clamp (zlen buf) <= SSIZE_MAX).
    { unfold clamp. destruct (Z.gtb_spec (zlen buf) SSIZE_MAX); lia. }
    destruct (rd_loop_ok (Z.to_nat niov) (Some s) (mkrd r q' md1 buf 0 (clamp (zlen buf)) 0 []) h k)
      as (cur' & EL & I' & C'); cbn [rd_ring rd_q rd_md rd_buf rd_off rd_len rd_nr rd_iov]; try assumption; try lia.
    cbn [rd_ring rd_q rd_md rd_buf rd_off rd_len rd_nr rd_iov] in EL, I', C'.
    fold avail in EL, I', C'. fold taken in EL, I', C'. rewrite app_nil_r in EL.
    rewrite HL, EL. cbn [obind rd_ring rd_q rd_md rd_buf rd_off rd_len rd_nr rd_iov].
    rewrite zlen_rev.
    assert (Htl : zlen (tile 0 taken) = zlen taken).
    { clear. generalize 0. induction taken as [|m t IH]; intros z; [reflexivity|].
      cbn [tile]. rewrite !zlen_cons, IH. reflexivity. }
    rewrite Htl. fold (nbytes taken).
    assert (EQ : (if r_farm r then q' + zlen taken else q') = (if r_farm r then k + zlen taken else q)).
    { rewrite Eq. destruct (r_farm r); reflexivity. }
    rewrite EQ. rewrite Em. fold md'.
    eexists; exists cur'. split; [reflexivity|].
    cbn [rd_ring rd_q rd_md rd_buf rd_off rd_len rd_nr rd_iov].
    set (r1 := ring_adv r h (zlen taken) (nbytes taken)) in *.
    assert (SF : same_fixed r r1) by apply ring_adv_same.
    assert (Est : r_stat r1 = r_stat r) by (unfold r1, ring_adv; destruct (r_farm r); reflexivity).
    assert (Emp : r_mp r1 = r_mp r) by (unfold r1, ring_adv; destruct (r_farm r); reflexivity).
    assert (Hcnt : zlen taken <= zlen h - k).
    { pose proof (take_fit_cnt (Z.to_nat niov) (clamp (zlen buf)) avail) as T. fold taken in T.
      unfold avail in T at 1. rewrite zlen_skipn in T by lia. exact T. }
    pose proof (zlen_nonneg taken) as Ht0.
    assert (I2 : Inv (stat_read r1 (0 + nbytes taken) (zlen taken)) h) by (apply inv_stat; exact I').
    split; [exact I2|]. split; [|split; [|split; [|split; [|split; [|split; [|split; [|split; [|split]]]]]]]].
    + unfold same_fixed in *. exact SF.
    + rewrite (unread_eq _ _ (i_inv0 _ _ I2)), (unread_eq _ _ I).
      change (r_m (stat_read r1 (0 + nbytes taken) (zlen taken))) with (r_m r1).
      unfold r1, ring_adv. destruct (r_farm r) eqn:Hf; [reflexivity|]. cbn [r_m set].
      unfold rpos in *. rewrite Hf in *.
      unfold lastn. rewrite skipn_skipn. f_equal. lia.
    + rewrite (retained_eq _ _ (i_inv0 _ _ I2)), (retained_eq _ _ I).
      change (r_mp (stat_read r1 (0 + nbytes taken) (zlen taken))) with (r_mp r1). rewrite Emp. reflexivity.
    + exact Emp.
    + unfold stat_read, stat_took. cbn [r_stat set]. rewrite Est. rewrite Z.add_0_l. reflexivity.
    + reflexivity.
    + apply rev_involutive.
    + lia.
    + rewrite zlen_rev; exact Htl.
    + destruct cur' as [s'|]; cbn [cur_is] in C'; [|tauto].
      split; [discriminate|]. destruct C'; lia.
Qed.

(** the result of [take_fit] as the caller sees it *)
Lemma read_msgs_taken r n len avail buf : nbytes (take_fit n len avail) <= zlen buf ->
  read_msgs (RetRead r (blit 0 (concat (take_fit n len avail)) buf) (tile 0 (take_fit n len avail)))
  = take_fit n len avail.
Proof. intros H; cbn [read_msgs]; apply tile_read; lia. Qed.
