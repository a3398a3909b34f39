(** * The world invariant: consistency of ring, handles and caches in every
    reachable state. *)
From Verif Require Export Spec QueueFacts.

(** ** clients in the world *)
Lemma cli_setc_same w c x : (c < length (w_cl w))%nat -> cli (setc w c x) c = x.
Proof. intros H; unfold cli, setc; cbn [w_cl set]. rewrite nth_set_nat by exact H. rewrite Nat.eqb_refl. reflexivity. Qed.
Lemma set_nat_out {A} (l : list A) k v : (length l <= k)%nat -> set_nat l k v = l.
Proof. revert k; induction l as [|x l IH]; intros [|k] H; cbn in *; try reflexivity; try lia. f_equal; apply IH; lia. Qed.
Lemma cli_setc_other w c c' x : c' <> c -> cli (setc w c x) c' = cli w c'.
Proof.
  intros H; unfold cli, setc; cbn [w_cl set].
  destruct (le_lt_dec (length (w_cl w)) c) as [L|L]; [rewrite set_nat_out by exact L; reflexivity|].
  rewrite nth_set_nat by exact L. destruct (Nat.eqb_spec c' c); [contradiction|reflexivity].
Qed.
Lemma live_bound w c : c_live (cli w c) = true -> (c < length (w_cl w))%nat.
Proof.
  intros H; destruct (le_lt_dec (length (w_cl w)) c) as [L|L]; [|exact L].
  unfold cli in H; rewrite nth_overflow in H by exact L; discriminate.
Qed.
Lemma pc_bound w c : c_pc (cli w c) <> Idle -> (c < length (w_cl w))%nat.
Proof.
  intros H; destruct (le_lt_dec (length (w_cl w)) c) as [L|L]; [|exact L].
  unfold cli in H; rewrite nth_overflow in H by exact L; elim H; reflexivity.
Qed.

(** ** the length check *)
Lemma nbytes_cons b t : nbytes (b :: t) = zlen b + nbytes t.
Proof. unfold nbytes; cbn [concat]; apply zlen_app. Qed.
Lemma nbytes_nil : nbytes [] = 0.
Proof. reflexivity. Qed.
Lemma nbytes_app a b : nbytes (a ++ b) = nbytes a + nbytes b.
Proof. unfold nbytes; rewrite concat_app; apply zlen_app. Qed.
Lemma nbytes_nonneg a : 0 <= nbytes a.
Proof. apply zlen_nonneg. Qed.

Lemma len_loop_ok n mm niov : 0 <= n <= SSIZE_MAX -> forall iov acc,
  0 <= acc <= n -> Forall (fun b => zlen b <= SSIZE_MAX) iov -> 
  len_loop (map zlen iov) niov n mm acc =
  match iov with
  | [] => Some acc
  | b :: t => if (0 <? acc + zlen b) && (acc + nbytes iov <=? n) && (niov <=? mm)
              then Some (acc + nbytes iov) else None
  end.
Proof.
  intros Hn. induction iov as [|b t IH]; intros acc Ha Hb; [reflexivity|].
  inversion Hb as [|? ? Hb1 Hb2]; subst. cbn [map len_loop].
  pose proof (zlen_nonneg b) as Hb0. pose proof (nbytes_nonneg t) as Ht0.
  rewrite u64_small by lia. rewrite nbytes_cons.
  destruct (Z.eqb_spec (acc + zlen b) 0); [destruct (Z.ltb_spec 0 (acc + zlen b)); [lia|reflexivity]|].
  destruct (Z.ltb_spec 0 (acc + zlen b)); [|lia]. cbn [andb].
  destruct (Z.gtb_spec (acc + zlen b) SSIZE_MAX); [destruct (Z.leb_spec (acc + (zlen b + nbytes t)) n); [lia|reflexivity]|].
  destruct (Z.gtb_spec (acc + zlen b) n); [destruct (Z.leb_spec (acc + (zlen b + nbytes t)) n); [lia|reflexivity]|].
  destruct (Z.gtb_spec niov mm); [destruct (Z.leb_spec niov mm); [lia|rewrite andb_false_r; reflexivity]|].
  destruct (Z.leb_spec niov mm); [|lia]. rewrite andb_true_r.
  rewrite IH by (try assumption; lia).
  destruct t as [|b' t']; [rewrite nbytes_nil, !Z.add_0_r; destruct (Z.leb_spec (acc + zlen b) n); [reflexivity|lia]|].
  pose proof (zlen_nonneg b') as Hb'.
  destruct (Z.ltb_spec 0 (acc + zlen b + zlen b')); [|lia].
  destruct (Z.leb_spec niov mm); [|lia]. cbn [andb]. rewrite andb_true_r. rewrite Z.add_assoc. reflexivity.
Qed.

Lemma wr_check_iff n mm iov : 0 <= n <= SSIZE_MAX ->
  Forall (fun b => zlen b <= SSIZE_MAX) iov -> Forall (fun b => 0 < zlen b) (tl iov) ->
  (iov_ok n mm iov /\ wr_check (map zlen iov) n mm = Some (nbytes iov)) \/
  (~ iov_ok n mm iov /\ wr_check (map zlen iov) n mm = None).
Proof.
  intros Hn Hb Hne. unfold wr_check. rewrite zlen_map. rewrite len_loop_ok by (try assumption; lia).
  destruct iov as [|b t]; [right; split; [intros (H & _); congruence|reflexivity]|].
  rewrite !Z.add_0_l. cbn [tl] in Hne. rewrite nbytes_cons.
  pose proof (zlen_nonneg b). pose proof (nbytes_nonneg t).
  destruct (Z.ltb_spec 0 (zlen b)); cbn [andb].
  2: { right; split; [|reflexivity]. intros (_ & Hx & _); inversion Hx; lia. }
  destruct (Z.leb_spec (zlen b + nbytes t) n); cbn [andb].
  2: { right; split; [|reflexivity]. intros (_ & _ & Hx & _). rewrite nbytes_cons in Hx; lia. }
  destruct (Z.leb_spec (zlen (b :: t)) mm).
  2: { right; split; [|reflexivity]. intros (_ & _ & _ & Hx). lia. }
  left. destruct (Z.eqb_spec (zlen b + nbytes t) 0); [lia|]. split; [|reflexivity].
  repeat split; [discriminate|constructor; assumption|rewrite nbytes_cons; lia|lia].
Qed.
Lemma iov_ok_check n mm iov : 0 <= n <= SSIZE_MAX -> iov_ok n mm iov ->
  wr_check (map zlen iov) n mm = Some (nbytes iov).
Proof.
  intros Hn I. destruct (wr_check_iff n mm iov Hn) as [[_ E]|[H _]]; [| |exact E|contradiction].
  - destruct I as (_ & _ & Hl & _). rewrite Forall_forall. intros b Hb.
    apply in_split in Hb. destruct Hb as (a & c & ->).
    rewrite nbytes_app, nbytes_cons in Hl. pose proof (nbytes_nonneg a); pose proof (nbytes_nonneg c). lia.
  - destruct I as (Hnn & Hne & _). destruct iov; [congruence|]. inversion Hne; assumption.
Qed.

(** ** the cache *)
Record holds (ca : cache) (ms : list bytes) : Prop := mkholds {
  ho_buf : zlen (ca_buf ca) = ca_sz ca;
  ho_iov : zlen (ca_iov ca) = ca_vt ca;
  ho_n : ca_n ca = nbytes ms;
  ho_vm : ca_vm ca = zlen ms;
  ho_nsz : nbytes ms <= ca_sz ca;
  ho_vvt : zlen ms <= ca_vt ca;
  ho_ne : nonempty ms;
  ho_data : sub 0 (nbytes ms) (ca_buf ca) = concat ms;
  ho_tile : sub 0 (zlen ms) (ca_iov ca) = tile 0 ms }.

Lemma cached_from_ok buf : forall ms off, 0 <= off -> off + nbytes ms <= zlen buf ->
  sub off (nbytes ms) buf = concat ms -> cached_from buf (tile off ms) = Ok ms.
Proof.
  induction ms as [|b t IH]; intros off Ho Hl Hs; [reflexivity|].
  cbn [tile cached_from]. rewrite nbytes_cons in *.
  pose proof (zlen_nonneg b). pose proof (nbytes_nonneg t).
  rewrite rd_mem_ok by lia. cbn [obind].
  cbn [concat] in Hs.
  assert (E1 : sub off (zlen b) buf = b).
  { apply (list_ext 0); [apply zlen_sub; lia|]. rewrite zlen_sub by lia. intros k Hk.
    rewrite znth_sub by lia. rewrite <- (znth_sub 0 off (zlen b + nbytes t)) by lia. rewrite Hs.
    apply znth_app1; lia. }
  rewrite IH; [cbn [obind]; rewrite E1; reflexivity|lia|lia|].
  apply (list_ext 0); [rewrite zlen_sub by lia; reflexivity|]. rewrite zlen_sub by lia. intros k Hk.
  rewrite znth_sub by lia.
  replace (off + zlen b + k) with (off + (zlen b + k)) by lia.
  rewrite <- (znth_sub 0 off (zlen b + nbytes t)) by lia. rewrite Hs.
  rewrite znth_app2 by lia. f_equal; lia.
Qed.
Lemma sub_0_firstn {A} n (l : list A) : sub 0 n l = firstn (Z.to_nat n) l.
Proof. reflexivity. Qed.
Lemma cached_ok ca ms : holds ca ms -> cached ca = Ok ms.
Proof.
  intros H. unfold cached. rewrite (ho_vm _ _ H), <- sub_0_firstn, (ho_tile _ _ H).
  pose proof (ho_nsz _ _ H). pose proof (ho_buf _ _ H).
  apply cached_from_ok; try lia. apply (ho_data _ _ H).
Qed.

Lemma tile_app a b off : tile off (a ++ b) = tile off a ++ tile (off + nbytes a) b.
Proof.
  revert off; induction a as [|x a IH]; intros off; cbn [app tile]; [rewrite nbytes_nil, Z.add_0_r; reflexivity|].
  rewrite IH, nbytes_cons. do 3 f_equal; lia.
Qed.
Lemma nonempty_app a b : nonempty (a ++ b) <-> nonempty a /\ nonempty b.
Proof. apply Forall_app. Qed.

Lemma sink_ok : forall iov ca ms, holds ca ms -> nonempty iov ->
  ca_sz ca < W64 -> ca_vt ca < W64 ->
  nbytes ms + nbytes iov <= ca_sz ca -> zlen ms + zlen iov <= ca_vt ca ->
  exists ca', sink iov ca = Ok ca' /\ holds ca' (ms ++ iov)
    /\ ca_sz ca' = ca_sz ca /\ ca_vt ca' = ca_vt ca.
Proof.
  induction iov as [|b t IH]; intros ca ms H Hne Hs Hv Hl Hc.
  - exists ca. rewrite app_nil_r. repeat split; try apply H; try reflexivity.
  - inversion Hne as [|? ? Hb Ht]; subst. rewrite nbytes_cons in Hl. rewrite zlen_cons in Hc.
    pose proof (nbytes_nonneg t). pose proof (zlen_nonneg t). pose proof (nbytes_nonneg ms). pose proof (zlen_nonneg ms).
    pose proof (ho_buf _ _ H) as HB. pose proof (ho_iov _ _ H) as HI.
    cbn [sink]. rewrite (ho_n _ _ H), (ho_vm _ _ H).
    rewrite wr_mem_ok by lia. cbn [obind]. rewrite zset_ok by lia. cbn [obind].
    rewrite !u64_small by lia.
    destruct (IH (ca <| ca_buf := blit (nbytes ms) b (ca_buf ca) |>
                     <| ca_iov := zupd (ca_iov ca) (zlen ms) (nbytes ms, zlen b) |>
                     <| ca_n := nbytes ms + zlen b |> <| ca_vm := zlen ms + 1 |>) (ms ++ [b])) as (ca' & E & H' & S' & V').
    + assert (NB : nbytes (ms ++ [b]) = nbytes ms + zlen b) by (rewrite nbytes_app, nbytes_cons, nbytes_nil; lia).
      assert (ZB : zlen (ms ++ [b]) = zlen ms + 1) by (rewrite zlen_app; reflexivity).
      constructor; cbn [ca_buf ca_iov ca_n ca_vm ca_sz ca_vt set]; rewrite ?NB, ?ZB; try lia.
      * rewrite zlen_blit by lia. exact HB.
      * rewrite zlen_zupd. exact HI.
      * apply nonempty_app; split; [apply (ho_ne _ _ H)|constructor; [exact Hb|constructor]].
      * assert (ZC : zlen (concat (ms ++ [b])) = nbytes ms + zlen b) by exact NB.
        apply (list_ext 0); [rewrite zlen_sub by (rewrite ?zlen_blit by lia; lia); lia|].
        rewrite zlen_sub by (rewrite ?zlen_blit by lia; lia). intros k Hk.
        rewrite znth_sub by lia. rewrite Z.add_0_l. rewrite znth_blit by lia.
        rewrite concat_app. cbn [concat]. rewrite app_nil_r.
        destruct (Z.leb_spec (nbytes ms) k); cbn [andb].
        -- destruct (Z.ltb_spec k (nbytes ms + zlen b)); [|lia].
           rewrite znth_app2 by exact H4. reflexivity.
        -- rewrite znth_app1 by (unfold nbytes in *; lia).
           rewrite <- (ho_data _ _ H). rewrite znth_sub by lia. rewrite Z.add_0_l. reflexivity.
      * rewrite tile_app. cbn [tile]. rewrite Z.add_0_l.
        assert (TL : zlen (tile 0 ms) = zlen ms).
        { rewrite <- (ho_tile _ _ H). apply zlen_sub; lia. }
        apply (list_ext (0,0)); [rewrite zlen_sub by (rewrite ?zlen_zupd; lia); rewrite zlen_app, TL; reflexivity|].
        rewrite zlen_sub by (rewrite ?zlen_zupd; lia). intros k Hk.
        rewrite znth_sub by lia. rewrite Z.add_0_l. rewrite znth_zupd by lia.
        destruct (Z.eqb_spec k (zlen ms)) as [->|].
        -- rewrite znth_app2 by lia. rewrite TL, Z.sub_diag. reflexivity.
        -- rewrite znth_app1 by lia. rewrite <- (ho_tile _ _ H), znth_sub by lia. f_equal.
    + exact Ht.
    + cbn [ca_sz set]; exact Hs.
    + cbn [ca_vt set]; exact Hv.
    + cbn [ca_sz set]. rewrite nbytes_app, nbytes_cons, nbytes_nil. lia.
    + cbn [ca_vt set]. rewrite zlen_app. cbn [zlen length Z.of_nat]. unfold zlen in *; cbn [length] in *; lia.
    + cbn [ca_sz ca_vt set] in S', V'. exists ca'. rewrite <- app_assoc in H'. cbn [app] in H'.
      split; [exact E|]. split; [exact H'|]. split; assumption.
Qed.

Lemma clear_ok ca ms : holds ca ms -> holds (clear_cache ca) [].
Proof.
  intros H. pose proof (ho_nsz _ _ H). pose proof (ho_vvt _ _ H). pose proof (nbytes_nonneg ms). pose proof (zlen_nonneg ms).
  constructor; cbn [clear_cache ca_buf ca_iov ca_n ca_vm ca_sz ca_vt set]; try reflexivity; rewrite ?nbytes_nil, ?zlen_nil; try lia.
  - apply H.
  - apply H.
  - constructor.
Qed.
