(** * The write cache: nothing lost, nothing duplicated (C16-C18). *)
From Verif Require Export WriteCall.

Lemma tile_map buf : forall ms off, 0 <= off -> off + nbytes ms <= zlen buf ->
  sub off (nbytes ms) buf = concat ms ->
  map (fun p => sub (fst p) (snd p) buf) (tile off ms) = ms.
Proof.
  induction ms as [|b t IH]; intros off Ho Hl Hs; [reflexivity|].
  cbn [tile map fst snd]. rewrite nbytes_cons in *.
  pose proof (zlen_nonneg b). pose proof (nbytes_nonneg t). cbn [concat] in Hs. f_equal.
  - apply (list_ext 0); [apply zlen_sub; lia|]. rewrite zlen_sub by lia. intros k Hk.
    rewrite znth_sub by lia. rewrite <- (znth_sub 0 off (zlen b + nbytes t)) by lia. rewrite Hs. apply znth_app1; lia.
  - apply IH; try lia.
    apply (list_ext 0); [rewrite zlen_sub by lia; reflexivity|]. rewrite zlen_sub by lia. intros k Hk.
    rewrite znth_sub by lia.
    replace (off + zlen b + k) with (off + (zlen b + k)) by lia.
    rewrite <- (znth_sub 0 off (zlen b + nbytes t)) by lia. rewrite Hs.
    rewrite znth_app2 by lia. f_equal; lia.
Qed.
Lemma cache_msgs_holds ca ms : holds ca ms -> cache_msgs ca = ms.
Proof.
  intros H. unfold cache_msgs. rewrite (ho_vm _ _ H), <- sub_0_firstn, (ho_tile _ _ H).
  pose proof (ho_nsz _ _ H). pose proof (ho_buf _ _ H).
  apply tile_map; try lia. apply (ho_data _ _ H).
Qed.
Lemma CI_msgs r h cl ms : CI r h cl ms -> cache_msgs (c_cache cl) = ms.
Proof. intros C. apply cache_msgs_holds, (ci_ca _ _ _ _ C). Qed.
Lemma CIi_msgs r h cl ms : CIi r h cl ms -> cache_msgs (c_cache cl) = ms.
Proof. intros C. apply (CI_msgs _ _ _ _ C). Qed.

(** messages accepted by the returns [rs] *)
Definition acc (rs : list ret) : list bytes :=
  flat_map (fun x => match x with RetWrite iov v => if v >? 0 then iov else [] | _ => [] end) rs.

Lemma go_write_acc r h cl ms iov cl' rs : Inv r h -> CIi r h cl ms -> has (c_flags cl) SHR_WRONLY = true ->
  iov_ok (r_n r) (r_mm r) iov -> go_write cl iov (nbytes iov) = Ok (cl', rs) ->
  cache_msgs (c_cache cl') = ms ++ acc rs.
Proof.
  intros I C Hw Hi E. destruct (iov_ok_pos _ _ _ Hi) as [Hp _].
  destruct (go_write_ok r h cl ms iov I C Hw Hi) as [(cl1 & E1 & C1 & _)|(k & iov1 & E1 & C1 & _)]; rewrite E in E1; injection E1 as -> ->.
  - rewrite (CI_msgs _ _ _ _ C1). cbn [acc flat_map]. destruct (Z.gtb_spec (nbytes iov) 0); [|lia]. rewrite app_nil_r. reflexivity.
  - rewrite (CI_msgs _ _ _ _ C1), app_nil_r. reflexivity.
Qed.

Lemma end_write_acc r h cl ms k iov v cl' rs : Inv r h -> CIi r h cl ms -> has (c_flags cl) SHR_WRONLY = true ->
  iov_ok (r_n r) (r_mm r) iov -> kont_ok r cl ms iov k -> end_write cl k iov v = Ok (cl', rs) ->
  (v <= 0 -> acc rs = [] /\ cache_msgs (c_cache cl') = ms) /\
  (0 < v -> ms ++ acc rs = iov ++ cache_msgs (c_cache cl')).
Proof.
  intros I C Hw Hi Hk E. pose proof (CIi_msgs _ _ _ _ C) as EM.
  assert (CL : cache_msgs (clear_cache (c_cache cl)) = []) by (unfold cache_msgs, clear_cache; cbn [ca_buf ca_vm ca_iov set Z.to_nat firstn map]; reflexivity).
  destruct k as [|iov' len'| |]; cbn [end_write kont_ok] in *.
  - inj E. cbn [c_cache set acc flat_map]. rewrite EM, app_nil_r. destruct (Z.gtb_spec v 0); split; intros; try lia.
    + rewrite app_nil_r. reflexivity.
    + auto.
  - destruct Hk as (-> & Hb & Hi' & ->). destruct (Z.leb_spec v 0).
    + inj E. cbn [c_cache set acc flat_map]. destruct (Z.gtb_spec v 0); [lia|]. split; intros; [auto|lia].
    + pose proof (go_write_acc r h _ [] iov' cl' rs I (CIi_clear _ _ _ _ C) Hw Hi' E) as G.
      split; intros; [lia|]. rewrite G. reflexivity.
  - subst iov. destruct (Z.gtb_spec v 0); inj E; cbn [c_cache set acc flat_map]; split; intros; try lia; rewrite ?CL, ?app_nil_r; auto.
  - subst iov. destruct (Z.gtb_spec v 0); inj E; cbn [c_cache set acc flat_map]; split; intros; try lia; rewrite ?CL, ?app_nil_r; auto.
Qed.

Lemma flush_write_acc cl k nb cl' rs : flush_write cl k nb = Ok (cl', rs) -> acc rs = [] /\ c_cache cl' = c_cache cl.
Proof.
  unfold flush_write. intros H. apply obind_ok in H. destruct H as (ms & _ & H).
  destruct (wr_check _ _ _); [inj H; auto|]. destruct k; inj H; auto.
Qed.
Lemma start_call_acc r h cl ms x cl' rs : Inv r h -> CI r h cl ms -> c_pc cl = Idle -> call_ok r (c_flags cl) x ->
  start_call cl x = Ok (cl', rs) -> cache_msgs (c_cache cl') = ms ++ acc rs.
Proof.
  intros I C Hpc Hx. destruct (inv_bounds _ _ I) as [Bn Bm]. pose proof (CI_msgs _ _ _ _ C) as EM.
  destruct x as [buf niov|iov|wait| |reset|reset|get st sz|fd| ]; cbn [start_call call_ok] in *; intros H;
    try (inj H; cbn [c_cache set acc flat_map]; rewrite app_nil_r; (assumption || reflexivity)).
  - destruct (has _ _); [|discriminate]. destruct (_ || _); inj H; cbn [c_cache set acc flat_map]; rewrite app_nil_r; (assumption || reflexivity).
  - destruct Hx as (Hw & Hb & Hne). unfold start_write in H. rewrite Hw in H.
    rewrite (ci_n _ _ _ _ C), (ci_mm _ _ _ _ C) in H.
    destruct (wr_check_iff (r_n r) (r_mm r) iov ltac:(lia) Hb Hne) as [[Hi E]|[_ E]]; rewrite E in H.
    + apply (go_write_acc r h cl ms iov cl' rs I (CI_CIi _ _ _ _ C) Hw Hi H).
    + inj H. cbn. rewrite app_nil_r. reflexivity.
  - unfold start_flush in H. destruct (has _ _); [|discriminate].
    destruct (_ =? _); [inj H; cbn; rewrite app_nil_r; reflexivity|].
    destruct (_ && _); [destruct (c_r2w cl)|];
      try (apply flush_write_acc in H; destruct H as [-> ->]; rewrite app_nil_r; (assumption || reflexivity)).
    inj H; cbn; rewrite app_nil_r; reflexivity.
  - unfold start_close in H. destruct (_ =? _); [inj H; cbn; rewrite app_nil_r; reflexivity|].
    destruct (has _ SHR_WRONLY); [|discriminate]. apply flush_write_acc in H; destruct H as [-> ->]; rewrite app_nil_r; (assumption || reflexivity).
  - unfold do_farm_stat in H. destruct (has _ _); [|discriminate]. cbn [obind] in H. inj H. cbn [acc flat_map]. rewrite app_nil_r.
    destruct reset; reflexivity.
  - apply obind_ok in H. destruct H as ([cl1 v] & E & H). inj H. cbn [acc flat_map]. rewrite app_nil_r. f_equal.
    unfold do_ctl in E. apply obind_ok in E. destruct E as ([cl1 sc1] & E1 & E).
    apply obind_ok in E. destruct E as ([cl2 sc2] & E2 & E). inj E.
    assert (P1 : c_cache cl1 = c_cache cl).
    { destruct (has (c_flags cl) SHR_WRONLY); [|inj E1; reflexivity].
      destruct (c_r2w cl) as [b|]; [|inj E1; reflexivity].
      apply obind_ok in E1. destruct E1 as ([b' ok] & Eb & E1). inj E1. reflexivity. }
    rewrite <- P1. destruct (has (c_flags cl1) SHR_RDONLY); [|inj E2; reflexivity].
    destruct (c_w2r cl1) as [b|]; [|discriminate].
    apply obind_ok in E2. destruct E2 as ([b' ok] & Eb & E2). inj E2. reflexivity.
Qed.

Lemma accepted_app c a b : accepted_by c (a ++ b) = accepted_by c a ++ accepted_by c b.
Proof. unfold accepted_by. rewrite flat_map_app. reflexivity. Qed.
Lemma committed_by_app c a b : committed_by c (a ++ b) = committed_by c a ++ committed_by c b.
Proof. unfold committed_by. rewrite flat_map_app. reflexivity. Qed.
Lemma accepted_other c c' ev : c' <> c -> Forall (tagged c) ev -> accepted_by c' ev = [] /\ committed_by c' ev = [].
Proof.
  intros N F. induction F as [|e ev T F [IH1 IH2]]; [auto|].
  unfold accepted_by, committed_by in *. cbn [flat_map]. rewrite IH1, IH2, !app_nil_r.
  destruct e; cbn [tagged] in T; try contradiction; subst; rewrite ?(is_neq c' c N); auto.
  destruct x; auto.
Qed.
Lemma accepted_rets c rs : accepted_by c (rets c rs) = acc rs.
Proof.
  induction rs as [|x rs IH]; [reflexivity|]. cbn [rets map]. fold (rets c rs). cbn [accepted_by flat_map acc].
  fold (accepted_by c (rets c rs)). fold (acc rs). rewrite IH. destruct x; try reflexivity. rewrite is_refl. reflexivity.
Qed.
Lemma committed_by_rets c rs : committed_by c (rets c rs) = [].
Proof. unfold committed_by, rets. induction rs; [reflexivity|exact IHrs]. Qed.

Lemma length_set_nat {A} (l : list A) k v : length (set_nat l k v) = length l.
Proof. revert k; induction l as [|x l IH]; intros [|k]; cbn [set_nat length]; auto. Qed.


Definition idle_new (evs : list event) (n : nat) : Prop :=
  forall c, (n <= c)%nat -> accepted_by c evs = [] /\ committed_by c evs = [].

Lemma account_setc w w1 evs ev c cl' : (forall c, account w evs c) -> w_cl w1 = w_cl w -> (c < length (w_cl w))%nat ->
  Forall (tagged c) ev ->
  (if c_live cl' then accepted_by c (evs ++ ev) = committed_by c (evs ++ ev) ++ cache_msgs (c_cache cl')
   else exists lost, accepted_by c (evs ++ ev) = committed_by c (evs ++ ev) ++ lost) ->
  forall c', account (setc w1 c cl') (evs ++ ev) c'.
Proof.
  intros H E L T HC c'. unfold account. destruct (Nat.eq_dec c' c) as [->|N].
  - rewrite cli_setc_same by (rewrite E; exact L). exact HC.
  - rewrite cli_setc_other by exact N. destruct (accepted_other c c' ev N T) as [A B].
    rewrite accepted_app, committed_by_app, A, B, !app_nil_r. unfold cli. rewrite E. apply H.
Qed.

Lemma step_account w0 w evs a w' ev : WI w0 w evs -> seq_bound (w_ring w) evs -> faultless w a ->
  step w a = Ok (w', ev) -> WI w0 w' (evs ++ ev) ->
  (forall c, account w evs c) /\ idle_new evs (length (w_cl w)) ->
  (forall c, account w' (evs ++ ev) c) /\ idle_new (evs ++ ev) (length (w_cl w')).
Proof.
  intros W HB [[HC HG] Hms] HS W' [HA HN]. pose proof (wi_ring _ _ _ W) as I. apply step_inv in HS.
  assert (LB : forall c, c_live (cli w c) = true -> (c < length (w_cl w))%nat) by (intros; apply live_bound; assumption).
  assert (NEW : forall c ev n, (c < length (w_cl w))%nat -> Forall (tagged c) ev -> n = length (w_cl w) -> idle_new (evs ++ ev) n).
  { intros c ev0 n L T -> c' Hc'. destruct (HN c' Hc') as [A B]. destruct (accepted_other c c' ev0 ltac:(lia) T) as [A' B'].
    rewrite accepted_app, committed_by_app, A, A', B, B'. auto. }
  assert (LEN : forall w1 c cl1, w_cl w1 = w_cl w -> length (w_cl (setc w1 c cl1)) = length (w_cl w)).
  { intros w1 c cl1 E. cbn [w_cl setc set]. rewrite E. apply length_set_nat. }
  assert (GO : forall w1 c cl' ev, w_cl w1 = w_cl w -> (c < length (w_cl w))%nat -> Forall (tagged c) ev ->
    (if c_live cl' then accepted_by c (evs ++ ev) = committed_by c (evs ++ ev) ++ cache_msgs (c_cache cl')
     else exists lost, accepted_by c (evs ++ ev) = committed_by c (evs ++ ev) ++ lost) ->
    (forall c', account (setc w1 c cl') (evs ++ ev) c') /\ idle_new (evs ++ ev) (length (w_cl (setc w1 c cl')))).
  { intros w1 c cl' ev0 E L T H. split; [apply (account_setc w); assumption|]. rewrite (LEN _ _ _ E). apply (NEW c); auto. }
  assert (ID : forall c cl', c_live (cli w c) = true -> c_live cl' = true -> c_cache cl' = c_cache (cli w c) ->
    accepted_by c evs = committed_by c evs ++ cache_msgs (c_cache cl')).
  { intros c cl' L L' E. specialize (HA c). unfold account in HA. rewrite L in HA. rewrite E. exact HA. }
  assert (ENDW : forall c k iov len nb v w1 cl1 cl' rs, c_live (cli w c) = true ->
    (c_pc (cli w c) = RunW k iov len nb \/ c_pc (cli w c) = WaitW k iov len nb) ->
    w_cl w1 = w_cl w -> (cl1 = cli w c \/ exists hw q cs, hw = Wake q cs /\ cl1 = (cli w c) <| c_w2r := Some hw |>) ->
    end_write cl1 k iov v = Ok (cl', rs) -> 
    (forall ev, (ev = rets c rs /\ v <= 0 \/ ev = ECommit c iov :: rets c rs /\ 0 < v) ->
    (forall c', account (setc w1 c cl') (evs ++ ev) c') /\ idle_new (evs ++ ev) (length (w_cl (setc w1 c cl'))))).
  { intros c k iov len nb v w1 cl1 cl' rs Hl Hpc E1 Ecl Ee ev0 Hev.
    destruct (wi_cl _ _ _ W c Hl) as [ms C].
    assert (P : has (c_flags (cli w c)) SHR_WRONLY = true /\ iov_ok (r_n (w_ring w)) (r_mm (w_ring w)) iov /\ kont_ok (w_ring w) (cli w c) ms iov k).
    { pose proof (ci_pc _ _ _ _ C) as P. unfold pc_ok in P. destruct Hpc as [Hpc|Hpc]; rewrite Hpc in P; destruct P as (? & ? & _ & ? & _); auto. }
    destruct P as (Hw & Hi & Hk).
    assert (X : CIi (w_ring w) (committed evs) cl1 ms /\ c_flags cl1 = c_flags (cli w c) /\ c_live cl1 = c_live (cli w c)).
    { destruct Ecl as [->|(hw & q & cs & -> & ->)]; [split; [exact (CI_CIi _ _ _ _ C)|auto]|].
      split; [apply CI_CIi; apply (CI_w2r _ _ _ _ _ C Hw); repeat eexists|auto]. }
    destruct X as (X & XF & XL).
    assert (Hw1 : has (c_flags cl1) SHR_WRONLY = true) by (rewrite XF; exact Hw).
    assert (Hk1 : kont_ok (w_ring w) cl1 ms iov k) by (destruct k; cbn [kont_ok] in *; rewrite ?XF; exact Hk).
    destruct (end_write_acc _ _ _ _ _ _ _ _ _ I X Hw1 Hi Hk1 Ee) as [A B].
    pose proof (end_write_id _ _ _ _ _ _ Ee) as [[IDL _ _ _ _ _ _ _] _].
    pose proof (HA c) as HAc. unfold account in HAc. rewrite Hl, (CI_msgs _ _ _ _ C) in HAc.
    apply GO; [exact E1|auto| |].
    { destruct Hev as [[-> _]|[-> _]]; [apply tagged_rets|constructor; [reflexivity|apply tagged_rets]]. }
    rewrite IDL, XL, Hl. rewrite accepted_app, committed_by_app, HAc.
    destruct Hev as [[-> Hv]|[-> Hv]].
    - destruct (A Hv) as [A1 A2]. rewrite accepted_rets, committed_by_rets, A1, A2, !app_nil_r. reflexivity.
    - cbn [accepted_by committed_by flat_map]. fold (accepted_by c (rets c rs)). fold (committed_by c (rets c rs)).
      rewrite is_refl, accepted_rets, committed_by_rets, app_nil_r. cbn [app]. rewrite <- !app_assoc. f_equal. exact (B Hv). }
  destruct HS as
   [ a
   | e flags pid w' E
   | e flags pid w' cl E
   | c x cl' rs Hl Hpc E
   | c e k iov len nb v cl' rs Hl Hpc Hv E
   | c e k iov len n s p Hl Hpc He E Er
   | c e k iov len nb r1 hw ks bh hw' wok r2 rv cl' rs Hl Hpc He E Ew Eb E2 Ev Ee
   | c e buf niov Hl Hpc He
   | c e buf niov q md h ks ok Hl Hpc He Hnb E Eh Ef
   | c e buf niov q md n s p Hl Hpc He Hnb E Eh
   | c e buf niov q md x cur' hr r2w' ks1 bh1 ks2 ok h Hl Hpc He E Eh Er Hn0 Hn1 Ef
   | c e w' Hl Hpc Hw'
   | c e ks h b cl' rs Hl Hpc He E Ee
   | c e Hl Hpc
   | c e reset r x Hl Hpc E
   | c e get st sz r x Hl Hpc E
   | c sid polls Hs Hp
   | a c sc k iov len nb cl' rs Ha Hpc E
   | a c sc buf niov Ha Hpc
   | c Hl ].
  - rewrite app_nil_r. auto.
  - destruct (do_open_ok e w flags pid _ I HC) as (w1 & o & E' & E1 & E2 & E3 & _).
    rewrite E in E'. injection E' as <- <-. split.
    + intros c. unfold account. rewrite accepted_app, committed_by_app. cbn [accepted_by committed_by flat_map]. rewrite !app_nil_r.
      unfold cli. rewrite E2. apply HA.
    + intros c Hc. rewrite E2 in Hc. rewrite accepted_app, committed_by_app. cbn [accepted_by committed_by flat_map]. rewrite !app_nil_r. auto.
  - destruct (do_open_ok e w flags pid _ I HC) as (w1 & o & E' & E1 & E2 & E3 & Ho).
    rewrite E in E'. injection E' as <- <-. destruct (Ho cl eq_refl) as (C & HL & HP & _). split.
    + intros c. unfold account. rewrite accepted_app, committed_by_app. cbn [accepted_by committed_by flat_map]. rewrite !app_nil_r.
      specialize (HA c). unfold account, cli in *. cbn [w_cl set]. rewrite E2.
      destruct (Nat.lt_trichotomy c (length (w_cl w))) as [L|[L|L]].
      * rewrite app_nth1 by exact L. exact HA.
      * subst. rewrite app_nth2, Nat.sub_diag by lia. cbn [nth]. rewrite HL, (CI_msgs _ _ _ _ C).
        destruct (HN (length (w_cl w)) ltac:(lia)) as [-> ->]. reflexivity.
      * rewrite nth_overflow by (rewrite app_length; cbn; lia). rewrite nth_overflow in HA by lia. exact HA.
    + intros c Hc. cbn [w_cl set] in Hc. rewrite E2, app_length in Hc. rewrite accepted_app, committed_by_app. cbn [accepted_by committed_by flat_map].
      rewrite !app_nil_r. apply HN. lia.
  - destruct (wi_cl _ _ _ W c Hl) as [ms C]. specialize (HC Hl Hpc).
    pose proof (start_call_acc _ _ _ _ _ _ _ I C Hpc HC E) as A.
    pose proof (start_call_id _ _ _ _ E) as [[IDL _ _ _ _ _ _ _] _].
    apply GO; [reflexivity|auto|constructor; [reflexivity|apply tagged_rets]|].
    rewrite IDL, Hl, accepted_app, committed_by_app. cbn [accepted_by committed_by flat_map].
    fold (accepted_by c (rets c rs)). fold (committed_by c (rets c rs)). rewrite accepted_rets, committed_by_rets, app_nil_r, A. cbn [app].
    pose proof (HA c) as HAc. unfold account in HAc. rewrite Hl, (CI_msgs _ _ _ _ C) in HAc. rewrite HAc, <- app_assoc. reflexivity.
  - apply (ENDW c k iov len nb v w (cli w c) cl' rs Hl (or_introl Hpc) eq_refl (or_introl eq_refl) E). left. split; [reflexivity|].
    destruct Hv as [[_ ->]|(_ & _ & -> & _)]; lia.
  - apply GO; [reflexivity|auto|constructor|]. cbn [c_live c_cache set]. rewrite Hl, !app_nil_r. apply (ID c (cli w c)); auto.
  - assert (wok = true) as -> by (apply (bw_wake_good _ _ _ _ _ _ _ _ HG Eb)).
    assert (SY : shr_sync e r2 = true) by (unfold shr_sync; rewrite Hms; apply orb_true_r). rewrite SY in Ev. cbn [andb] in Ev.
    destruct (wi_cl _ _ _ W c Hl) as [ms C]. pose proof (ci_pc _ _ _ _ C) as P. unfold pc_ok in P. rewrite Hpc in P. destruct P as (_ & Hi & -> & _).
    destruct (iov_ok_pos _ _ _ Hi) as [Hp _].
    pose proof (bw_wake_mode _ _ _ _ _ _ _ _ Eb) as [_ (q & cs & Eq)]. injection Eq as Eq.
    apply (ENDW c k iov (nbytes iov) nb rv (w <| w_ks := ks |> <| w_w2r := bh |> <| w_ring := r2 |>) _ cl' rs Hl (or_introl Hpc) eq_refl ltac:(right; exists hw', q, cs; split; [exact Eq|reflexivity]) Ee).
    right. split; [reflexivity|]. rewrite Ev. exact Hp.
  - apply GO; [reflexivity|auto|repeat constructor|]. cbn [c_live c_cache set]. rewrite Hl, accepted_app, committed_by_app. cbn [accepted_by committed_by flat_map]. rewrite !app_nil_r. apply (ID c (cli w c)); auto.
  - apply GO; [reflexivity|auto|repeat constructor|]. cbn [c_live c_cache set]. rewrite Hl, accepted_app, committed_by_app. cbn [accepted_by committed_by flat_map]. rewrite !app_nil_r. apply (ID c (cli w c)); auto.
  - apply GO; [reflexivity|auto|constructor|]. cbn [c_live c_cache set]. rewrite Hl, !app_nil_r. apply (ID c (cli w c)); auto.
  - apply GO; [reflexivity|auto|repeat constructor|]. cbn [c_live c_cache set]. rewrite Hl, accepted_app, committed_by_app. cbn [accepted_by committed_by flat_map]. rewrite !app_nil_r. apply (ID c (cli w c)); auto.
  - apply GO; [|auto|repeat constructor|].
    + destruct Hw' as [->|(ks & h & _ & _ & ->)]; reflexivity.
    + cbn [c_live c_cache set]. rewrite Hl, accepted_app, committed_by_app. cbn [accepted_by committed_by flat_map]. rewrite !app_nil_r. apply (ID c (cli w c)); auto.
  - pose proof (flush_write_id _ _ _ _ _ Ee) as [[IDL _ _ _ _ _ _ _] _]. destruct (flush_write_acc _ _ _ _ _ Ee) as [A B].
    apply GO; [reflexivity|auto|apply tagged_rets|]. rewrite IDL. cbn [c_live set]. rewrite Hl, accepted_app, committed_by_app, accepted_rets, committed_by_rets, A, !app_nil_r.
    apply (ID c cl'); auto. rewrite IDL. exact Hl.
  - apply GO; [|auto|repeat constructor|].
    + destruct (e_lock e); [apply close_handles_cl|reflexivity].
    + cbn [c_live set]. rewrite accepted_app, committed_by_app. cbn [accepted_by committed_by flat_map]. rewrite !app_nil_r.
      eexists. apply (ID c (cli w c)); auto.
  - apply GO; [reflexivity|auto|repeat constructor|]. cbn [c_live c_cache set]. rewrite Hl, accepted_app, committed_by_app.
    unfold do_stat in E. destruct (negb (e_lock e)); inj E; cbn [accepted_by committed_by flat_map]; rewrite !app_nil_r; apply (ID c (cli w c)); auto.
  - apply GO; [reflexivity|auto|repeat constructor|]. cbn [c_live c_cache set]. rewrite Hl, accepted_app, committed_by_app.
    destruct (do_app_ret _ _ _ _ _ _ _ E) as (? & ? & ? & ->).
    cbn [accepted_by committed_by flat_map]; rewrite !app_nil_r; apply (ID c (cli w c)); auto.
  - assert (L : (c < length (w_cl w))%nat).
    { apply pc_bound. intros H0. unfold wait_sid in Hs. rewrite H0 in Hs. discriminate. }
    apply GO; [reflexivity|auto|repeat constructor|]. rewrite !app_nil_r.
    specialize (HA c). unfold account in HA. unfold resume, wait_sid in *. destruct (c_pc (cli w c)); try discriminate; exact HA.
  - assert (Hl : c_live (cli w c) = true).
    { destruct (c_live (cli w c)) eqn:L; [reflexivity|]. rewrite (wi_dead _ _ _ W c L) in Hpc. discriminate. }
    apply (ENDW c k iov len nb sc w (cli w c) cl' rs Hl (or_intror Hpc) eq_refl (or_introl eq_refl) E). left. split; [reflexivity|].
    destruct Ha as [[_ ->]|[_ ->]]; lia.
  - assert (Hl : c_live (cli w c) = true).
    { destruct (c_live (cli w c)) eqn:L; [reflexivity|]. rewrite (wi_dead _ _ _ W c L) in Hpc. discriminate. }
    apply GO; [reflexivity|auto|repeat constructor|]. cbn [c_live c_cache set]. rewrite Hl, accepted_app, committed_by_app. cbn [accepted_by committed_by flat_map]. rewrite !app_nil_r. apply (ID c (cli w c)); auto.
  - apply GO; [reflexivity|auto|repeat constructor|]. cbn [c_live set]. rewrite accepted_app, committed_by_app. cbn [accepted_by committed_by flat_map]. rewrite !app_nil_r.
      eexists. apply (ID c (cli w c)); auto.
Qed.

Theorem exec_account r fsz w evs : fresh r fsz -> exec faultless (world0 r fsz) w evs -> seq_bound r evs ->
  forall c, account w evs c.
Proof.
  intros F X HB.
  refine (proj1 (exec_ind_inv faultless r fsz (fun w evs => (forall c, account w evs c) /\ idle_new evs (length (w_cl w)))
    (fun w a H => proj1 (proj1 H)) F _ _ w evs X HB)).
  - split; [|split; reflexivity]. intros c. unfold account. rewrite world0_cli. exists []. reflexivity.
  - clear w evs X HB. intros w evs a w' ev X W PI0 W' HB Pa S _ EF IH.
    apply (step_account (world0 r fsz) w evs a); auto. apply (seq_bound_app _ _ _ HB).
Qed.
