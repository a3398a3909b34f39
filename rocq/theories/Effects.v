(** * What each step does to the ring, in terms of the abstract queue. *)
From Verif Require Export Reach.

Definition no_reset (ev : list event) : Prop := Forall (fun e => is_reset e = false) ev.

Inductive effect (g : Prop) (r : ring) (h : list bytes) : list event -> ring -> Prop :=
| ef_quiet ev r' : committed ev = [] -> delivered ev = [] -> no_reset ev ->
    ring_unread r' = ring_unread r -> ring_retained r' = ring_retained r -> r_stat r' = r_stat r ->
    effect g r h ev r'
| ef_reset c v so t r' : ring_unread r' = ring_unread r -> ring_retained r' = ring_retained r ->
    so_stat so = r_stat r -> so_mu so = zlen (ring_unread r) -> so_bu so = nbytes (ring_unread r) ->
    r_stat r' = stat0 <| st_start := t |> ->
    effect g r h [ERet c (RetStat true v (Some so))] r'
| ef_commit c iov rs dropped (wok : bool) r' :
    delivered (rets c rs) = [] -> no_reset (rets c rs) -> (g -> wok = true) ->
    iov_ok (r_n r) (r_mm r) iov ->
    (r_drop r = false -> room (r_n r) (r_mm r) iov (ring_unread r) = true /\ dropped = []) ->
    ring_unread r = dropped ++ fit_suffix (r_n r) (r_mm r) iov (ring_unread r) ->
    ring_unread r' = fit_suffix (r_n r) (r_mm r) iov (ring_unread r) ++ iov ->
    ring_retained r' = fit_suffix (r_n r) (r_mm r) iov (ring_retained r) ++ iov ->
    (let s := stat_dropped (r_stat r) (nbytes dropped) (zlen dropped) in
     r_stat r' = if wok then s <| st_bw := u64 (st_bw s + nbytes iov) |>
                               <| st_mw := u64 (st_mw s + zlen iov) |> else s) ->
    effect g r h (ECommit c iov :: rets c rs) r'
| ef_read c v buf iov avail len niov r' :
    (r_farm r = false -> avail = ring_unread r) ->
    (exists pre, ring_retained r = pre ++ avail) ->
    avail <> [] ->
    let taken := take_fit niov len avail in
    read_msgs (RetRead v buf iov) = taken ->
    v = (match taken with [] => -2 | _ => nbytes taken end) ->
    iov = tile 0 taken ->
    ring_unread r' = (if r_farm r then ring_unread r else skipn (Z.to_nat (zlen taken)) (ring_unread r)) ->
    ring_retained r' = ring_retained r ->
    r_stat r' = stat_took (r_stat r) taken ->
    effect g r h [ERet c (RetRead v buf iov)] r'.

Lemma firstn_nth_walk r s cnt r' : r_mv r' = r_mv r -> r_d r' = r_d r -> r_mm r' = r_mm r -> walk r' s cnt = walk r s cnt.
Proof. intros E1 E2 E3. revert s; induction cnt as [|c IH]; intros s; cbn [walk]; [reflexivity|]. rewrite E1, E2, E3, IH. reflexivity. Qed.
Lemma unread_ext r r' : r_mv r' = r_mv r -> r_d r' = r_d r -> r_mm r' = r_mm r -> r_r r' = r_r r -> r_m r' = r_m r ->
  ring_unread r' = ring_unread r.
Proof. intros E1 E2 E3 E4 E5. unfold ring_unread. rewrite E4, E5. apply firstn_nth_walk; assumption. Qed.
Lemma retained_ext r r' : r_mv r' = r_mv r -> r_d r' = r_d r -> r_mm r' = r_mm r -> r_e r' = r_e r -> r_mp r' = r_mp r ->
  ring_retained r' = ring_retained r.
Proof. intros E1 E2 E3 E4 E5. unfold ring_retained. rewrite E4, E5. apply firstn_nth_walk; assumption. Qed.

(** returns that are neither reads nor resets *)
Definition dull (x : ret) : bool :=
  match x with RetRead _ _ [] => true | RetRead _ _ _ => false | RetStat b _ _ => negb b | _ => true end.
Lemma dull_rets c rs : forallb dull rs = true -> delivered (rets c rs) = [] /\ no_reset (rets c rs).
Proof.
  induction rs as [|x rs IH]; intros H; [split; [reflexivity|constructor]|].
  cbn [forallb] in H. apply andb_true_iff in H. destruct H as [H1 H2]. destruct (IH H2) as [I1 I2].
  split.
  - cbn [rets map delivered flat_map]. fold (rets c rs). fold (delivered (rets c rs)). rewrite I1, app_nil_r.
    destruct x as [? ? [|]| | | | | | | |]; try reflexivity; discriminate.
  - constructor; [|exact I2]. destruct x as [| | | |[]| | | |]; try reflexivity; discriminate.
Qed.
Lemma go_write_dull cl iov len cl' rs : go_write cl iov len = Ok (cl', rs) -> forallb dull rs = true.
Proof.
  unfold go_write.
  destruct (has (c_flags cl) SHR_BUFFERED); [|intros H; inj H; reflexivity].
  destruct (_ && _).
  - intros H. apply obind_ok in H. destruct H as (ca & _ & H). inj H. reflexivity.
  - destruct (ca_n (c_cache cl) =? 0); [intros H; inj H; reflexivity|].
    intros H. apply obind_ok in H. destruct H as (ms & _ & H).
    destruct (wr_check _ _ _); inj H; reflexivity.
Qed.
Lemma end_write_dull cl k iov v cl' rs : end_write cl k iov v = Ok (cl', rs) -> forallb dull rs = true.
Proof.
  destruct k; cbn [end_write]; intros H; try (inj H; reflexivity).
  destruct (v <=? 0); [inj H; reflexivity|]. apply go_write_dull in H. exact H.
Qed.
Lemma flush_write_dull cl k nb cl' rs : flush_write cl k nb = Ok (cl', rs) -> forallb dull rs = true.
Proof.
  unfold flush_write. intros H. apply obind_ok in H. destruct H as (ms & _ & H).
  destruct (wr_check _ _ _); [inj H; reflexivity|]. destruct k; inj H; reflexivity.
Qed.
Lemma start_call_dull cl x cl' rs : start_call cl x = Ok (cl', rs) -> forallb dull rs = true.
Proof.
  destruct x as [buf niov|iov|wait| |reset|reset|get st sz|fd| ]; cbn [start_call]; intros H; try (inj H; reflexivity).
  - destruct (has _ _); [|discriminate]. destruct (_ || _); inj H; reflexivity.
  - unfold start_write in H. destruct (has _ _); [|discriminate].
    destruct (wr_check _ _ _); [apply go_write_dull in H; exact H|inj H; reflexivity].
  - unfold start_flush in H. destruct (has _ _); [|discriminate].
    destruct (_ =? _); [inj H; reflexivity|].
    destruct (_ && _); [destruct (c_r2w cl)|];
      try (apply flush_write_dull in H; exact H). inj H; reflexivity.
  - unfold start_close in H. destruct (_ =? _); [inj H; reflexivity|].
    destruct (has _ _); [|discriminate]. apply flush_write_dull in H; exact H.
  - unfold do_farm_stat in H. destruct (has _ _); [|discriminate]. cbn [obind] in H. inj H. reflexivity.
  - apply obind_ok in H. destruct H as ([cl1 r] & E & H). inj H. reflexivity.
Qed.

Lemma nbytes_take_fit niov len avail : 0 <= len -> nbytes (take_fit niov len avail) <= len.
Proof.
  revert len avail; induction niov as [|n IH]; intros len avail H; [cbn; lia|].
  destruct avail as [|m t]; [cbn; lia|]. cbn [take_fit]. destruct (Z.leb_spec (zlen m) len); [|cbn; lia].
  rewrite nbytes_cons. specialize (IH (len - zlen m) t ltac:(lia)). lia.
Qed.
Lemma take_fit_prefix niov len avail : exists rest, avail = take_fit niov len avail ++ rest.
Proof.
  revert len avail; induction niov as [|n IH]; intros len avail; [exists avail; reflexivity|].
  destruct avail as [|m t]; [exists []; reflexivity|]. cbn [take_fit]. destruct (zlen m <=? len); [|exists (m :: t); reflexivity].
  destruct (IH (len - zlen m) t) as [rest E]. exists rest. cbn [app]. rewrite <- E. reflexivity.
Qed.

(** with well-behaved sockets bw_wake always succeeds *)
Lemma sk_find_none name : forall ks i, sk_find ks i name = None ->
  forall k, In k ks -> k_open k = true -> k_name k = name -> False.
Proof.
  induction ks as [|k0 ks IH]; intros i H k Hi Ho Hn; [destruct Hi|]. cbn [sk_find] in H.
  destruct (k_open k0 && (k_name k0 =? name)) eqn:E; [discriminate|]. destruct Hi as [->|Hi].
  - rewrite Ho, Hn, Z.eqb_refl in E. discriminate.
  - eapply IH; eassumption.
Qed.
Lemma sync_slots_good e ks : good_sockets ks e -> forall wr cs n,
  exists wr' cs' inc, sync_slots e ks n wr cs = (wr', cs', true, inc).
Proof.
  intros G. induction wr as [|s wr IH]; intros cs n; [do 3 eexists; reflexivity|].
  destruct cs as [|c cs]; [do 3 eexists; reflexivity|]. cbn [sync_slots].
  assert (S : exists s' c' inc, sync_slot e ks n s c = (s', c', true, inc)).
  { unfold sync_slot. destruct (cn_fd (match cn_fd c with Some _ => _ | None => _ end)); [do 3 eexists; reflexivity|].
    destruct (ws_pid s =? 0); [do 3 eexists; reflexivity|].
    rewrite (gs_socket _ _ G), (gs_connect _ _ G). cbn [negb].
    destruct (sk_lookup ks (ws_name s)) eqn:L; [do 3 eexists; reflexivity|].
    assert (H : e_probe e (ws_pid s) (ws_name s) = 0).
    { apply (gs_probe _ _ G). intros (k & Hi & Ho & _ & Hn). exact (sk_find_none _ _ _ L k Hi Ho Hn). }
    rewrite H. do 3 eexists; reflexivity. }
  destruct S as (s' & c' & inc & ->). destruct (IH cs (n + 1)) as (wr' & cs' & inc' & ->). do 3 eexists; reflexivity.
Qed.
Lemma bw_wake_good e ks h hw ks' h' hw' ok : good_sockets ks e -> bw_wake e ks h hw = Ok (ks', h', hw', ok) -> ok = true.
Proof.
  intros G H. destruct hw as [q cs|]; [|discriminate]. cbn [bw_wake] in H. unfold bw_sync in H.
  destruct (q =? h_seq h).
  - destruct (wake_slots _ _ _ _ _) as [[[? ?] ?] ?]. inj H. reflexivity.
  - destruct (sync_slots_good e ks G (h_wr h) cs 0) as (wr' & cs' & inc & E). rewrite E in H.
    destruct (wake_slots _ _ _ _ _) as [[[? ?] ?] ?]. inj H. reflexivity.
Qed.

Theorem step_effect w0 w evs a w' ev : WI w0 w evs -> seq_bound (w_ring w) evs -> contract w a ->
  step w a = Ok (w', ev) -> effect (good_env w a) (w_ring w) (committed evs) ev (w_ring w').
Proof.
  intros W HF HC HS. pose proof (wi_ring _ _ _ W) as I. apply step_inv in HS.
  assert (Q : forall ev r', r' = w_ring w -> committed ev = [] -> delivered ev = [] /\ no_reset ev -> effect (good_env w a) (w_ring w) (committed evs) ev r').
  { intros ev0 r' -> H1 [H2 H3]. apply ef_quiet; try assumption; reflexivity. }
  assert (R : forall c rs r', r' = w_ring w -> forallb dull rs = true -> effect (good_env w a) (w_ring w) (committed evs) (rets c rs) r').
  { intros c rs r' Hr H. apply Q; [exact Hr|apply committed_rets|apply dull_rets; exact H]. }
  assert (R1 : forall c x r', r' = w_ring w -> dull x = true -> effect (good_env w a) (w_ring w) (committed evs) [ERet c x] r').
  { intros c x r' Hr H. apply (R c [x]); [exact Hr|]. cbn. rewrite H. reflexivity. }
  destruct HS as
   [ a
   | e flags pid w' E
   | e flags pid w' cl E
   | c x cl' rs Hl Hpc E
   | c e k iov len nb v cl' rs Hl Hpc Hv E
   | c e k iov len n s p Hl Hpc He E Er
   | c e k iov len nb r1 hw ks bh hw' wok r2 rv cl' rs Hl Hpc He E Ew Eb E2 Ev Ee
   | c e buf niov Hl Hpc He
   | c e buf niov q md h ks ok Hl Hpc He Hnb E Eh Ef
   | c e buf niov q md n s p Hl Hpc He Hnb E Eh
   | c e buf niov q md x cur' hr r2w' ks1 bh1 ks2 ok h Hl Hpc He E Eh Er Hn0 Hn1 Ef
   | c e w' Hl Hpc Hw'
   | c e ks h b cl' rs Hl Hpc He E Ee
   | c e Hl Hpc
   | c e reset r x Hl Hpc E
   | c e get st sz r x Hl Hpc E
   | c sid polls Hs Hp
   | a c sc k iov len nb cl' rs Ha Hpc E
   | a c sc buf niov Ha Hpc
   | c Hl ].
  - apply Q; [reflexivity|reflexivity|split; [reflexivity|constructor]].
  - destruct (do_open_ok e w flags pid _ I HC) as (w1 & o & E' & E1 & _).
    rewrite E in E'. injection E' as <- <-. apply Q; [exact E1|reflexivity|split; [reflexivity|repeat constructor]].
  - destruct (do_open_ok e w flags pid _ I HC) as (w1 & o & E' & E1 & _).
    rewrite E in E'. injection E' as <- <-. apply Q; [exact E1|reflexivity|split; [reflexivity|repeat constructor]].
  - pose proof (start_call_dull _ _ _ _ E) as D. destruct (dull_rets c rs D) as [D1 D2].
    apply Q; [reflexivity|apply (committed_rets c rs)|split; [exact D1|constructor; [reflexivity|exact D2]]].
  - apply R; [reflexivity|apply (end_write_dull _ _ _ _ _ _ E)].
  - apply Q; [reflexivity|reflexivity|split; [reflexivity|constructor]].
  - destruct (wi_cl _ _ _ W c Hl) as [ms C]. pose proof (ci_pc _ _ _ _ C) as P. unfold pc_ok in P. rewrite Hpc in P.
    destruct P as (Hw & Hi & -> & Hk & _). rewrite (ci_mm _ _ _ _ C) in E.
    destruct (dull_rets c rs (end_write_dull _ _ _ _ _ _ Ee)) as [D1 D2].
    destruct (ring_write_ok _ _ iov I Hi) as [A B].
    assert (HD : r_drop (w_ring w) = true \/ room (r_n (w_ring w)) (r_mm (w_ring w)) iov (ring_unread (w_ring w)) = true).
    { destruct (r_drop (w_ring w)) eqn:Hd; [left; reflexivity|]. right.
      destruct (room (r_n (w_ring w)) (r_mm (w_ring w)) iov (ring_unread (w_ring w))) eqn:Hr; [reflexivity|].
      rewrite (A eq_refl eq_refl) in E. discriminate. }
    destruct (B HD) as (r' & E' & I' & S' & U & RT & dropped & D & DD & ST). rewrite E in E'. injection E' as <-.
    cbn [w_ring setc set].
    apply (ef_commit _ _ _ c iov rs dropped wok); try assumption.
    + intros G. apply (bw_wake_good _ _ _ _ _ _ _ _ G Eb).
    + intros Hd. destruct HD as [HD|HD]; [congruence|]. split; [exact HD|].
      destruct dropped; [reflexivity|]. discriminate (eq_trans (eq_sym (DD ltac:(discriminate))) Hd).
    + rewrite <- U. subst r2. destruct wok; [|reflexivity]. apply unread_ext; reflexivity.
    + rewrite <- RT. subst r2. destruct wok; [|reflexivity]. apply retained_ext; reflexivity.
    + cbv zeta. rewrite <- ST. subst r2. destruct wok; reflexivity.
  - apply R1; reflexivity.
  - apply R1; reflexivity.
  - apply Q; [reflexivity|reflexivity|split; [reflexivity|constructor]].
  - destruct (wi_cl _ _ _ W c Hl) as [ms C]. pose proof (ci_pc _ _ _ _ C) as P. unfold pc_ok in P. rewrite Hpc in P.
    destruct P as (Hr & Hb & Hn). pose proof (CI_qok _ _ _ _ C HF) as Hq.
    destruct (ring_read_ok _ _ _ (c_md (cli w c)) buf niov I Hq Hb Hn) as [Q1 Q2].
    set (r := w_ring w) in *. set (hh := committed evs) in *.
    set (k := Z.max (rpos r hh (c_q (cli w c))) (zlen hh - r_mp r)) in *.
    set (avail := skipn (Z.to_nat k) hh) in *.
    assert (NE : avail <> []) by (intros Ea; rewrite (Q1 Ea) in E; discriminate).
    destruct (Q2 NE) as (x1 & cur1 & E' & I' & S' & U & RT & Emp & ST & Bf & Io & Nr & Zi & _).
    rewrite E in E'. injection E' as _ _ <- <-.
    set (taken := take_fit (Z.to_nat niov) (clamp (zlen buf)) avail) in *.
    pose proof (i_inv0 _ _ I) as I0. pose proof (w_old _ _ _ (i_win _ _ I0)) as Ho. pose proof (i_m _ _ I0) as Hm.
    assert (NT : nbytes taken <= zlen buf).
    { assert (H0 : 0 <= clamp (zlen buf) <= zlen buf) by (unfold clamp; destruct (Z.gtb_spec (zlen buf) SSIZE_MAX); lia).
      pose proof (nbytes_take_fit (Z.to_nat niov) (clamp (zlen buf)) avail ltac:(lia)) as T. fold taken in T. lia. }
    assert (Hk : zlen hh - r_mp r <= k <= zlen hh).
    { unfold k, rpos. destruct (r_farm r) eqn:Hf; [destruct (Hq Hf)|]; lia. }
    assert (HT : read_msgs (RetRead (if zlen (rd_iov x) >? 0 then rd_nr x else -2) (rd_buf x) (rev (rd_iov x))) = taken).
    { rewrite Bf, Io. apply read_msgs_taken. exact NT. }
    apply (ef_read _ r hh c _ (rd_buf x) (rev (rd_iov x)) avail (clamp (zlen buf)) (Z.to_nat niov)); cbn [w_ring setc set]; try assumption.
    + intros Hf. rewrite (unread_eq _ _ I0). unfold avail, k, rpos, lastn. rewrite Hf. do 2 f_equal. fold hh. lia.
    + rewrite (retained_eq _ _ I0). unfold lastn. fold hh. exists (firstn (Z.to_nat (k - (zlen hh - r_mp r))) (skipn (Z.to_nat (zlen hh - r_mp r)) hh)).
      unfold avail. rewrite <- (firstn_skipn (Z.to_nat (k - (zlen hh - r_mp r))) (skipn (Z.to_nat (zlen hh - r_mp r)) hh)) at 1.
      f_equal. rewrite skipn_skipn. f_equal. lia.
    + rewrite Nr, Zi. fold taken. destruct taken as [|m t]; [reflexivity|].
      rewrite zlen_cons. pose proof (zlen_nonneg t). destruct (Z.gtb_spec (zlen t + 1) 0); [reflexivity|lia].
  - apply R1; [|reflexivity]. destruct Hw' as [->|(ks & h & _ & _ & ->)]; reflexivity.
  - apply R; [reflexivity|apply (flush_write_dull _ _ _ _ _ Ee)].
  - apply R1; [|reflexivity]. cbn [w_ring setc set]. destruct (e_lock e); [|reflexivity]. unfold close_handles.
    destruct (match c_w2r (cli w c) with Some b => _ | None => _ end) as [ks h].
    cbn [w_ks w_r2w set].
    destruct (match c_r2w (cli w c) with Some b => _ | None => _ end) as [ks2 h2]. reflexivity.
  - unfold do_stat in E. destruct (negb (e_lock e)); [injection E as <- <-; apply R1; reflexivity|].
    destruct reset as [t|]; injection E as <- <-; cbn [w_ring setc set].
    + pose proof (i_inv0 _ _ I) as I0.
      apply (ef_reset _ _ _ _ _ _ t); try (apply unread_ext; reflexivity); try (apply retained_ext; reflexivity); try reflexivity.
      * cbn [stat_of so_mu]. rewrite (unread_len _ _ I0). reflexivity.
      * cbn [stat_of so_bu]. rewrite (unread_bytes _ _ I0). reflexivity.
    + apply R1; reflexivity.
  - destruct (wi_cl _ _ _ W c Hl) as [ms C]. pose proof (ci_pc _ _ _ _ C) as P. unfold pc_ok in P. rewrite Hpc in P.
    destruct (do_app_ok e _ _ _ _ (wi_app _ _ _ W) P) as (r1 & x1 & E' & ER & EL & Hx & _).
    rewrite E in E'. injection E' as <- <-. cbn [w_ring setc set].
    assert (D : dull x = true).
    { unfold do_app in E. destruct (negb (e_lock e)); [inj E; reflexivity|].
      destruct (r_app_len (w_ring w) =? 0); [inj E; reflexivity|].
      destruct get, st; repeat match type of E with
        | (if ?b then _ else _) = _ => destruct b
        | obind _ _ = _ => apply obind_ok in E; destruct E as (? & _ & E) end; inj E; reflexivity. }
    destruct (dull_rets c [x]) as [D1 D2]; [cbn; rewrite D; reflexivity|].
    apply ef_quiet; [reflexivity|exact D1|exact D2| | |]; rewrite ER; [apply unread_ext|apply retained_ext|]; reflexivity.
  - apply Q; [reflexivity|reflexivity|split; [reflexivity|constructor]].
  - apply R; [reflexivity|apply (end_write_dull _ _ _ _ _ _ E)].
  - apply R1; reflexivity.
  - apply Q; [reflexivity|reflexivity|split; [reflexivity|repeat constructor]].
Qed.
