(** * The write cache, call by call (C50); sizes reported by shr_stat; what a
    blocking writer can be told (C45). *)
From Verif Require Export BwFinal.

Definition sizes (ca : cache) : Z * Z := (ca_sz ca, ca_vt ca).
Lemma sink_sizes : forall iov ca ca', sink iov ca = Ok ca' -> sizes ca' = sizes ca.
Proof.
  induction iov as [|b t IH]; intros ca ca' H; cbn [sink] in H; [inj H; reflexivity|].
  apply obind_ok in H. destruct H as (bf & _ & H). apply obind_ok in H. destruct H as (iv & _ & H).
  rewrite (IH _ _ H). reflexivity.
Qed.
Lemma go_write_sizes cl iov len cl' rs : go_write cl iov len = Ok (cl', rs) -> sizes (c_cache cl') = sizes (c_cache cl).
Proof.
  unfold go_write. destruct (has (c_flags cl) SHR_BUFFERED); [|intros H; inj H; reflexivity].
  destruct (_ && _).
  - intros H. apply obind_ok in H. destruct H as (ca & E & H). inj H. cbn [c_cache set]. apply (sink_sizes _ _ _ E).
  - destruct (ca_n (c_cache cl) =? 0); [intros H; inj H; reflexivity|].
    intros H. apply obind_ok in H. destruct H as (ms & _ & H). destruct (wr_check _ _ _); inj H; reflexivity.
Qed.
Lemma flush_write_sizes cl k nb cl' rs : flush_write cl k nb = Ok (cl', rs) -> sizes (c_cache cl') = sizes (c_cache cl).
Proof. intros H. destruct (flush_write_acc _ _ _ _ _ H) as [_ ->]. reflexivity. Qed.
Lemma end_write_sizes cl k iov v cl' rs : end_write cl k iov v = Ok (cl', rs) -> sizes (c_cache cl') = sizes (c_cache cl).
Proof.
  destruct k; cbn [end_write].
  - intros H; inj H; reflexivity.
  - destruct (v <=? 0); [intros H; inj H; reflexivity|]. intros H. apply go_write_sizes in H. exact H.
  - intros H; inj H. cbn [c_cache set]. destruct (v >? 0); reflexivity.
  - intros H; inj H. cbn [c_cache set]. destruct (v >? 0); reflexivity.
Qed.
Lemma start_call_sizes cl x cl' rs : start_call cl x = Ok (cl', rs) -> sizes (c_cache cl') = sizes (c_cache cl).
Proof.
  destruct x as [buf niov|iov|wait| |reset|reset|get st sz|fd| ]; cbn [start_call]; intros H.
  - destruct (has _ _); [|discriminate]. destruct (_ || _); inj H; reflexivity.
  - unfold start_write in H. destruct (has _ _); [|discriminate]. destruct (wr_check _ _ _); [|inj H; reflexivity].
    apply (go_write_sizes _ _ _ _ _ H).
  - unfold start_flush in H. destruct (has _ _); [|discriminate]. destruct (_ =? 0); [inj H; reflexivity|].
    destruct (_ && _); [destruct (c_r2w cl)|]; try (inj H; reflexivity); apply (flush_write_sizes _ _ _ _ _ H).
  - unfold start_close in H. destruct (_ =? 0); [inj H; reflexivity|]. destruct (has _ _); [|discriminate]. apply (flush_write_sizes _ _ _ _ _ H).
  - inj H; reflexivity.
  - unfold do_farm_stat in H. destruct (has _ _); [|discriminate]. cbn [obind] in H. inj H. destruct reset; reflexivity.
  - inj H; reflexivity.
  - apply obind_ok in H. destruct H as ([cl1 v] & E & H). inj H. unfold do_ctl in E.
    apply obind_ok in E. destruct E as ([cl2 sc] & E1 & E). apply obind_ok in E. destruct E as ([cl3 sc'] & E2 & E). inj E.
    assert (A : c_cache cl2 = c_cache cl).
    { destruct (has (c_flags cl) SHR_WRONLY); [|inj E1; reflexivity]. destruct (c_r2w cl); [|inj E1; reflexivity].
      apply obind_ok in E1. destruct E1 as ([h ok] & _ & E1). inj E1. reflexivity. }
    assert (B : c_cache cl' = c_cache cl2).
    { destruct (has (c_flags cl2) SHR_RDONLY); [|inj E2; reflexivity]. destruct (c_w2r cl2); [|discriminate E2].
      apply obind_ok in E2. destruct E2 as ([h ok] & _ & E2). inj E2. reflexivity. }
    rewrite B, A. reflexivity.
  - inj H; reflexivity.
Qed.
Lemma resume_cache cl : c_cache (resume cl) = c_cache cl.
Proof. unfold resume. destruct (c_pc cl); reflexivity. Qed.

(** how large the cache of each client is *)
Definition CASZ (r : ring) (w : world) : Prop := forall c, c_live (cli w c) = true ->
  sizes (c_cache (cli w c)) = if has (c_flags (cli w c)) SHR_WRONLY && buffering w c then (cap_bytes (r_n r), cap_msgs (r_mm r)) else (0, 0).

Lemma cap_bytes_eq n : 0 <= n -> cache_sz n = cap_bytes n.
Proof.
  intros H. unfold cache_sz, cap_bytes. change (1024 * 1024 * 1024) with (2 ^ 30).
  assert (P30 : 2 ^ 30 = 1073741824) by reflexivity.
  pose proof (Z.div_mod n 10 ltac:(lia)). pose proof (Z.mod_pos_bound n 10 ltac:(lia)).
  destruct (Z.gtb_spec (n / 10) (2 ^ 30)).
  - rewrite P30 in *. cbn [Z.ltb Z.compare Pos.compare Pos.compare_cont]. destruct (Z.ltb_spec n 10240); lia.
  - destruct (Z.ltb_spec (n / 10) 1024), (Z.ltb_spec n 10240); lia.
Qed.
Lemma cap_msgs_eq mm : cache_vt mm = cap_msgs mm.
Proof. unfold cache_vt, cap_msgs. destruct (Z.ltb_spec 10000 mm); lia. Qed.

Lemma reach_CASZ r w evs : reach contract r w evs -> CASZ r w.
Proof.
  intros (fsz & F & X & B). refine (exec_ind_inv contract r fsz (fun w evs => CASZ r w) id_contract F _ _ w evs X B).
  { intros c. rewrite world0_cli. discriminate. }
  clear w evs X B. intros w evs a w' ev X W HP W' HB HC HS SI EF Q c L'.
  destruct (inv_bounds _ _ (wi_ring _ _ _ W)) as [Bn Bm].
  destruct (wi_dims _ _ _ W) as (_ & En & Em & _). cbn [w_ring world0] in En, Em.
  destruct (who _ _ _ _ _ _ _ W HC HS L') as [HA|[(HA & EC)|(e & fl & pid & -> & -> & Hid)]].
  - destruct (was_live _ _ _ _ _ _ _ W HC HS SI HA L') as [L FL].
    pose proof (Q c L) as QQ. unfold buffering in *. rewrite FL, <- QQ. clear FL QQ.
    pose proof (live_bound _ _ L) as LB.
    assert (SAME : forall w1 cl1, w_cl w1 = w_cl w -> cli (setc w1 c cl1) c = cl1).
    { intros w1 cl1 E. apply cli_setc_same. rewrite E. exact LB. }
    inversion SI; subst; cbn [actor] in HA; try discriminate; try (injection HA as ->);
      try (match goal with H : _ = AEintr _ /\ _ \/ _ |- _ => destruct H as [[-> ->]|[[fd ->] ->]]; injection HA as -> end);
      try reflexivity; rewrite ?SAME in * by reflexivity; cbn [c_cache set] in *; try reflexivity;
      try (match goal with H : start_call _ _ = _ |- _ => apply (start_call_sizes _ _ _ _ H) end);
      try (match goal with H : end_write _ _ _ _ = _ |- _ => apply end_write_sizes in H; exact H end);
      try (match goal with H : flush_write _ _ _ = _ |- _ => apply flush_write_sizes in H; exact H end).
    + destruct H1 as [->|(ks & h & _ & _ & ->)]; rewrite SAME by reflexivity; reflexivity.
    + destruct (e_lock e); rewrite SAME in L' by (try apply close_handles_cl; reflexivity); discriminate L'.
    + rewrite resume_cache. reflexivity.
  - unfold buffering. rewrite EC in *. apply (Q c L').
  - cbn [step] in HS. apply obind_ok in HS. destruct HS as ([w1 o] & E & HS).
    assert (EC : w_cl w1 = w_cl w).
    { destruct (do_open_ok e w fl pid _ (wi_ring _ _ _ W) HC) as (w2 & o2 & E' & _ & E2 & _). rewrite E in E'. injection E' as <- <-. exact E2. }
    destruct o as [cl|].
    2: { injection HS as <- _. apply live_bound in L'. rewrite EC in L'. lia. }
    injection HS as <- _.
    destruct (do_open_split _ _ _ _ _ _ E) as [[_ QQ]|(_ & _ & hs & _ & QQ)]; [discriminate QQ|]. destruct (QQ _ eq_refl) as (x & y & ca & _ & EI & ->).
    assert (E1 : forall cl, cli (w1 <| w_cl := w_cl w1 ++ [cl] |>) (length (w_cl w)) = cl).
    { intros cl. unfold cli. cbn [w_cl set]. rewrite EC, app_nth2, Nat.sub_diag by lia. reflexivity. }
    unfold buffering. rewrite !E1. cbn [c_cache c_flags].
    unfold init_cache in EI. destruct (has fl SHR_WRONLY), (has fl SHR_BUFFERED); cbn [negb orb andb] in *;
      try (injection EI as <-; reflexivity).
    destruct (e_alloc e); [|discriminate]. injection EI as <-. unfold sizes. cbn [ca_sz ca_vt].
    rewrite cap_bytes_eq by lia. rewrite cap_msgs_eq. rewrite En, Em. reflexivity.
Qed.

(** ** starting a buffered write (C50) *)
Lemma f_buffer_start r w evs c iov w' ev : reach contract r w evs -> contract w (ACall c (CWrite iov)) ->
  idle w evs c -> buffering w c = true -> ~ refused (r_n r) (r_mm r) iov -> step w (ACall c (CWrite iov)) = Ok (w', ev) ->
  let ms := cache_msgs (c_cache (cli w c)) in let ms' := cache_msgs (c_cache (cli w' c)) in
  w_ring w' = w_ring w /\
  ((in_cache (r_n r) (r_mm r) iov ms /\ ev = [ECall c (CWrite iov); ERet c (RetWrite iov (nbytes iov))] /\ ms' = ms ++ iov)
   \/ (~ in_cache (r_n r) (r_mm r) iov ms /\ ev = [ECall c (CWrite iov)] /\ ms' = ms /\ asleep w' c = false)).
Proof.
  intros R HC HI HBf NR HS. pose proof (reach_CASZ _ _ _ R) as SZ.
  destruct (reach_inv _ _ _ _ id_contract R) as (fsz & F & X & B & W & HP & HB & SF & SD).
  destruct (wi_dims _ _ _ W) as (_ & En & Em & _). cbn [w_ring world0] in En, Em.
  destruct (idle_pc _ _ _ _ W HP HI) as [Hl Hpc]. pose proof (HC Hl Hpc) as (Hw & Hb & Hne).
  specialize (SZ c Hl). rewrite Hw, HBf in SZ. cbn [andb] in SZ. injection SZ as S1 S2.
  assert (Hi : iov_ok (r_n (w_ring w)) (r_mm (w_ring w)) iov) by (apply refused_iff; [assumption|rewrite En, Em; assumption]).
  destruct (wi_cl _ _ _ W c Hl) as [ms0 C]. destruct (inv_bounds _ _ (wi_ring _ _ _ W)) as [Bn Bm].
  pose proof (CI_msgs _ _ _ _ C) as EM. cbv zeta. rewrite EM.
  cbn [step] in HS. rewrite Hl, Hpc in HS. cbn [negb start_call] in HS. unfold start_write in HS. rewrite Hw in HS.
  rewrite (ci_n _ _ _ _ C), (ci_mm _ _ _ _ C) in HS. rewrite (iov_ok_check (r_n (w_ring w)) (r_mm (w_ring w)) iov ltac:(lia) Hi) in HS.
  pose proof (live_bound _ _ Hl) as LB.
  apply obind_ok in HS. destruct HS as ([cl' rs] & E & HS). injection HS as <- <-. split; [reflexivity|].
  destruct (go_write_ok _ _ _ _ _ (wi_ring _ _ _ W) (CI_CIi _ _ _ _ C) Hw Hi) as [(cl1 & E2 & C2 & E3 & _)|(k & iov1 & E2 & C2 & _)];
    rewrite E in E2; injection E2 as -> ->; unfold asleep; rewrite !cli_setc_same by exact LB; rewrite (CI_msgs _ _ _ _ C2).
  - left. split; [|split; reflexivity]. split.
    + destruct (wi_cl _ _ _ W c Hl) as [? _]. pose proof (ho_nsz _ _ (ci_ca _ _ _ _ C2)) as Q. rewrite nbytes_app in Q.
      pose proof (go_write_sizes _ _ _ _ _ E) as G. injection G as G1 G2. lia.
    + pose proof (ho_vvt _ _ (ci_ca _ _ _ _ C2)) as Q. rewrite zlen_app in Q.
      pose proof (go_write_sizes _ _ _ _ _ E) as G. injection G as G1 G2. lia.
  - right. split; [|repeat split; reflexivity]. intros [Q1 Q2]. unfold go_write in E. unfold buffering in HBf. rewrite HBf in E.
    pose proof (ci_ca _ _ _ _ C) as CA. rewrite (ho_n _ _ CA), (ho_vm _ _ CA), S1, S2 in E.
    pose proof (ho_nsz _ _ CA). pose proof (ho_vvt _ _ CA). pose proof (nbytes_nonneg ms0). pose proof (zlen_nonneg ms0).
    pose proof (ci_sz _ _ _ _ C). pose proof (ci_vt _ _ _ _ C). rewrite !u64_small in E by lia.
    destruct (Z.leb_spec (nbytes iov) (cap_bytes (r_n r) - nbytes ms0)); [|lia].
    destruct (Z.leb_spec (zlen iov) (cap_msgs (r_mm r) - zlen ms0)); [|lia].
    cbn [andb] in E. apply obind_ok in E. destruct E as (ca & _ & E). discriminate E.
Qed.

(** what a write of a buffered writer is about to do *)
Lemma bwrite_pc w0 w evs c iov : WI w0 w evs -> PI w evs -> pending c evs = Some (CWrite iov) -> buffering w c = true -> asleep w c = false ->
  let ms := cache_msgs (c_cache (cli w c)) in
  (ms = [] /\ c_pc (cli w c) = RunW KDirect iov (nbytes iov) (nonblocking w c) /\ iov_ok (r_n (w_ring w)) (r_mm (w_ring w)) iov)
  \/ (ms <> [] /\ c_pc (cli w c) = RunW (KThen iov (nbytes iov)) ms (nbytes ms) (nonblocking w c)
      /\ iov_ok (r_n (w_ring w)) (r_mm (w_ring w)) iov /\ iov_ok (r_n (w_ring w)) (r_mm (w_ring w)) ms).
Proof.
  intros W HP Pd Hb As. pose proof (pend_live _ _ _ _ _ W HP Pd) as Hl. cbv zeta.
  destruct (wi_cl _ _ _ W c Hl) as [ms C]. pose proof (ci_pc _ _ _ _ C) as P. unfold pc_ok in P. rewrite (CI_msgs _ _ _ _ C).
  specialize (HP c). rewrite Pd in HP. unfold asleep in As. unfold nonblocking.
  destruct (c_pc (cli w c)) as [ |k i l nb|k i l nb|? ?|? ?| | |? |? ? ?] eqn:Hpc; cbn [pc_for] in HP; try discriminate;
    try (destruct HP as [HP _]; discriminate).
  destruct k; try (destruct HP as [HP _]; discriminate).
  - left. destruct HP as [HP ->]. injection HP as <-. destruct P as (_ & Hi & -> & Hk & _). auto.
  - right. destruct HP as [HP ->]. injection HP as <-. destruct P as (_ & Hi & -> & (-> & _ & Hi' & ->) & _).
    split; [apply Hi|]. auto.
  - destruct HP as (? & HP & _). discriminate.
Qed.

Lemma f_buffer_pass r w evs c e iov w' ev : reach contract r w evs ->
  pending c evs = Some (CWrite iov) -> buffering w c = true -> asleep w c = false ->
  step w (ARun c e) = Ok (w', ev) -> e_lock e = true ->
  let ms := cache_msgs (c_cache (cli w c)) in let ms' := cache_msgs (c_cache (cli w' c)) in
  let u := ring_unread (w_ring w) in let first := match ms with [] => iov | _ => ms end in
  (r_drop r = false /\ ~ (nbytes u + nbytes first <= r_n r /\ zlen u + zlen first <= r_mm r)
    /\ w_ring w' = w_ring w /\ ms' = ms
    /\ (if nonblocking w c then ev = [ERet c (RetWrite iov 0)] else ev = [] /\ asleep w' c = true))
  \/ ((r_drop r = true \/ (nbytes u + nbytes first <= r_n r /\ zlen u + zlen first <= r_mm r))
    /\ least_drop (r_n r) (r_mm r) first u (ring_unread (w_ring w'))
    /\ ((ms = [] /\ ms' = [] /\ exists v, ev = [ECommit c iov; ERet c (RetWrite iov v)] /\ (v = nbytes iov \/ v = -1)
           /\ (faultless w (ARun c e) -> v = nbytes iov))
        \/ (ms <> [] /\ ms' = ms /\ ev = [ECommit c ms; ERet c (RetWrite iov (-1))] /\ ~ faultless w (ARun c e))
        \/ (ms <> [] /\ in_cache (r_n r) (r_mm r) iov [] /\ ms' = iov /\ ev = [ECommit c ms; ERet c (RetWrite iov (nbytes iov))])
        \/ (ms <> [] /\ ~ in_cache (r_n r) (r_mm r) iov [] /\ ms' = [] /\ ev = [ECommit c ms]
             /\ asleep w' c = false /\ pending c (evs ++ ev) = Some (CWrite iov)))).
Proof.
  intros R Pd Hb Ha HS He. pose proof (reach_CASZ _ _ _ R) as SZ.
  destruct (reach_inv _ _ _ _ id_contract R) as (fsz & F & X & B & W & HP & HB & SF & SD).
  destruct (wi_dims _ _ _ W) as (_ & En & Em & _). cbn [w_ring world0] in En, Em.
  pose proof (pend_live _ _ _ _ _ W HP Pd) as Hl. destruct (inv_bounds _ _ (wi_ring _ _ _ W)) as [Bn Bm].
  cbv zeta. destruct (bwrite_pc _ _ _ _ _ W HP Pd Hb Ha) as [(EM & Hpc & Hi)|(EM & Hpc & Hi' & Hi)].
  - rewrite EM.
    destruct (write_crit _ _ _ _ _ _ _ _ _ _ _ W Hl Hpc HS He) as (_ & _ & K).
    destruct Hi as (I0 & I1 & I2 & I3). rewrite <- SD, <- En, <- Em.
    destruct K as [(K1 & K2 & K3 & K4)|(K1 & K2 & K3 & hw' & cl' & rs & v & K4 & K5 & K6 & K7 & K8)].
    + left. split; [exact K1|]. split; [apply room_false; exact K2|]. split; [exact K3|]. unfold nonblocking in *.
      destruct (has (c_flags (cli w c)) SHR_NONBLOCK).
      * destruct K4 as (cl' & rs & K4 & -> & -> & _). cbn [end_write] in K4. injection K4 as <- <-. cbn [c_cache set]. split; [exact EM|reflexivity].
      * destruct K4 as (K4 & K5 & ->). cbn [c_cache set]. auto.
    + right. split; [rewrite <- room_iff; exact K1|]. split; [rewrite K2; apply fit_least_drop; assumption|].
      left. cbn [end_write] in K4. injection K4 as Q <-. rewrite K6, <- Q. cbn [c_cache set].
      split; [reflexivity|]. split; [exact EM|]. exists v. split; [exact K5|]. split; [exact K7|]. intros [[_ G] M]. apply K8; assumption.
  - set (ms := cache_msgs (c_cache (cli w c))) in *.
    replace (match ms with [] => iov | _ => ms end) with ms by (destruct ms; [contradiction|reflexivity]).
    destruct (write_crit _ _ _ _ _ _ _ _ _ _ _ W Hl Hpc HS He) as (_ & _ & K).
    pose proof Hi as (I0 & I1 & I2 & I3). rewrite <- SD, <- En, <- Em.
    destruct K as [(K1 & K2 & K3 & K4)|(K1 & K2 & K3 & hw' & cl' & rs & v & K4 & K5 & K6 & K7 & K8)].
    + left. split; [exact K1|]. split; [apply room_false; exact K2|]. split; [exact K3|]. unfold nonblocking in *.
      destruct (has (c_flags (cli w c)) SHR_NONBLOCK).
      * destruct K4 as (cl' & rs & K4 & -> & -> & _). cbn [end_write Z.leb Z.compare] in K4. injection K4 as <- <-. cbn [c_cache set]. split; reflexivity.
      * destruct K4 as (K4 & K5 & ->). cbn [c_cache set]. auto.
    + right. split; [rewrite <- room_iff; exact K1|]. split; [rewrite K2; apply fit_least_drop; assumption|]. right.
      cbn [end_write] in K4. destruct (iov_ok_pos _ _ _ Hi) as [Hp _].
      destruct K7 as [->| ->].
      * right. destruct (Z.leb_spec (nbytes ms) 0); [lia|].
        destruct (wi_cl _ _ _ W c Hl) as [ms0 C]. pose proof (ci_pc _ _ _ _ C) as P. unfold pc_ok in P. rewrite Hpc in P. destruct P as (Hw & _).
        specialize (SZ c Hl). rewrite Hw, Hb in SZ. cbn [andb] in SZ. injection SZ as S1 S2. rewrite <- En in S1. rewrite <- Em in S2.
        set (cl1 := ((cli w c) <| c_w2r := Some hw' |>) <| c_cache := clear_cache (c_cache ((cli w c) <| c_w2r := Some hw' |>)) |>) in *.
        pose proof (clear_ok _ _ (ci_ca _ _ _ _ C)) as CA.
        pose proof (ci_sz _ _ _ _ C) as Z1. pose proof (ci_vt _ _ _ _ C) as Z2. rewrite S1 in Z1. rewrite S2 in Z2.
        unfold go_write in K4. change (c_flags cl1) with (c_flags (cli w c)) in K4. unfold buffering in Hb. rewrite Hb in K4.
        change (c_cache cl1) with (clear_cache (c_cache (cli w c))) in K4.
        assert (Y1 : 0 <= cap_bytes (r_n (w_ring w))) by (unfold cap_bytes; destruct (_ <? _); [lia|]; pose proof (Z.div_pos (r_n (w_ring w)) 10 ltac:(lia) ltac:(lia)); lia).
        assert (Y2 : 0 <= cap_msgs (r_mm (w_ring w))) by (unfold cap_msgs; lia).
        cbn [clear_cache ca_sz ca_n ca_vt ca_vm set] in K4. rewrite S1, S2, !Z.sub_0_r, !u64_small in K4 by lia.
        unfold in_cache. change (nbytes []) with 0. change (zlen (@nil bytes)) with 0. rewrite !Z.add_0_l.
        destruct (Z.leb_spec (nbytes iov) (cap_bytes (r_n (w_ring w)))) as [L1|L1];
        destruct (Z.leb_spec (zlen iov) (cap_msgs (r_mm (w_ring w)))) as [L2|L2]; cbn [andb] in K4.
        { left. split; [exact EM|]. split; [lia|].
          destruct (sink_ok iov (clear_cache (c_cache (cli w c))) []) as (ca' & E & H' & _); try lia; try assumption.
          - apply Hi'.
          - cbn [clear_cache ca_sz set]. lia.
          - cbn [clear_cache ca_vt set]. lia.
          - cbn [clear_cache ca_sz set]. change (nbytes []) with 0. lia.
          - cbn [clear_cache ca_vt set]. change (zlen (@nil bytes)) with 0. lia.
          - change (ca_sz (clear_cache (c_cache (cli w c)))) with (ca_sz (c_cache (cli w c))) in *.
            rewrite E in K4. cbn [obind] in K4. injection K4 as Q <-. rewrite K6, <- Q. cbn [c_cache set].
            split; [apply (cache_msgs_holds _ _ H')|]. exact K5. }
        all: right; split; [exact EM|]; split; [lia|]; cbn [Z.eqb] in K4; injection K4 as Q <-; unfold asleep; rewrite K6, <- Q;
          cbn [c_cache c_pc set]; split; [reflexivity|]; split; [exact K5|]; split; [reflexivity|];
          rewrite K5; cbn [rets map]; rewrite pending_app; cbn [fold_left]; exact Pd.
      * left. cbn [Z.leb Z.compare] in K4. injection K4 as Q <-. rewrite K6, <- Q. cbn [c_cache set].
        split; [exact EM|]. split; [reflexivity|]. split; [exact K5|]. intros [[_ G] M]. specialize (K8 G M). lia.
Qed.

(** ** zero: only for those who asked not to wait *)
Lemma go_write_pos cl iov len cl' rs i v : 0 < len -> go_write cl iov len = Ok (cl', rs) -> In (RetWrite i v) rs -> v <> 0.
Proof.
  intros Hp E Hin. unfold go_write in E. destruct (has (c_flags cl) SHR_BUFFERED); [|injection E as <- <-; contradiction].
  destruct (_ && _).
  - apply obind_ok in E. destruct E as (ca & _ & E). injection E as <- <-. destruct Hin as [Q|[]]. injection Q as _ <-. lia.
  - destruct (ca_n (c_cache cl) =? 0); [injection E as <- <-; contradiction|].
    apply obind_ok in E. destruct E as (ms & _ & E). destruct (wr_check _ _ _); injection E as <- <-; [contradiction|].
    destruct Hin as [Q|[]]. injection Q as _ <-. lia.
Qed.
Lemma end_write_pos r cl ms k iov v cl' rs i v' : kont_ok r cl ms iov k -> end_write cl k iov v = Ok (cl', rs) ->
  In (RetWrite i v') rs -> v <> 0 -> v' <> 0.
Proof.
  intros Hk E Hin Hv. destruct k; cbn [end_write] in E.
  - injection E as <- <-. destruct Hin as [Q|[]]. injection Q as _ <-. assumption.
  - destruct (Z.leb_spec v 0).
    + injection E as <- <-. destruct Hin as [Q|[]]. injection Q as _ <-. assumption.
    + destruct Hk as (_ & _ & Hi & ->). destruct (iov_ok_pos _ _ _ Hi) as [Hp _]. eapply go_write_pos; [|exact E|exact Hin]; lia.
  - injection E as <- <-. destruct Hin as [Q|[]]. discriminate Q.
  - injection E as <- <-. contradiction.
Qed.
Lemma in_rets c x c' rs : In (ERet c x) (rets c' rs) -> c = c' /\ In x rs.
Proof. unfold rets. rewrite in_map_iff. intros (y & E & H). injection E as -> ->. auto. Qed.
Lemma flush_write_ret_w cl k nb cl' rs i v : flush_write cl k nb = Ok (cl', rs) -> ~ In (RetWrite i v) rs.
Proof.
  unfold flush_write. intros H. apply obind_ok in H. destruct H as (ms & _ & H).
  destruct (wr_check _ _ _); [inj H; auto|]. destruct k; inj H; intros Q; cbn in Q; intuition discriminate.
Qed.
Lemma f_zero_write r w evs a w' ev c iov : reach contract r w evs -> contract w a -> step w a = Ok (w', ev) ->
  In (ERet c (RetWrite iov 0)) ev -> nonblocking w c = true /\ r_drop r = false.
Proof.
  intros R HC HS Hin. destruct (reach_inv _ _ _ _ id_contract R) as (fsz & F & X & B & W & HP & HB & SF & SD).
  pose proof (step_inv _ _ _ _ HS) as SI. unfold nonblocking.
  inversion SI; subst; try (cbn in Hin; intuition discriminate).
  - (* call *) destruct Hin as [Hin|Hin]; [discriminate|]. apply in_rets in Hin. destruct Hin as [-> Hin]. exfalso.
    pose proof (HC H H0) as OK. destruct (wi_cl _ _ _ W _ H) as [ms C]. destruct (inv_bounds _ _ (wi_ring _ _ _ W)) as [Bn Bm].
    destruct x as [buf niov|iov1|wait| |reset|reset|get st sz|fd| ]; cbn [start_call] in H1.
    + destruct (has _ _); [|discriminate]. destruct (_ || _); inj H1; cbn in Hin; intuition discriminate.
    + destruct OK as (Hw & Hb & Hne). unfold start_write in H1. rewrite Hw in H1. rewrite (ci_n _ _ _ _ C), (ci_mm _ _ _ _ C) in H1.
      destruct (wr_check_iff (r_n (w_ring w)) (r_mm (w_ring w)) iov1 ltac:(lia) Hb Hne) as [[Hi E]|[_ E]]; rewrite E in H1.
      * destruct (iov_ok_pos _ _ _ Hi) as [Hp _]. eapply go_write_pos; [|exact H1|exact Hin|reflexivity]; lia.
      * inj H1. cbn in Hin. intuition discriminate.
    + unfold start_flush in H1. destruct (has _ _); [|discriminate]. destruct (_ =? 0); [inj H1; cbn in Hin; intuition discriminate|].
      destruct (_ && _); [destruct (c_r2w (cli w c0))|]; try (inj H1; contradiction); apply (flush_write_ret_w _ _ _ _ _ _ _ H1 Hin).
    + unfold start_close in H1. destruct (_ =? 0); [inj H1; contradiction|]. destruct (has _ _); [|discriminate]. apply (flush_write_ret_w _ _ _ _ _ _ _ H1 Hin).
    + inj H1. contradiction.
    + apply obind_ok in H1. destruct H1 as ([cl1 d] & _ & H1). inj H1. cbn in Hin. intuition discriminate.
    + inj H1. contradiction.
    + apply obind_ok in H1. destruct H1 as ([cl1 d] & _ & H1). inj H1. cbn in Hin. intuition discriminate.
    + inj H1. cbn in Hin. intuition discriminate.
  - (* write without effect *) apply in_rets in Hin. destruct Hin as [-> Hin].
    destruct (wi_cl _ _ _ W _ H) as [ms C]. pose proof (ci_pc _ _ _ _ C) as P. unfold pc_ok in P. rewrite H0 in P. destruct P as (Hw & Hi & -> & Hk & _).
    destruct H1 as [(El & ->)|(El & -> & -> & Er)].
    { exfalso. apply (end_write_pos _ _ _ _ _ _ _ _ _ _ Hk H2 Hin); lia. }
    specialize (HP c0). rewrite H0 in HP. cbn [pc_for] in HP.
    assert (NB : has (c_flags (cli w c0)) SHR_NONBLOCK = true).
    { destruct k; cbn [pc_for] in HP.
      - symmetry. apply (proj2 HP).
      - symmetry. apply (proj2 HP).
      - destruct HP as (wt & _ & Q). symmetry in Q. apply andb_prop in Q. apply Q.
      - symmetry. apply (proj2 HP). }
    split; [exact NB|]. rewrite <- SD. destruct (r_drop (w_ring w)) eqn:D; [|reflexivity].
    rewrite (ci_mm _ _ _ _ C) in Er. destruct (ring_write_ok _ _ iov0 (wi_ring _ _ _ W) Hi) as [_ A].
    destruct (A (or_introl D)) as (r' & E' & _). congruence.
  - (* commit *) destruct Hin as [Hin|Hin]; [discriminate|]. apply in_rets in Hin. destruct Hin as [-> Hin]. exfalso.
    destruct (wi_cl _ _ _ W _ H) as [ms C]. pose proof (ci_pc _ _ _ _ C) as P. unfold pc_ok in P. rewrite H0 in P. destruct P as (Hw & Hi & -> & Hk & _).
    destruct (iov_ok_pos _ _ _ Hi) as [Hp _].
    assert (Hk' : kont_ok (w_ring w) ((cli w c0) <| c_w2r := Some hw' |>) ms iov0 k) by (destruct k; exact Hk).
    apply (end_write_pos _ _ _ _ _ _ _ _ _ _ Hk' H7 Hin); [|reflexivity]. destruct (_ && _); lia.
  - apply in_rets in Hin. destruct Hin as [-> Hin]. exfalso. apply (flush_write_ret_w _ _ _ _ _ _ _ H3 Hin).
  - destruct Hin as [Hin|[]]. injection Hin as _ ->. exfalso. unfold do_stat in H1. destruct (e_lock e); cbn [negb] in H1; discriminate H1.
  - destruct Hin as [Hin|[]]. injection Hin as _ ->. exfalso. destruct (do_app_ret _ _ _ _ _ _ _ H1) as (? & ? & ? & Q). discriminate Q.
  - apply in_rets in Hin. destruct Hin as [-> Hin]. exfalso.
    assert (L : c_live (cli w c0) = true) by (destruct (c_live (cli w c0)) eqn:L; [reflexivity|pose proof (wi_dead _ _ _ W _ L); congruence]).
    destruct (wi_cl _ _ _ W _ L) as [ms C]. pose proof (ci_pc _ _ _ _ C) as P. unfold pc_ok in P. rewrite H0 in P. destruct P as (Hw & Hi & -> & Hk & _).
    apply (end_write_pos _ _ _ _ _ _ _ _ _ _ Hk H1 Hin); [|reflexivity]. destruct H as [[_ ->]|[_ ->]]; lia.
Qed.
Lemma start_call_read cl x cl' rs v b i : start_call cl x = Ok (cl', rs) -> In (RetRead v b i) rs -> v = -1.
Proof.
  intros E Hin. pose proof (start_call_ret _ _ _ _ E) as [->|(y & -> & Hy)]; [contradiction|]. destruct Hin as [->|[]].
  destruct x; try contradiction Hy. cbn [start_call] in E. destruct (has _ _); [|discriminate]. destruct (_ || _); [|discriminate].
  injection E as _ <- _ _. reflexivity.
Qed.
Lemma avail_nonempty r h q : Inv0 r h -> Forall (fun b => 0 < zlen b) (available r q).
Proof.
  intros I0. pose proof (w_ne _ _ _ (i_win _ _ I0)) as NE. unfold nonempty in NE. rewrite Forall_forall in *. intros m Hm. apply NE.
  assert (S : forall k (l : list bytes), In m (skipn k l) -> In m l).
  { intros k l H. rewrite <- (firstn_skipn k l). apply in_or_app. right. exact H. }
  unfold available in Hm. destruct (r_farm r).
  - apply S in Hm. rewrite (retained_eq _ _ I0) in Hm. apply S in Hm. exact Hm.
  - rewrite (unread_eq _ _ I0) in Hm. apply S in Hm. exact Hm.
Qed.
Lemma f_zero_read r w evs a w' ev c buf iov : reach contract r w evs -> contract w a -> step w a = Ok (w', ev) ->
  In (ERet c (RetRead 0 buf iov)) ev ->
  nonblocking w c = true /\ available (w_ring w) (c_q (cli w c)) = [] /\ iov = [].
Proof.
  intros R HC HS Hin. destruct (reach_inv _ _ _ _ id_contract R) as (fsz & F & X & B & W & HP & HB & SF & SD).
  pose proof (step_inv _ _ _ _ HS) as SI.
  assert (RUN : forall e bf n, a = ARun c e -> e_lock e = true -> c_pc (cli w c) = RunR bf n ->
    nonblocking w c = true /\ available (w_ring w) (c_q (cli w c)) = [] /\ iov = []).
  { intros e bf n -> El Hpc. assert (As : asleep w c = false) by (unfold asleep; rewrite Hpc; reflexivity).
    pose proof (HP c) as Pd. rewrite Hpc in Pd. cbn [pc_for] in Pd.
    destruct (f_read_pass _ _ _ _ _ _ _ _ _ R Pd As HS El) as [(A1 & A2 & A3 & A4)|(tk & A1 & A2 & A3 & ->)].
    - destruct (nonblocking w c); [|destruct A4 as [-> _]; contradiction]. destruct A4 as [-> _]. destruct Hin as [Q|[]]. injection Q as <- <-. auto.
    - destruct Hin as [Q|[]]. exfalso. destruct tk as [|m t]; [discriminate Q|]. injection Q as Q _ _.
      destruct A3 as (A3 & _). rewrite nbytes_cons in Q. pose proof (nbytes_nonneg t).
      assert (NE : Forall (fun b => 0 < zlen b) (available (w_ring w) (c_q (cli w c)))).
      { apply (avail_nonempty _ (committed evs)). apply (i_inv0 _ _ (wi_ring _ _ _ W)). }
      rewrite A3 in NE. inversion NE as [|? ? N1 N2]; subst. lia. }
  inversion SI; subst; try (cbn in Hin; intuition discriminate).
  - destruct Hin as [Hin|Hin]; [discriminate|]. apply in_rets in Hin. destruct Hin as [-> Hin]. pose proof (start_call_read _ _ _ _ _ _ _ H1 Hin). discriminate.
  - apply in_rets in Hin. destruct Hin as [-> Hin]. exfalso. destruct (end_write_ret _ _ _ _ _ _ H2) as [->|(y & -> & Hy)]; [contradiction|]. destruct Hin as [->|[]]. destruct k; cbn in Hy; try contradiction; try discriminate Hy; destruct Hy as [? Hy]; discriminate Hy.
  - destruct Hin as [Hin|Hin]; [discriminate|]. apply in_rets in Hin. destruct Hin as [-> Hin]. exfalso.
    destruct (end_write_ret _ _ _ _ _ _ H7) as [->|(y & -> & Hy)]; [contradiction|]. destruct Hin as [->|[]]. destruct k; cbn in Hy; try contradiction; try discriminate Hy; destruct Hy as [? Hy]; discriminate Hy.
  - destruct Hin as [Q|[]]. injection Q as -> _ _. eapply RUN; eauto.
  - destruct Hin as [Q|[]]. injection Q as -> _ _ _. eapply RUN; eauto.
  - apply in_rets in Hin. destruct Hin as [-> Hin]. exfalso. destruct (flush_write_ret _ _ _ _ _ H3) as [->|(_ & y & ->)]; [contradiction|]. destruct Hin as [Q|[]]. discriminate Q.
  - destruct Hin as [Hin|[]]. injection Hin as _ ->. exfalso. unfold do_stat in H1. destruct (e_lock e); cbn [negb] in H1; discriminate H1.
  - destruct Hin as [Hin|[]]. injection Hin as _ ->. exfalso. destruct (do_app_ret _ _ _ _ _ _ _ H1) as (? & ? & ? & Q). discriminate Q.
  - apply in_rets in Hin. destruct Hin as [-> Hin]. exfalso. destruct (end_write_ret _ _ _ _ _ _ H1) as [->|(y & -> & Hy)]; [contradiction|]. destruct Hin as [->|[]]. destruct k; cbn in Hy; try contradiction; try discriminate Hy; destruct Hy as [? Hy]; discriminate Hy.
  - destruct Hin as [Hin|[]]. injection Hin as _ Q _ _. destruct H as [[_ ->]|[_ ->]]; discriminate Q.
Qed.
(** ** shr_get_selectable_fd *)
Lemma f_sel r w evs c w' ev : reach contract r w evs -> idle w evs c -> step w (ACall c CSelFd) = Ok (w', ev) ->
  w' = w /\ exists o, ev = [ECall c CSelFd; ERet c (RetSel o)]
  /\ (if has (c_flags (cli w c)) SHR_RDONLY && nonblocking w c then exists s, o = Some s /\ data_sock w c = Some s else o = None).
Proof.
  intros R HI HS. destruct (reach_inv _ _ _ _ id_contract R) as (fsz & F & X & B & W & HP & HB & SF & SD).
  destruct (idle_pc _ _ _ _ W HP HI) as [Hl Hpc]. cbn [step] in HS. rewrite Hl, Hpc in HS. cbn [negb start_call obind] in HS.
  injection HS as <- <-. split; [apply setc_same|]. exists (sel_fd (cli w c)). split; [reflexivity|].
  unfold nonblocking, sel_fd, data_sock. rewrite Hl. destruct (has (c_flags (cli w c)) SHR_RDONLY) eqn:Hr; cbn [andb]; [|reflexivity].
  destruct (has (c_flags (cli w c)) SHR_NONBLOCK); [|reflexivity].
  destruct (wi_cl _ _ _ W c Hl) as [ms C]. destruct (ci_rd _ _ _ _ C Hr) as [(n & s & p & ->) _]. exists s. split; reflexivity.
Qed.
(** ** what else shr_stat reports *)
Lemma f_stat_dims r w evs a w' ev c b v so : reach contract r w evs -> contract w a -> step w a = Ok (w', ev) ->
  In (ERet c (RetStat b v (Some so))) ev ->
  so_flags so = r_gflags r
  /\ so_cn so = (if has (c_flags (cli w c)) SHR_WRONLY && buffering w c then cap_bytes (r_n r) else 0).
Proof.
  intros R HC HS Hin. pose proof (reach_CASZ _ _ _ R) as SZ.
  destruct (reach_inv _ _ _ _ id_contract R) as (fsz & F & X & B & W & HP & HB & SF & SD).
  destruct (wi_dims _ _ _ W) as (Eg & _). cbn [w_ring world0] in Eg. pose proof (step_inv _ _ _ _ HS) as SI.
  inversion SI; subst; try (cbn in Hin; intuition discriminate).
  - destruct Hin as [Hin|Hin]; [discriminate|]. apply in_rets in Hin. destruct Hin as [-> Hin]. exfalso.
    destruct (start_call_ret _ _ _ _ H1) as [->|(y & -> & Hy)]; [contradiction|]. destruct Hin as [->|[]].
    destruct x; try contradiction Hy. cbn [start_call] in H1. injection H1 as _ Q. discriminate Q.
  - apply in_rets in Hin. destruct Hin as [-> Hin]. exfalso. destruct (end_write_ret _ _ _ _ _ _ H2) as [->|(y & -> & Hy)]; [contradiction|]. destruct Hin as [->|[]]. destruct k; cbn in Hy; try contradiction; try discriminate Hy; destruct Hy as [? Hy]; discriminate Hy.
  - destruct Hin as [Hin|Hin]; [discriminate|]. apply in_rets in Hin. destruct Hin as [-> Hin]. exfalso.
    destruct (end_write_ret _ _ _ _ _ _ H7) as [->|(y & -> & Hy)]; [contradiction|]. destruct Hin as [->|[]]. destruct k; cbn in Hy; try contradiction; try discriminate Hy; destruct Hy as [? Hy]; discriminate Hy.
  - apply in_rets in Hin. destruct Hin as [-> Hin]. exfalso. destruct (flush_write_ret _ _ _ _ _ H3) as [->|(_ & y & ->)]; [contradiction|]. destruct Hin as [Q|[]]. discriminate Q.
  - destruct Hin as [Hin|[]]. injection Hin as -> ->. unfold do_stat in H1. destruct (e_lock e); cbn [negb] in H1; [|discriminate H1].
    injection H1 as _ _ _ <-. cbn [stat_of so_flags so_cn]. split; [exact Eg|]. specialize (SZ _ H).
    unfold sizes in SZ. destruct (has _ SHR_WRONLY && _); injection SZ as E _; exact E.
  - destruct Hin as [Hin|[]]. injection Hin as _ ->. exfalso. destruct (do_app_ret _ _ _ _ _ _ _ H1) as (? & ? & ? & Q). discriminate Q.
  - apply in_rets in Hin. destruct Hin as [-> Hin]. exfalso. destruct (end_write_ret _ _ _ _ _ _ H1) as [->|(y & -> & Hy)]; [contradiction|]. destruct Hin as [->|[]]. destruct k; cbn in Hy; try contradiction; try discriminate Hy; destruct Hy as [? Hy]; discriminate Hy.
Qed.
