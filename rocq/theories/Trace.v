(** * Every execution is one of an atomic queue (C52) *)
From Verif Require Import CrashFinal Final.
From Verif Require Export TraceSpec.

Lemma flags_app c a b : Forall (tagged c) b -> forall c', flags_of c' (a ++ b) = flags_of c' a.
Proof.
  intros F c'. unfold flags_of. rewrite fold_left_app. 
  match goal with |- fold_left _ b ?z = ?z => generalize z end.
  induction F as [|e b T F IH]; intros z; [reflexivity|]. cbn [fold_left]. destruct e; cbn [tagged] in T; try contradiction; apply IH.
Qed.
Lemma done_other c c' a b : c' <> c -> Forall (tagged c) b -> done c' (a ++ b) = done c' a.
Proof.
  intros N F. unfold done. rewrite fold_left_app. 
  match goal with |- fold_left _ b ?z = ?z => generalize z end.
  induction F as [|e b T F IH]; intros z; [reflexivity|]. cbn [fold_left]. destruct e; cbn [tagged] in T; try contradiction; subst;
    rewrite ?(is_neq c' c) by exact N; apply IH.
Qed.
Lemma done_rets c c' a rs : done c' (a ++ rets c rs) = done c' a.
Proof.
  unfold done. rewrite fold_left_app. 
  match goal with |- fold_left _ _ ?z = ?z => generalize z end.
  induction rs as [|x rs IH]; intros z; [reflexivity|]. cbn [rets map fold_left]. apply IH.
Qed.
Lemma done_ret1 c c' a x : done c' (a ++ [ERet c x]) = done c' a. Proof. apply (done_rets c c' a [x]). Qed.
Lemma done_call c a x : done c (a ++ [ECall c x]) = [].
Proof. unfold done. rewrite fold_left_app. cbn [fold_left]. rewrite is_refl. reflexivity. Qed.
Lemma done_commit c a ms : done c (a ++ [ECommit c ms]) = done c a ++ ms.
Proof. unfold done. rewrite fold_left_app. cbn [fold_left]. rewrite is_refl. reflexivity. Qed.
Lemma put_same p c x : put p c x c = x. Proof. unfold put. rewrite is_refl. reflexivity. Qed.
Lemma put_other p c c' x : c' <> c -> put p c x c' = p c'. Proof. intros H. unfold put. rewrite is_neq by congruence. reflexivity. Qed.

Definition TI (K : harm) (a0 : aq) (w : world) (evs : list event) : Prop := exists p,
  atomic K a0 evs (abs (w_ring w)) p
  /\ (forall c, c_live (cli w c) = true -> p c = (c_q (cli w c), c_md (cli w c)) /\ flags_of c evs = c_flags (cli w c)
       /\ (c_pc (cli w c) <> Idle -> has (c_flags (cli w c)) SHR_BUFFERED = false -> done c evs = [])).

Lemma TI_setc K a0 w w1 evs ev c cl' p p' :
  (forall c, c_live (cli w c) = true -> p c = (c_q (cli w c), c_md (cli w c)) /\ flags_of c evs = c_flags (cli w c)
       /\ (c_pc (cli w c) <> Idle -> has (c_flags (cli w c)) SHR_BUFFERED = false -> done c evs = [])) ->
  w_cl w1 = w_cl w -> (c < length (w_cl w))%nat -> Forall (tagged c) ev ->
  atomic K a0 (evs ++ ev) (abs (w_ring w1)) p' -> (forall c', c' <> c -> p' c' = p c') ->
  (c_live cl' = true -> p' c = (c_q cl', c_md cl') /\ flags_of c evs = c_flags cl'
     /\ (c_pc cl' <> Idle -> has (c_flags cl') SHR_BUFFERED = false -> done c (evs ++ ev) = [])) ->
  TI K a0 (setc w1 c cl') (evs ++ ev).
Proof.
  intros HP E L T A O N. exists p'. split; [exact A|]. intros c'. destruct (Nat.eq_dec c' c) as [->|Nc].
  - rewrite (cli_setc_same w1) by (rewrite E; exact L). intros H. rewrite (flags_app c) by exact T. exact (N H).
  - rewrite (cli_setc_other w1) by exact Nc. replace (cli w1 c') with (cli w c') by (unfold cli; rewrite E; reflexivity).
    intros H. destruct (HP c' H) as (H1 & H2 & H3). rewrite (O c' Nc), (flags_app c), (done_other c) by assumption. auto.
Qed.

(** reads and writes of the critical sections are steps of the queue *)
Lemma write_aq r h iov : Inv r h -> (r_farm r = true -> zlen (h ++ iov) < W64) -> iov_ok (r_n r) (r_mm r) iov ->
  match ring_write r (r_mm r) iov (nbytes iov) with
  | Ok None => aq_step (abs r) (QWrite iov) = Some (abs r, WFull)
  | Ok (Some r') => aq_step (abs r) (QWrite iov) = Some (abs r', WOk)
  | _ => True end.
Proof.
  intros I HB Hi.
  assert (X : exists a x, aq_step (abs r) (QWrite iov) = Some (a, x)).
  { cbn [aq_step abs q_n q_mm q_drop q_farm q_seq q_kept q_unread]. rewrite (proj2 (okb_ok _ _ _) Hi). cbn [andb].
    assert (B : negb (r_farm r) || (r_q r + zlen (ring_retained r) + zlen iov <? W64) = true).
    { destruct (r_farm r) eqn:Hf; [|reflexivity]. cbn [negb orb]. apply Z.ltb_lt. specialize (HB eq_refl). rewrite zlen_app in HB.
      pose proof (zlen_nonneg iov). destruct (zlen_retained_q r h I Hf ltac:(lia)) as [E _]. lia. }
    rewrite B. destruct (room (r_n r) (r_mm r) iov (ring_unread r) || r_drop r); eexists _, _; reflexivity. }
  destruct X as (a & x & X).
  assert (HB' : r_farm r = true -> zlen h < W64) by (intros Hf; specialize (HB Hf); rewrite zlen_app in HB; pose proof (zlen_nonneg iov); lia).
  destruct (step_sim r h _ _ _ I HB' X) as (r' & h' & E & Ea & _). cbn [r_step] in E.
  destruct (ring_write r (r_mm r) iov (nbytes iov)) as [[r1|]| | | ]; try exact Logic.I; cbn [obind] in E; injection E as <- <-; rewrite X, <- Ea; [|reflexivity].
  unfold stat_wrote. rewrite abs_stat. reflexivity.
Qed.
Lemma read_aq r h q md buf niov : Inv r h -> (r_farm r = true -> zlen h < W64) -> qok r h q -> 0 < zlen buf -> 0 < niov ->
  match ring_read r q md buf niov with
  | Ok (q', md', None) => aq_step (abs r) (QRead q md buf niov) = Some (abs r, RNone q' md')
  | Ok (q', md', Some (x, _)) => exists taken, aq_step (abs r) (QRead q md buf niov) = Some (abs (rd_ring x), RGot taken q' md')
      /\ (if zlen (rd_iov x) >? 0 then rd_nr x else -2) = match taken with [] => -2 | _ => nbytes taken end
      /\ rd_buf x = concat taken ++ skipn (length (concat taken)) buf /\ rev (rd_iov x) = tile 0 taken
  | _ => True end.
Proof.
  intros I HB Hq Hb Hn. pose proof (i_inv0 _ _ I) as I0.
  assert (X : exists a x, aq_step (abs r) (QRead q md buf niov) = Some (a, x)).
  { cbn [aq_step abs q_n q_mm q_drop q_farm q_seq q_kept q_unread].
    destruct (Z.ltb_spec 0 (zlen buf)); [|lia]. destruct (Z.ltb_spec 0 niov); [|lia]. cbn [andb].
    destruct (r_farm r) eqn:Hf; [|destruct (ring_unread r); eexists _, _; reflexivity].
    destruct (Hq Hf) as [Q1 Q2]. destruct (zlen_retained_q r h I Hf (HB eq_refl)) as [E _].
    destruct (Z.leb_spec 0 q); [|lia]. destruct (Z.leb_spec q (r_q r + zlen (ring_retained r))); [|lia]. cbn [andb].
    eexists _, _; reflexivity. }
  destruct X as (a & x & X). destruct (step_sim r h _ _ _ I HB X) as (r' & h' & E & Ea & _). cbn [r_step] in E.
  destruct (ring_read_ok r h q md buf niov I Hq Hb Hn) as [R1 R2].
  destruct (ring_read r q md buf niov) as [[[q' md'] [[y cur]|]]| | | ] eqn:ER; try exact Logic.I; cbn [obind] in E; injection E as <- <-.
  - destruct (list_eq_dec (list_eq_dec Z.eq_dec) (skipn (Z.to_nat (Z.max (rpos r h q) (zlen h - r_mp r))) h) []) as [Z0|NZ].
    { specialize (R1 Z0). discriminate R1. }
    destruct (R2 NZ) as (y1 & cur1 & E1 & _ & _ & _ & _ & _ & _ & Bf & Io & Nr & Zi & _). injection E1 as _ _ <- <-.
    set (taken := take_fit _ _ _) in *. exists taken. split; [|split; [|split; [exact Bf|exact Io]]].
    + rewrite X, <- Ea. do 2 f_equal. f_equal.
      rewrite Bf, Io. apply tile_read; [lia|].
      pose proof (take_fit_len (Z.to_nat niov) (clamp (zlen buf)) (skipn (Z.to_nat (Z.max (rpos r h q) (zlen h - r_mp r))) h)) as TL.
      assert (0 <= clamp (zlen buf) <= zlen buf) by (rewrite clamp_min; lia). specialize (TL ltac:(lia)). unfold taken, nbytes in *. lia.
    + rewrite Nr, Zi. destruct taken as [|m t]; [reflexivity|]. rewrite zlen_cons. pose proof (zlen_nonneg t). destruct (Z.gtb_spec (zlen t + 1) 0); [reflexivity|lia].
  - rewrite X, <- Ea. reflexivity.
Qed.

Lemma start_rets cl x cl' rs : start_call cl x = Ok (cl', rs) ->
  rs = [] \/ exists y, rs = [y] /\
   ((exists reset, x = CFarmStat reset /\ y = RetFarm reset (c_md cl))
    \/ (exists iov, x = CWrite iov /\ exists v, y = RetWrite iov v
          /\ (v = -1 \/ (has (c_flags cl) SHR_BUFFERED = true /\ wr_check (map zlen iov) (c_n cl) (c_mm cl) = Some v)))
    \/ ((forall iov, x <> CWrite iov) /\ forall a fl, fair_ret a fl (Some x) [] y)).
Proof.
  intros H. destruct x as [buf niov|iov|wait| |reset|reset|get st sz|fd| ]; cbn [start_call] in H.
  - destruct (has _ _); [|discriminate]. destruct (_ || _); inj H; [right|left; reflexivity].
    eexists; split; [reflexivity|]. right; right. split; [discriminate|]. intros a fl. cbn. auto.
  - unfold start_write in H. destruct (has (c_flags cl) SHR_WRONLY); [|discriminate].
    destruct (wr_check _ _ _) as [len|] eqn:EC.
    + unfold go_write in H. destruct (has (c_flags cl) SHR_BUFFERED) eqn:EB; [|inj H; left; reflexivity].
      destruct (_ && _).
      * apply obind_ok in H. destruct H as (ca & _ & H). inj H. right. eexists; split; [reflexivity|]. right; left.
        exists iov. split; [reflexivity|]. eexists; split; [reflexivity|]. right. auto.
      * destruct (_ =? _); [inj H; left; reflexivity|]. apply obind_ok in H. destruct H as (ms & _ & H).
        destruct (wr_check (map zlen ms) _ _); inj H; [left; reflexivity|]. right. eexists; split; [reflexivity|]. right; left.
        exists iov. split; [reflexivity|]. eexists; split; [reflexivity|]. auto.
    + inj H. right. eexists; split; [reflexivity|]. right; left.
      exists iov. split; [reflexivity|]. eexists; split; [reflexivity|]. auto.
  - unfold start_flush in H. destruct (has _ _); [|discriminate].
    assert (FW : forall nb, flush_write cl KFlush nb = Ok (cl', rs) -> rs = [] \/ exists y, rs = [RetFlush y]).
    { intros nb F. unfold flush_write in F. apply obind_ok in F. destruct F as (ms & _ & F). destruct (wr_check _ _ _); inj F; eauto. }
    assert (FIN : (rs = [] \/ exists y, rs = [RetFlush y]) -> rs = [] \/ exists y, rs = [y] /\ ((exists r0, CFlush wait = CFarmStat r0 /\ y = RetFarm r0 (c_md cl))
      \/ (exists iov, CFlush wait = CWrite iov /\ exists v, y = RetWrite iov v /\ (v = -1 \/ (has (c_flags cl) SHR_BUFFERED = true /\ wr_check (map zlen iov) (c_n cl) (c_mm cl) = Some v)))
      \/ ((forall iov, CFlush wait <> CWrite iov) /\ forall a fl, fair_ret a fl (Some (CFlush wait)) [] y))).
    { intros [->|[y ->]]; [left; reflexivity|]. right. eexists; split; [reflexivity|]. right; right. split; [discriminate|]. intros; exact Logic.I. }
    apply FIN. destruct (_ =? _); [inj H; right; eauto|].
    destruct (_ && _); [destruct (c_r2w cl)|]; eauto. inj H; left; reflexivity.
  - unfold start_close in H. destruct (_ =? _); [inj H; left; reflexivity|].
    destruct (has _ _); [|discriminate]. unfold flush_write in H. apply obind_ok in H. destruct H as (ms & _ & H).
    destruct (wr_check _ _ _); inj H; left; reflexivity.
  - inj H; left; reflexivity.
  - unfold do_farm_stat in H. destruct (has _ _); [|discriminate]. cbn [obind] in H. inj H. right. eexists; split; [reflexivity|]. left. eauto.
  - inj H; left; reflexivity.
  - apply obind_ok in H. destruct H as ([cl1 r] & E & H). inj H. right. eexists; split; [reflexivity|]. right; right.
    split; [discriminate|]. intros; exact Logic.I.
  - inj H. right. eexists; split; [reflexivity|]. right; right. split; [discriminate|]. intros; exact Logic.I.
Qed.

Lemma end_fair a k iov v len nb cl cl' rs o dn : end_write cl k iov v = Ok (cl', rs) -> pc_for (c_flags cl) (RunW k iov len nb) o ->
  0 < nbytes iov ->
  (v = -1 \/ v = -3 \/ (v = 0 /\ nb = true /\ aq_step a (QWrite iov) = Some (a, WFull)) \/ v = nbytes iov) ->
  (has (c_flags cl) SHR_BUFFERED = false -> (v = nbytes iov /\ dn = iov) \/ (v <> nbytes iov /\ dn = []) \/ (v = -1 /\ dn = iov)) ->
  match k with KThen iov' len' => has (c_flags cl) SHR_BUFFERED = true /\ len' = nbytes iov' /\ 0 < nbytes iov' | _ => True end ->
  rs = [] \/ exists y, rs = [y] /\ fair_ret a (c_flags cl) o dn y.
Proof.
  intros H Po Hp Hv Hd Hk. destruct k as [|iov' len'| |]; cbn [end_write pc_for] in *.
  - inj H. right. eexists; split; [reflexivity|]. destruct Po as [-> ->]. cbn [fair_ret]. split; [reflexivity|]. split; [tauto|].
    split; [|exact Hd]. intros ->. destruct Hv as [Hv|[Hv|[(_ & Hn & Hv)|Hv]]]; try lia. split; [exact Hn|]. exists iov. auto.
  - destruct Po as [-> ->]. destruct Hk as (Hb & -> & Hpi). destruct (Z.leb_spec v 0).
    + inj H. right. eexists; split; [reflexivity|]. cbn [fair_ret]. split; [reflexivity|]. split; [lia|].
      split; [|congruence]. intros ->. destruct Hv as [Hv|[Hv|[(_ & Hn & Hv)|Hv]]]; try lia. split; [exact Hn|].
      exists iov. split; [exact Hv|congruence].
    + unfold go_write in H. cbn [c_flags c_cache set] in H. rewrite Hb in H. destruct (_ && _).
      * apply obind_ok in H. destruct H as (ca & _ & H). inj H. right. eexists; split; [reflexivity|].
        cbn [fair_ret]. split; [reflexivity|]. split; [auto|]. split; [lia|congruence].
      * cbn [clear_cache ca_n set] in H. rewrite Z.eqb_refl in H. inj H. left; reflexivity.
  - inj H. right. destruct Po as (wait & -> & _). eexists; split; [reflexivity|]. exact Logic.I.
  - inj H. left; reflexivity.
Qed.

Theorem step_TI (K : harm) a0 w0 w evs a w' ev : (forall fl o dn a, K fl o dn a a) ->
  WI w0 w evs -> PI w evs -> seq_bound (w_ring w) (evs ++ ev) -> contract w a -> step w a = Ok (w', ev) ->
  TI K a0 w evs -> TI K a0 w' (evs ++ ev).
Proof.
  intros HK W HP HB HC HS (p & A & HC0). apply step_inv in HS.
  pose proof (wi_ring _ _ _ W) as I. pose proof (seq_bound_app _ _ _ HB) as HB0.
  assert (HPc : forall c, pc_for (c_flags (cli w c)) (c_pc (cli w c)) (pending c evs)) by exact HP.
  assert (LB : forall c, c_live (cli w c) = true -> (c < length (w_cl w))%nat) by (intros; apply live_bound; assumption).
  assert (RT : forall w1 c cl' rs, c_live (cli w c) = true -> w_cl w1 = w_cl w -> abs (w_ring w1) = abs (w_ring w) ->
     c_q cl' = c_q (cli w c) -> c_md cl' = c_md (cli w c) -> c_flags cl' = c_flags (cli w c) -> c_pc (cli w c) <> Idle ->
     (rs = [] \/ exists y, rs = [y] /\ fair_ret (abs (w_ring w)) (c_flags (cli w c)) (pending c evs) (done c evs) y) ->
     TI K a0 (setc w1 c cl') (evs ++ rets c rs)).
  { intros w1 c cl' rs L E Ea E1 E2 E3 NI Hr. destruct (HC0 c L) as (P1 & P2 & P3).
    apply (TI_setc _ _ w _ _ _ _ _ p p); [exact HC0|exact E|auto|apply tagged_rets| |auto|].
    - rewrite Ea. destruct Hr as [->|(y & -> & Hy)]; [rewrite app_nil_r; exact A|]. cbn [rets map]. apply at_ret; [exact A|]. rewrite P2. exact Hy.
    - intros _. rewrite E1, E2, E3, done_rets. auto. }
  assert (EF : forall c k iov len nb v cl' rs, c_live (cli w c) = true -> c_pc (cli w c) = RunW k iov len nb \/ c_pc (cli w c) = WaitW k iov len nb ->
     end_write (cli w c) k iov v = Ok (cl', rs) ->
     (v = -1 \/ v = -3 \/ (v = 0 /\ nb = true /\ aq_step (abs (w_ring w)) (QWrite iov) = Some (abs (w_ring w), WFull))) ->
     TI K a0 (setc w c cl') (evs ++ rets c rs)).
  { intros c k iov len nb v cl' rs L Hpc E Hv. destruct (wi_cl _ _ _ W c L) as [ms C]. pose proof (ci_pc _ _ _ _ C) as P. unfold pc_ok in P.
    specialize (HPc c).
    assert (HPc' : pc_for (c_flags (cli w c)) (RunW k iov len nb) (pending c evs)) by (destruct Hpc as [Hpc|Hpc]; rewrite Hpc in HPc; exact HPc).
    assert (P' : has (c_flags (cli w c)) SHR_WRONLY = true /\ iov_ok (r_n (w_ring w)) (r_mm (w_ring w)) iov /\ len = nbytes iov
      /\ kont_ok (w_ring w) (cli w c) ms iov k /\ (nb = false -> r_drop (w_ring w) = false -> is_wait (c_r2w (cli w c))))
      by (destruct Hpc as [Hpc|Hpc]; rewrite Hpc in P; exact P). clear P. destruct P' as (Hw & Hi & -> & Hk & _).
    destruct (iov_ok_pos _ _ _ Hi) as [Hp _].
    pose proof (end_write_id _ _ _ _ _ _ E) as [ID Hm].
    apply RT; auto; try (apply ID).
    - destruct Hpc as [Hpc|Hpc]; rewrite Hpc; discriminate.
    - eapply end_fair; [exact E|exact HPc'|exact Hp| | |].
      + tauto.
      + intros Hb. right; left. split; [lia|]. destruct (HC0 c L) as (_ & _ & D). apply D; [|exact Hb]. destruct Hpc as [Hpc|Hpc]; rewrite Hpc; discriminate.
      + destruct k; try exact Logic.I. destruct Hk as (_ & Hb & Hi' & ->). destruct (iov_ok_pos _ _ _ Hi'). auto. }
  destruct HS as
   [ a
   | e flags pid w' E
   | e flags pid w' cl E
   | c x cl' rs Hl Hpc E
   | c e k iov len nb v cl' rs Hl Hpc Hv E
   | c e k iov len n s pp Hl Hpc He E Er
   | c e k iov len nb r1 hw ks bh hw' wok r2 rv cl' rs Hl Hpc He E Ew Eb E2 Ev Ee
   | c e buf niov Hl Hpc He
   | c e buf niov q md h ks ok Hl Hpc He Hnb E Eh Ef
   | c e buf niov q md n s pp Hl Hpc He Hnb E Eh
   | c e buf niov q md x cur' hr r2w' ks1 bh1 ks2 ok h Hl Hpc He E Eh Er Hn0 Hn1 Ef
   | c e w' Hl Hpc Hw'
   | c e ks h b cl' rs Hl Hpc He E Ee
   | c e Hl Hpc
   | c e reset r' x Hl Hpc E
   | c e get st sz r' x Hl Hpc E
   | c sid polls Hs Hp
   | a c sc k iov len nb cl' rs Ha Hpc E
   | a c sc buf niov Ha Hpc
   | c Hl ]; try (specialize (HPc c)).
  - rewrite app_nil_r. exists p. auto.
  - destruct (do_open_ok e w flags pid _ I HC) as (w1 & o & E' & E1 & E2 & E3 & _).
    rewrite E in E'. injection E' as <- <-. exists p. rewrite E1. split; [apply at_open_fail; exact A|].
    intros c. replace (cli w' c) with (cli w c) by (unfold cli; rewrite E2; reflexivity). intros L. destruct (HC0 c L) as (P1 & P2 & P3).
    unfold flags_of, done. rewrite !fold_left_app. cbn [fold_left]. auto.
  - destruct (do_open_ok e w flags pid _ I HC) as (w1 & o & E' & E1 & E2 & E3 & Ho).
    rewrite E in E'. injection E' as <- <-. destruct (Ho cl eq_refl) as (_ & _ & HPc' & Hfl & Hq & Hmd & _).
    exists (put p (length (w_cl w')) (r_q (w_ring w), 0)). split.
    { cbn [w_ring set]. rewrite E1. apply at_open. exact A. }
    intros c. unfold cli. cbn [w_cl set]. rewrite E2.
    unfold flags_of, done. rewrite !fold_left_app. cbn [fold_left].
    destruct (Nat.lt_trichotomy c (length (w_cl w))) as [L|[L|L]].
    + rewrite app_nth1 by exact L. intros Lv. destruct (HC0 c Lv) as (P1 & P2 & P3). rewrite put_other, is_neq by lia. auto.
    + subst. rewrite app_nth2, Nat.sub_diag by lia. cbn [nth]. intros _. rewrite put_same, is_refl. split; [congruence|]. split; [reflexivity|congruence].
    + rewrite nth_overflow by (rewrite app_length; cbn; lia). discriminate.
  - (* call *)
    destruct (HC0 c Hl) as (P1 & P2 & P3). rewrite Hpc in HPc. cbn [pc_for] in HPc.
    assert (A1 : atomic K a0 (evs ++ [ECall c x]) (abs (w_ring w)) p) by (apply at_call; assumption).
    assert (PD : pending c (evs ++ [ECall c x]) = Some x) by (rewrite pending_app; cbn [fold_left]; rewrite is_refl; reflexivity).
    assert (FL : flags_of c (evs ++ [ECall c x]) = c_flags (cli w c)) by (rewrite (flags_app c) by (repeat constructor); exact P2).
    pose proof (start_call_id _ _ _ _ E) as [ID Hm]. pose proof (start_rets _ _ _ _ E) as SR.
    change (ECall c x :: rets c rs) with ([ECall c x] ++ rets c rs).
    set (p' := match x with CFarmStat true => put p c (fst (p c), 0) | _ => p end).
    assert (Hp' : p' c = (c_q cl', c_md cl')).
    { rewrite (id_q _ _ ID). unfold p'. destruct x as [| | | | |[]| | |]; try (destruct Hm as [->|Hm]; [exact P1|discriminate Hm]).
      rewrite put_same, P1. cbn [start_call] in E. unfold do_farm_stat in E. destruct (has _ _); [|discriminate]. cbn [obind] in E. inj E. reflexivity. }
    apply (TI_setc _ _ w _ _ _ _ _ p p'); [exact HC0|reflexivity|auto|constructor; [reflexivity|apply tagged_rets]| | |].
    + rewrite app_assoc. destruct SR as [->|(y & -> & SR)].
      { rewrite app_nil_r. unfold p'. destruct x as [| | | | |[]| | |]; try exact A1.
        cbn [start_call] in E. unfold do_farm_stat in E. destruct (has _ _); [|discriminate]. cbn [obind] in E. discriminate E. }
      cbn [rets map]. destruct SR as [(reset & -> & ->)|[(iov & -> & v & -> & Hv)|(Nx & Hy)]].
      * assert (Ap : atomic K a0 ((evs ++ [ECall c (CFarmStat reset)]) ++ [ERet c (RetFarm reset (snd (p c)))]) (abs (w_ring w)) (if reset then put p c (fst (p c), 0) else p))
          by (apply at_farm; assumption).
        rewrite P1 in Ap. cbn [snd] in Ap. unfold p'. rewrite P1. exact Ap.
      * change p' with p. apply at_ret; [exact A1|]. rewrite PD, FL, done_call. cbn [fair_ret]. split; [reflexivity|].
        destruct HC as (_ & Hc2 & Hc3); [exact Hl|exact Hpc|]. destruct (wi_cl _ _ _ W c Hl) as [ms C]. destruct (inv_bounds _ _ I) as [Bn _].
        assert (NB : v = -1 \/ (has (c_flags (cli w c)) SHR_BUFFERED = true /\ v = nbytes iov /\ 0 < nbytes iov)).
        { destruct Hv as [->|[Hb Hv]]; [left; reflexivity|right]. rewrite (ci_n _ _ _ _ C), (ci_mm _ _ _ _ C) in Hv.
          destruct (wr_check_iff (r_n (w_ring w)) (r_mm (w_ring w)) iov (conj (Z.lt_le_incl _ _ (proj1 Bn)) (proj2 Bn)) Hc2 Hc3) as [[Hi Hx]|[_ Hx]]; rewrite Hx in Hv; [|discriminate].
          injection Hv as <-. destruct (iov_ok_pos _ _ _ Hi). auto. }
        split; [lia|]. split; [lia|]. intros Hb. destruct NB as [->|[Hb' _]]; [|congruence]. right; left. split; [|reflexivity].
        pose proof (nbytes_nonneg iov). lia.
      * replace p' with p. { apply at_ret; [exact A1|]. rewrite PD, FL, done_call. apply Hy. }
        unfold p'. destruct x as [| | | | |[]| | |]; try reflexivity. specialize (Hy a0 0). cbn in Hy. destruct y; contradiction.
    + intros c' N. unfold p'. destruct x as [| | | | |[]| | |]; try reflexivity. apply put_other. exact N.
    + intros _. rewrite (id_flags _ _ ID). split; [exact Hp'|]. split; [exact P2|].
      intros _ _. rewrite app_assoc, done_rets. apply done_call.
  - (* write fails *)
    destruct (wi_cl _ _ _ W c Hl) as [ms C]. pose proof (ci_pc _ _ _ _ C) as P. unfold pc_ok in P. rewrite Hpc in P.
    destruct P as (Hw & Hi & -> & Hk & _). eapply EF; [exact Hl|left; exact Hpc|exact E|].
    destruct Hv as [[_ ->]|(_ & -> & -> & Hw0)]; [left; reflexivity|]. right; right. split; [reflexivity|]. split; [reflexivity|].
    rewrite (ci_mm _ _ _ _ C) in Hw0. pose proof (write_aq _ _ iov I) as WA. rewrite Hw0 in WA.
    apply WA; [|exact Hi]. intros Hf. exfalso. destruct (i_farm _ _ I Hf) as [_ Hd]. destruct (ring_write_ok _ _ iov I Hi) as [_ WB].
    destruct (WB (or_introl Hd)) as (r1 & E1 & _). congruence.
  - (* write blocks *)
    destruct (HC0 c Hl) as (P1 & P2 & P3).
    apply (TI_setc _ _ w w evs [] c _ p p HC0); [reflexivity|auto|constructor|rewrite app_nil_r; exact A|auto|].
    intros _. rewrite app_nil_r. cbn [c_q c_md c_flags set]. split; [exact P1|]. split; [exact P2|].
    intros _. apply P3. rewrite Hpc. discriminate.
  - (* commit *)
    destruct (HC0 c Hl) as (P1 & P2 & P3).
    destruct (wi_cl _ _ _ W c Hl) as [ms C]. pose proof (ci_pc _ _ _ _ C) as P. unfold pc_ok in P. rewrite Hpc in P.
    destruct P as (Hw & Hi & -> & Hk & _). destruct (iov_ok_pos _ _ _ Hi) as [Hp _]. rewrite (ci_mm _ _ _ _ C) in E.
    pose proof (write_aq _ _ iov I) as WA. rewrite E in WA.
    assert (BW : r_farm (w_ring w) = true -> zlen (committed evs ++ iov) < W64).
    { intros Hf. specialize (HB Hf). rewrite committed_app in HB. change (ECommit c iov :: rets c rs) with ([ECommit c iov] ++ rets c rs) in HB.
      rewrite committed_app, committed_rets, app_nil_r in HB. cbn in HB. rewrite app_nil_r in HB. exact HB. }
    specialize (WA BW Hi).
    assert (Ab : abs r2 = abs r1) by (subst r2; destruct wok; [unfold stat_wrote; apply abs_stat|reflexivity]).
    assert (UNB : has (c_flags (cli w c)) SHR_BUFFERED = false -> k = KDirect).
    { intros Hb. assert (Hub : buffered (cli w c) = false) by (unfold buffered; rewrite Hb; apply andb_false_r). pose proof (ci_unb _ _ _ _ C Hub) as ->. assert (iov <> []) by (intros ->; cbn in Hp; lia).
      destruct k; cbn [kont_ok] in Hk; [reflexivity| | |]; try contradiction. destruct Hk as [Hk _]; contradiction. }
    assert (PW : writing (pending c evs)).
    { rewrite Hpc in HPc. destruct k; cbn [pc_for] in HPc; [destruct HPc as [-> _]|destruct HPc as [-> _]|destruct HPc as (wt & -> & _)|destruct HPc as [-> _]]; exact Logic.I. }
    assert (A1 : atomic K a0 (evs ++ [ECommit c iov]) (abs r2) p) by (rewrite Ab; apply (at_write _ _ _ _ _ _ _ _ A PW WA)).
    assert (PD : pending c (evs ++ [ECommit c iov]) = pending c evs) by (rewrite pending_app; reflexivity).
    pose proof (end_write_id _ _ _ _ _ _ Ee) as [ID Hm]. rewrite Hpc in HPc.
    assert (RS : rs = [] \/ exists y, rs = [y] /\ fair_ret (abs r2) (c_flags (cli w c)) (pending c evs) (done c (evs ++ [ECommit c iov])) y).
    { apply (end_fair (abs r2) k iov rv (nbytes iov) nb ((cli w c) <| c_w2r := Some hw' |>) cl' rs (pending c evs) (done c (evs ++ [ECommit c iov])) Ee HPc Hp).
      - subst rv. destruct (wok && shr_sync e r2); auto.
      - cbn [c_flags set]. intros Hb. rewrite done_commit, P3 by (try exact Hb; rewrite Hpc; discriminate). cbn [app].
        subst rv. destruct (wok && shr_sync e r2); auto.
      - destruct k; try exact Logic.I. destruct Hk as (_ & Hb & Hi' & ->). destruct (iov_ok_pos _ _ _ Hi'). auto. }
    change (ECommit c iov :: rets c rs) with ([ECommit c iov] ++ rets c rs).
    apply (TI_setc _ _ w _ _ _ _ _ p p HC0); [reflexivity|auto|constructor; [reflexivity|apply tagged_rets]| |auto|].
    + cbn [w_ring set]. rewrite app_assoc. destruct RS as [->|(y & -> & Hy)]; [rewrite app_nil_r; exact A1|]. cbn [rets map].
      apply at_ret; [exact A1|]. rewrite PD, (flags_app c), P2 by (repeat constructor). exact Hy.
    + intros _. rewrite (id_q _ _ ID), (id_flags _ _ ID). cbn [c_q c_flags set]. split; [rewrite Hm; exact P1|]. split; [exact P2|].
      intros NI Hb. rewrite (UNB Hb) in Ee. cbn [end_write] in Ee. inj Ee. contradiction NI. reflexivity.
  - (* read, lock fails *)
    apply (RT w c _ [RetRead (-1) buf []]); try reflexivity; auto; [rewrite Hpc; discriminate|]. right. eexists; split; [reflexivity|].
    rewrite Hpc in HPc. cbn [pc_for] in HPc. rewrite HPc. cbn. auto.
  - (* nothing to read *)
    destruct (HC0 c Hl) as (P1 & P2 & P3).
    destruct (wi_cl _ _ _ W c Hl) as [ms C]. pose proof (ci_pc _ _ _ _ C) as P. unfold pc_ok in P. rewrite Hpc in P.
    destruct P as (Hr & Hb & Hn). pose proof (CI_qok _ _ _ _ C HB0) as Hq.
    pose proof (read_aq _ _ _ (c_md (cli w c)) buf niov I HB0 Hq Hb Hn) as RA. rewrite E in RA. rewrite Hpc in HPc. cbn [pc_for] in HPc.
    apply (TI_setc _ _ w _ _ _ _ _ p (put p c (q, md)) HC0); [reflexivity|auto|repeat constructor| |intros; apply put_other; assumption|].
    + cbn [w_ring set]. eapply (at_empty _ _ _ _ _ c buf niov); [exact A|exact HPc|rewrite P2; exact Hnb|rewrite P1; exact RA].
    + intros _. cbn [c_q c_md c_flags c_pc set]. rewrite put_same. split; [reflexivity|]. split; [exact P2|]. congruence.
  - (* sleeps *)
    destruct (HC0 c Hl) as (P1 & P2 & P3).
    destruct (wi_cl _ _ _ W c Hl) as [ms C]. pose proof (ci_pc _ _ _ _ C) as P. unfold pc_ok in P. rewrite Hpc in P.
    destruct P as (Hr & Hb & Hn). pose proof (CI_qok _ _ _ _ C HB0) as Hq.
    pose proof (read_aq _ _ _ (c_md (cli w c)) buf niov I HB0 Hq Hb Hn) as RA. rewrite E in RA. rewrite Hpc in HPc. cbn [pc_for] in HPc.
    apply (TI_setc _ _ w _ _ _ _ _ p (put p c (q, md)) HC0); [reflexivity|auto|repeat constructor| |intros; apply put_other; assumption|].
    + rewrite app_nil_r. eapply (at_sleep _ _ _ _ _ c buf niov); [exact A|exact HPc|rewrite P2; exact Hnb|rewrite P1; exact RA].
    + intros _. cbn [c_q c_md c_flags c_pc set]. rewrite put_same. split; [reflexivity|]. split; [exact P2|].
      intros _. rewrite app_nil_r. apply P3. rewrite Hpc. discriminate.
  - (* reads *)
    destruct (HC0 c Hl) as (P1 & P2 & P3).
    destruct (wi_cl _ _ _ W c Hl) as [ms C]. pose proof (ci_pc _ _ _ _ C) as P. unfold pc_ok in P. rewrite Hpc in P.
    destruct P as (Hr & Hb & Hn). pose proof (CI_qok _ _ _ _ C HB0) as Hq.
    pose proof (read_aq _ _ _ (c_md (cli w c)) buf niov I HB0 Hq Hb Hn) as RA. rewrite E in RA. rewrite Hpc in HPc. cbn [pc_for] in HPc.
    destruct RA as (taken & RA & R1 & R2 & R3).
    apply (TI_setc _ _ w _ _ _ _ _ p (put p c (q, md)) HC0); [reflexivity|auto|repeat constructor| |intros; apply put_other; assumption|].
    + cbn [w_ring set]. rewrite R1, R2, R3. eapply (at_read _ _ _ _ _ c buf niov); [exact A|exact HPc|rewrite P1; exact RA].
    + intros _. cbn [c_q c_md c_flags c_pc set]. rewrite put_same. split; [reflexivity|]. split; [exact P2|]. congruence.
  - (* flush: the bell cannot be opened *)
    apply (RT w' c _ [RetFlush (-1)]); try reflexivity; auto.
    1,2: destruct Hw' as [->|(ks & h & _ & _ & ->)]; reflexivity.
    { rewrite Hpc; discriminate. }
    right. eexists; split; [reflexivity|]. rewrite Hpc in HPc. cbn [pc_for] in HPc. destruct HPc as [-> _]. exact Logic.I.
  - (* flush: the bell is opened *)
    pose proof (flush_write_id _ _ _ _ _ Ee) as [ID Hm].
    apply RT; try reflexivity; auto; try (apply ID).
    { rewrite Hpc; discriminate. }
    rewrite Hpc in HPc. cbn [pc_for] in HPc. destruct HPc as [-> _]. unfold flush_write in Ee. apply obind_ok in Ee. destruct Ee as (ms & _ & Ee).
    destruct (wr_check _ _ _); inj Ee; [left; reflexivity|]. right. eexists; split; [reflexivity|]. exact Logic.I.
  - (* close *)
    rewrite Hpc in HPc. cbn [pc_for] in HPc. 
    assert (CH : forall w1, w1 = (if e_lock e then close_handles w (cli w c) else w) -> w_cl w1 = w_cl w /\ w_ring w1 = w_ring w).
    { intros w1 ->. destruct (e_lock e); [|auto]. unfold close_handles.
      destruct (match c_w2r (cli w c) with Some b => _ | None => _ end) as [ks h].
      cbn [w_ks w_r2w set].
      destruct (match c_r2w (cli w c) with Some b => _ | None => _ end) as [ks2 h2]. auto. }
    destruct (CH _ eq_refl) as [CH1 CH2].
    apply (RT _ c _ [RetClosed]); try reflexivity; auto; [rewrite CH2; reflexivity|rewrite Hpc; discriminate|].
    right. eexists; split; [reflexivity|]. rewrite HPc. exact Logic.I.
  - (* stat *)
    rewrite Hpc in HPc. cbn [pc_for] in HPc. pose proof (i_inv0 _ _ I) as I0.
    assert (Ab : abs r' = abs (w_ring w)).
    { unfold do_stat in E. destruct (negb (e_lock e)); [inj E; reflexivity|]. destruct reset; inj E; [apply abs_stat|reflexivity]. }
    apply (RT _ c _ [x]); try reflexivity; auto; [rewrite Hpc; discriminate|]. right. eexists; split; [reflexivity|]. rewrite HPc.
    unfold do_stat in E. destruct (negb (e_lock e)); [inj E; reflexivity|].
    destruct reset; inj E; cbn [fair_ret stat_of so_bn so_mm so_bu so_mu abs q_n q_mm q_unread]; rewrite (unread_len _ _ I0), (unread_bytes _ _ I0); auto.
  - (* appdata *)
    rewrite Hpc in HPc. cbn [pc_for] in HPc.
    destruct (wi_cl _ _ _ W c Hl) as [ms C]. pose proof (ci_pc _ _ _ _ C) as P. unfold pc_ok in P. rewrite Hpc in P.
    destruct (do_app_ok e _ _ _ _ (wi_app _ _ _ W) P) as (r1 & x1 & E' & ER & EL & Hx & _).
    rewrite E in E'. injection E' as <- <-.
    apply (RT _ c _ [x]); try reflexivity; auto; [|rewrite Hpc; discriminate|].
    { cbn [w_ring set]. rewrite ER. unfold abs. f_equal; [apply retained_ext|apply unread_ext]; reflexivity. }
    right. eexists; split; [reflexivity|]. rewrite HPc.
    unfold do_app in E. destruct (negb (e_lock e)); [inj E; exact Logic.I|].
      destruct (r_app_len (w_ring w) =? 0); [inj E; exact Logic.I|].
      destruct get, st; repeat match type of E with
        | (if ?b then _ else _) = _ => destruct b
        | obind _ _ = _ => apply obind_ok in E; destruct E as (? & _ & E) end; inj E; exact Logic.I.
  - (* wakes *)
    assert (Hl : c_live (cli w c) = true).
    { destruct (c_live (cli w c)) eqn:EL; [reflexivity|]. unfold wait_sid in Hs. rewrite (wi_dead _ _ _ W c EL) in Hs. discriminate. }
    destruct (HC0 c Hl) as (P1 & P2 & P3).
    apply (TI_setc _ _ w _ evs [] c _ p p HC0); [reflexivity|auto|constructor|rewrite app_nil_r; exact A|auto|].
    intros _. rewrite app_nil_r. unfold wait_sid in Hs. unfold resume.
    destruct (c_pc (cli w c)) eqn:Epc; try discriminate Hs; cbn [c_q c_md c_flags c_pc set]; (split; [exact P1|]); (split; [exact P2|]); intros _; apply P3; discriminate.
  - (* wait fails, writing *)
    assert (Hl : c_live (cli w c) = true) by (destruct (c_live (cli w c)) eqn:EL; [reflexivity|]; exfalso; rewrite (wi_dead _ _ _ W c EL) in Hpc; discriminate).
    eapply EF; [exact Hl|right; exact Hpc|exact E|]. destruct Ha as [[_ ->]|[_ ->]]; auto.
  - (* wait fails, reading *)
    assert (Hl : c_live (cli w c) = true) by (destruct (c_live (cli w c)) eqn:EL; [reflexivity|]; exfalso; rewrite (wi_dead _ _ _ W c EL) in Hpc; discriminate).
    rewrite Hpc in HPc. cbn [pc_for] in HPc.
    apply (RT w c _ [RetRead sc buf []]); try reflexivity; auto; [rewrite Hpc; discriminate|]. right. eexists; split; [reflexivity|]. rewrite HPc.
    cbn. destruct Ha as [[_ ->]|[_ ->]]; auto.
  - (* killed *)
    apply (TI_setc _ _ w _ _ _ _ _ p p HC0); [reflexivity|auto|repeat constructor| |auto|discriminate].
    cbn [w_ring set]. apply (at_crash _ _ _ (abs (w_ring w))); [exact A|apply HK].
Qed.
Theorem exec_TI r fsz w evs : fresh r fsz -> exec contract (world0 r fsz) w evs -> seq_bound r evs -> TI unharmed (abs r) w evs.
Proof.
  intros F X HB. revert w evs X HB. apply (exec_ind_inv contract r fsz (TI unharmed (abs r)) (fun w a h => h) F).
  { exists (fun _ => (0,0)). split; [apply at_nil|]. intros c. rewrite world0_cli. discriminate. }
  intros w evs a w' ev _ W HP W' HB HC HS0 HS _ T. apply (step_TI _ _ (world0 r fsz) w evs a); auto. reflexivity.
Qed.

Lemma fresh_abs r fsz : fresh r fsz -> abs r = mkaq (r_n r) (r_mm r) (r_drop r) (r_farm r) 0 [] [].
Proof.
  intros F. pose proof (fresh_inv r fsz F) as I. pose proof (i_inv0 _ _ I) as I0.
  unfold abs. rewrite (retained_eq _ _ I0), (unread_eq _ _ I0). unfold lastn. rewrite !skipn_nil.
  rewrite (rq_eq _ _ I0) by (cbn; lia). pose proof (w_old _ _ _ (i_win _ _ I0)) as Ho. pose proof (i_m _ _ I0). change (zlen (@nil bytes)) with 0 in *.
  replace (0 - r_mp r) with 0 by lia. reflexivity.
Qed.
Lemma f_linearizable r w evs : reach contract r w evs -> exists p,
  atomic unharmed (mkaq (r_n r) (r_mm r) (r_drop r) (r_farm r) 0 [] []) evs (abs (w_ring w)) p
  /\ forall c, c_live (cli w c) = true -> p c = (c_q (cli w c), c_md (cli w c)).
Proof.
  intros (fsz & F & X & B). rewrite <- (fresh_abs r fsz F). destruct (exec_TI r fsz w evs F X B) as (p & A & H).
  exists p. split; [exact A|]. intros c L. apply (H c L).
Qed.

(** the specification by itself: nothing is lost, reordered or read twice *)
Lemma spec_fifo a0 evs a p : atomic unharmed a0 evs a p -> q_drop a0 = false -> q_farm a0 = false -> q_unread a0 = [] ->
  q_drop a = false /\ q_farm a = false /\ committed evs = delivered evs ++ q_unread a.
Proof.
  intros A Hd Hf Hu. induction A; rewrite ?committed_app, ?delivered_app.
  - rewrite Hu. auto.
  - cbn. rewrite !app_nil_r. exact IHA.
  - cbn. rewrite !app_nil_r. exact IHA.
  - unfold unharmed in H. subst a'. cbn. rewrite !app_nil_r. exact IHA.
  - cbn. rewrite !app_nil_r. exact IHA.
  - destruct IHA as (I1 & I2 & I3). cbn [aq_step] in H0. destruct (okb _ _ _ && _); [|discriminate].
    rewrite I1, orb_false_r in H0. destruct (room _ _ _ _) eqn:Er; [|discriminate]. injection H0 as <-.
    cbn [q_drop q_farm q_unread]. split; [reflexivity|]. split; [exact I2|]. rewrite (fit_room _ _ _ _ Er), I3. cbn. rewrite !app_nil_r, app_assoc. reflexivity.
  - destruct IHA as (I1 & I2 & I3). cbn [aq_step] in H0. destruct ((0 <? zlen buf) && (0 <? niov)); [|discriminate]. rewrite I2 in H0.
    set (tk := take_fit (Z.to_nat niov) (usable buf) (q_unread a)) in *.
    assert (H1 : tk = taken /\ a' = mkaq (q_n a) (q_mm a) (q_drop a) false (q_seq a) (q_kept a) (skipn (length tk) (q_unread a))).
    { destruct (q_unread a); [discriminate H0|]. injection H0 as <- <- <- <-. auto. }
    destruct H1 as [<- ->]. cbn [q_drop q_farm q_unread]. split; [exact I1|]. split; [reflexivity|].
    unfold committed at 2, delivered at 2. cbn [flat_map]. rewrite !app_nil_r, I3, <- app_assoc. f_equal.
    assert (Hu0 : 0 <= usable buf <= zlen buf) by (unfold usable; pose proof (zlen_nonneg buf); lia).
    pose proof (nbytes_take_fit (Z.to_nat niov) (usable buf) (q_unread a) ltac:(lia)) as NT. fold tk in NT.
    assert (RM : read_msgs (RetRead match tk with [] => -2 | _ => nbytes tk end (concat tk ++ skipn (length (concat tk)) buf) (tile 0 tk)) = tk).
    { cbn [read_msgs]. apply (tile_read tk buf 0); lia. }
    rewrite RM. destruct (RingFacts.take_fit_prefix (Z.to_nat niov) (usable buf) (q_unread a)) as [rest ER]. fold tk in ER.
    rewrite ER at 1. f_equal. rewrite ER, skipn_app, skipn_all, Nat.sub_diag. reflexivity.
  - cbn. rewrite !app_nil_r. exact IHA.
  - exact IHA.
  - cbn. rewrite !app_nil_r. exact IHA.
  - destruct IHA as (I1 & I2 & I3). split; [exact I1|]. split; [exact I2|]. unfold committed at 2, delivered at 2. cbn [flat_map]. rewrite !app_nil_r.
    replace (read_msgs x) with (@nil bytes); [rewrite app_nil_r; exact I3|]. destruct x; try reflexivity. cbn [read_msgs].
    unfold fair_ret in H. destruct (pending c evs) as [[]|]; try contradiction. destruct H as (_ & _ & ->). reflexivity.
Qed.
