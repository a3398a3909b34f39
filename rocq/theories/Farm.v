(** * FARM readers (C10-C12). *)
From Verif Require Export Cache.

Lemma follow_app h ms old old' q0 got k q : old <= old' -> follow h old q0 got k q -> follow (h ++ ms) old' q0 got k q.
Proof.
  intros HO H. induction H as [|got k q H IH L|got k q j H IH L L2]; [constructor| |apply fo_skip; [assumption|assumption|lia]].
  replace (znth [] h q) with (znth [] (h ++ ms) q) by (apply znth_app1; exact L).
  apply fo_take; [exact IH|]. rewrite zlen_app. pose proof (zlen_nonneg ms). lia.
Qed.
Lemma follow_takes h old q0 : forall ms got k q, follow h old q0 got k q -> 0 <= q ->
  (exists rest, skipn (Z.to_nat q) h = ms ++ rest) -> follow h old q0 (got ++ ms) k (q + zlen ms).
Proof.
  induction ms as [|m ms IH]; intros got k q H Hq [rest E].
  - rewrite app_nil_r, zlen_nil, Z.add_0_r. exact H.
  - assert (L : q < zlen h).
    { destruct (Z.ltb_spec q (zlen h)); [assumption|]. rewrite skipn_all2 in E by (unfold zlen in *; lia). discriminate. }
    rewrite (skipn_hmsg h q) in E by lia. cbn [app] in E. injection E as Em E. unfold hmsg in Em.
    replace (got ++ m :: ms) with ((got ++ [m]) ++ ms) by (rewrite <- app_assoc; reflexivity).
    rewrite zlen_cons. replace (q + (zlen ms + 1)) with ((q + 1) + zlen ms) by lia.
    apply IH; [|lia|exists rest; exact E]. rewrite <- Em. apply fo_take; [exact H|lia].
Qed.
Lemma follow_count h old q0 got k q : follow h old q0 got k q -> q = q0 + zlen got + k /\ 0 <= k.
Proof.
  intros H. induction H as [|got k q H IH L|got k q j H IH L L2]; rewrite ?zlen_nil, ?zlen_app, ?zlen_cons, ?zlen_nil; lia.
Qed.
Lemma fit_suffix_suffix n mm iov : forall ms, exists pre, ms = pre ++ fit_suffix n mm iov ms.
Proof.
  induction ms as [|m t [pre IH]]; [exists []; cbn [fit_suffix]; destruct (room n mm iov []); reflexivity|]. cbn [fit_suffix].
  destruct (room n mm iov (m :: t)); [exists []; reflexivity|]. exists (m :: pre). cbn [app]. rewrite <- IH. reflexivity.
Qed.
(** the oldest message present only gets younger *)
Lemma eldest_mono g r h ev r' evs : h = committed evs -> effect g r h ev r' -> eldest evs r <= eldest (evs ++ ev) r'.
Proof.
  intros -> E. unfold eldest. rewrite committed_app, zlen_app.
  destruct E as [ev r' C _ _ _ RT _|c v so t r' _ RT _ _ _ _|c iov rs dropped wok r' _ _ _ _ _ _ _ RT _|c v buf iov avail len niov r' _ _ _ taken _ _ _ _ RT _].
  - rewrite C, RT. cbn. lia.
  - rewrite RT. cbn. lia.
  - rewrite RT, zlen_app. destruct (fit_suffix_suffix (r_n r) (r_mm r) iov (ring_retained r)) as [pre E].
    apply (f_equal zlen) in E. rewrite zlen_app in E. pose proof (zlen_nonneg pre).
    change (ECommit c iov :: rets c rs) with ([ECommit c iov] ++ rets c rs). rewrite committed_app, zlen_app.
    cbn [committed flat_map]. rewrite app_nil_r. pose proof (zlen_nonneg (committed (rets c rs))). lia.
  - rewrite RT. cbn. lia.
Qed.

Lemma delivered_to_app c a b : delivered_to c (a ++ b) = delivered_to c a ++ delivered_to c b.
Proof. unfold delivered_to. rewrite flat_map_app. reflexivity. Qed.
Lemma lost_app c a b : lost_reported c (a ++ b) = lost_reported c a + lost_reported c b.
Proof.
  unfold lost_reported. rewrite fold_left_app.
  set (f := fun acc e => match e with ERet c' (RetFarm true d) => if is c c' then acc + d else acc | _ => acc end).
  generalize (fold_left f a 0). intros x.
  assert (G : forall l y, fold_left f l y = y + fold_left f l 0).
  { induction l as [|e l IH]; intros y; cbn [fold_left]; [lia|]. rewrite IH, (IH (f 0 e)).
    assert (f y e = y + f 0 e); [|lia]. unfold f. destruct e; try lia. destruct x0; try lia. destruct reset; try lia. destruct (is c c0); lia. }
  apply G.
Qed.
Lemma tagged_other_farm c c' ev : c' <> c -> Forall (tagged c) ev -> delivered_to c' ev = [] /\ lost_reported c' ev = 0.
Proof.
  intros N F. induction F as [|e ev T F [IH1 IH2]]; [auto|].
  change (e :: ev) with ([e] ++ ev). rewrite delivered_to_app, lost_app, IH1, IH2, app_nil_r, Z.add_0_r.
  destruct e; cbn [tagged] in T; try contradiction; subst; cbn; rewrite ?(is_neq c' c N); auto.
  split; [reflexivity|]. destruct x; auto. destruct reset; auto.
Qed.

(** returns that neither deliver nor report losses *)
Definition mute (x : ret) : Prop :=
  match x with RetRead _ _ [] => True | RetRead _ _ _ => False | RetFarm b _ => b = false | _ => True end.
Lemma mute_rets c rs : Forall mute rs -> delivered_to c (rets c rs) = [] /\ lost_reported c (rets c rs) = 0.
Proof.
  intros F. induction F as [|x rs M F [IH1 IH2]]; [auto|]. cbn [rets map]. fold (rets c rs).
  change (ERet c x :: rets c rs) with ([ERet c x] ++ rets c rs). rewrite delivered_to_app, lost_app, IH1, IH2, app_nil_r, Z.add_0_r.
  cbn. rewrite is_refl. destruct x as [? ? [|]| | | | |b ?| | |]; cbn [mute] in M; try contradiction; auto. subst. auto.
Qed.
Lemma end_write_mute cl k iov v cl' rs : end_write cl k iov v = Ok (cl', rs) -> Forall mute rs.
Proof.
  intros H. apply end_write_ret in H. destruct H as [->|(x & -> & H)]; [constructor|]. repeat constructor.
  destruct k; try (subst; exact I). destruct H as [? ->]; exact I. destruct H.
Qed.
Lemma flush_write_mute cl k nb cl' rs : flush_write cl k nb = Ok (cl', rs) -> Forall mute rs.
Proof. intros H. apply flush_write_ret in H. destruct H as [->|(_ & v & ->)]; repeat constructor. Qed.

(** what a step means for one FARM client *)
Inductive qstep (w w' : world) (ev : list event) (c : nat) : Prop :=
| q_open flags : c = length (w_cl w) -> ev = [EOpen flags (Some c)] -> c_q (cli w' c) = r_q (w_ring w) ->
    c_md (cli w' c) = 0 -> qstep w w' ev c
| q_same : (c < length (w_cl w))%nat -> c_live (cli w c) = true -> c_q (cli w' c) = c_q (cli w c) -> c_md (cli w' c) = c_md (cli w c) ->
    delivered_to c ev = [] -> lost_reported c ev = 0 -> qstep w w' ev c
| q_reset : (c < length (w_cl w))%nat -> c_live (cli w c) = true -> c_q (cli w' c) = c_q (cli w c) -> c_md (cli w' c) = 0 ->
    delivered_to c ev = [] -> lost_reported c ev = c_md (cli w c) -> qstep w w' ev c
| q_read buf niov q md res : (c < length (w_cl w))%nat -> c_live (cli w c) = true -> 0 < zlen buf -> 0 < niov ->
    ring_read (w_ring w) (c_q (cli w c)) (c_md (cli w c)) buf niov = Ok (q, md, res) ->
    c_q (cli w' c) = q -> c_md (cli w' c) = md -> lost_reported c ev = 0 ->
    delivered_to c ev = match res with None => []
      | Some (x, _) => read_msgs (RetRead 0 (rd_buf x) (rev (rd_iov x))) end -> qstep w w' ev c.

Lemma do_ctl_qmd cl fd cl' v : do_ctl cl fd = Ok (cl', v) -> c_q cl' = c_q cl /\ c_md cl' = c_md cl.
Proof.
  intros H. assert (E : start_call cl (CCtl fd) = Ok (cl', [RetInt v])) by (cbn [start_call]; rewrite H; reflexivity).
  destruct (start_call_id _ _ _ _ E) as [[_ _ _ Q _ _ _ _] [M|M]]; [auto|discriminate].
Qed.

Lemma step_qstep w0 w evs a w' ev c : WI w0 w evs -> contract w a -> step w a = Ok (w', ev) ->
  c_live (cli w' c) = true -> qstep w w' ev c.
Proof.
  intros W HC HS. pose proof (wi_ring _ _ _ W) as I. apply step_inv in HS.
  assert (GO : forall w1 c1 cl1 ev, (c1 < length (w_cl w))%nat -> w_cl w1 = w_cl w -> Forall (tagged c1) ev ->
    (c = c1 -> c_live cl1 = true -> qstep w (setc w1 c1 cl1) ev c) ->
    c_live (cli (setc w1 c1 cl1) c) = true -> qstep w (setc w1 c1 cl1) ev c).
  { intros w1 c1 cl1 ev0 L E T H. destruct (Nat.eq_dec c c1) as [->|N].
    - rewrite cli_setc_same by (rewrite E; exact L). intros HL. apply H; auto.
    - rewrite cli_setc_other by exact N. intros Hl. assert (Hl' : c_live (cli w c) = true) by (unfold cli in *; rewrite E in Hl; exact Hl).
      destruct (tagged_other_farm c1 c ev0 N T) as [A B].
      apply q_same; auto; [apply live_bound; exact Hl'| |]; rewrite cli_setc_other by exact N; unfold cli; rewrite E; reflexivity. }
  assert (SAME : forall w1 cl1 c1 ev, (c1 < length (w_cl w))%nat -> c_live (cli w c1) = true -> w_cl w1 = w_cl w ->
    c_q cl1 = c_q (cli w c1) -> c_md cl1 = c_md (cli w c1) -> delivered_to c1 ev = [] /\ lost_reported c1 ev = 0 ->
    c = c1 -> c_live cl1 = true -> qstep w (setc w1 c1 cl1) ev c).
  { intros w1 cl1 c1 ev0 L Hl E Q M [A B] -> _. apply q_same; auto; rewrite cli_setc_same by (rewrite E; exact L); assumption. }
  assert (LB : forall c, c_live (cli w c) = true -> (c < length (w_cl w))%nat) by (intros; apply live_bound; assumption).
  assert (M1 : forall c x, mute x -> delivered_to c [ERet c x] = [] /\ lost_reported c [ERet c x] = 0).
  { intros c1 x M. apply (mute_rets c1 [x]). repeat constructor. exact M. }
  destruct HS as
   [ a
   | e flags pid w' E
   | e flags pid w' cl E
   | c1 x cl' rs Hl Hpc E
   | c1 e k iov len nb v cl' rs Hl Hpc Hv E
   | c1 e k iov len n s p Hl Hpc He E Er
   | c1 e k iov len nb r1 hw ks bh hw' wok r2 rv cl' rs Hl Hpc He E Ew Eb E2 Ev Ee
   | c1 e buf niov Hl Hpc He
   | c1 e buf niov q md h ks ok Hl Hpc He Hnb E Eh Ef
   | c1 e buf niov q md n s p Hl Hpc He Hnb E Eh
   | c1 e buf niov q md x cur' hr r2w' ks1 bh1 ks2 ok h Hl Hpc He E Eh Er Hn0 Hn1 Ef
   | c1 e w' Hl Hpc Hw'
   | c1 e ks h b cl' rs Hl Hpc He E Ee
   | c1 e Hl Hpc
   | c1 e reset r x Hl Hpc E
   | c1 e get st sz r x Hl Hpc E
   | c1 sid polls Hs Hp
   | a c1 sc k iov len nb cl' rs Ha Hpc E
   | a c1 sc buf niov Ha Hpc
   | c1 Hl ].
  - intros HL. apply q_same; auto.
  - destruct (do_open_ok e w flags pid _ I HC) as (w1 & o & E' & E1 & E2 & E3 & _).
    rewrite E in E'. injection E' as <- <-. intros HL. unfold cli in HL. rewrite E2 in HL.
    apply q_same; auto; unfold cli; rewrite E2; reflexivity.
  - destruct (do_open_ok e w flags pid _ I HC) as (w1 & o & E' & E1 & E2 & E3 & Ho).
    rewrite E in E'. injection E' as <- <-. destruct (Ho cl eq_refl) as (C & HL & HP & _ & Hq & Hmd & _).
    intros L. unfold cli in L. cbn [w_cl set] in L. rewrite E2 in L.
    destruct (Nat.lt_trichotomy c (length (w_cl w))) as [Lc|[Lc|Lc]].
    + rewrite app_nth1 in L by exact Lc. apply q_same; auto; unfold cli; cbn [w_cl set]; rewrite E2, app_nth1 by exact Lc; reflexivity.
    + apply (q_open _ _ _ _ flags); [exact Lc|rewrite E2, Lc; reflexivity| |]; unfold cli; cbn [w_cl set]; rewrite E2, Lc, app_nth2, Nat.sub_diag by lia; cbn [nth]; assumption.
    + rewrite nth_overflow in L by (rewrite app_length; cbn; lia). discriminate.
  - apply GO; [auto|reflexivity|constructor; [reflexivity|apply tagged_rets]|]. intros -> HL.
    destruct (start_call_id _ _ _ _ E) as [[_ _ _ Q _ _ _ _] M].
    change (ECall c1 x :: rets c1 rs) with ([ECall c1 x] ++ rets c1 rs).
    assert (DD : delivered_to c1 ([ECall c1 x] ++ rets c1 rs) = delivered_to c1 (rets c1 rs)
             /\ lost_reported c1 ([ECall c1 x] ++ rets c1 rs) = lost_reported c1 (rets c1 rs)).
    { rewrite delivered_to_app, lost_app. auto. }
    destruct DD as [D1 D2].
    assert (FS : (exists b, x = CFarmStat b) \/ (Forall mute rs /\ c_md cl' = c_md (cli w c1))).
    { pose proof (start_call_ret _ _ _ _ E) as RS. destruct x; try (left; eexists; reflexivity); right;
        (split; [|destruct M as [M|M]; [exact M|discriminate]]);
        (destruct RS as [->|(y & -> & Hy)]; [constructor|]); (repeat constructor); destruct y; try destruct Hy; try exact Logic.I.
      cbn [start_call] in E. destruct (has _ _); [|discriminate]. destruct (_ || _); [inj E; exact Logic.I|discriminate E]. }
    destruct FS as [[b ->]|[FM FMD]].
    + cbn [start_call] in E. unfold do_farm_stat in E. destruct (has _ _); [|discriminate]. cbn [obind] in E. inj E.
      cbn [rets map] in *. destruct b.
      * apply q_reset; auto; try (rewrite cli_setc_same by auto; reflexivity).
        -- cbn; rewrite is_refl; reflexivity.
        -- unfold lost_reported. cbn [app fold_left]. rewrite is_refl. lia.
      * apply q_same; auto; try (rewrite cli_setc_same by auto; reflexivity); cbn; rewrite is_refl; reflexivity.
    + destruct (mute_rets c1 rs FM) as [A B]. rewrite <- D1 in A. rewrite <- D2 in B. apply SAME; auto.
  - apply GO; [auto|reflexivity|apply tagged_rets|]. destruct (end_write_id _ _ _ _ _ _ E) as [[_ _ _ Q _ _ _ _] M].
    apply SAME; auto. apply mute_rets. apply (end_write_mute _ _ _ _ _ _ E).
  - apply GO; [auto|reflexivity|constructor|]. apply SAME; auto.
  - apply GO; [auto|reflexivity|constructor; [reflexivity|apply tagged_rets]|]. destruct (end_write_id _ _ _ _ _ _ Ee) as [[_ _ _ Q _ _ _ _] M].
    apply SAME; auto. destruct (mute_rets c1 rs (end_write_mute _ _ _ _ _ _ Ee)) as [A B].
    change (ECommit c1 iov :: rets c1 rs) with ([ECommit c1 iov] ++ rets c1 rs). rewrite delivered_to_app, lost_app, A, B. auto.
  - apply GO; [auto|reflexivity|repeat constructor|]. apply SAME; auto.
  - apply GO; [auto|reflexivity|repeat constructor|]. intros -> _.
    destruct (wi_cl _ _ _ W c1 Hl) as [ms C]. pose proof (ci_pc _ _ _ _ C) as P. unfold pc_ok in P. rewrite Hpc in P. destruct P as (_ & P1 & P2).
    apply (q_read _ _ _ _ buf niov q md None); auto; try (rewrite cli_setc_same by auto; reflexivity); apply M1; exact Logic.I.
  - apply GO; [auto|reflexivity|constructor|]. intros -> _.
    destruct (wi_cl _ _ _ W c1 Hl) as [ms C]. pose proof (ci_pc _ _ _ _ C) as P. unfold pc_ok in P. rewrite Hpc in P. destruct P as (_ & P1 & P2).
    apply (q_read _ _ _ _ buf niov q md None); auto; rewrite cli_setc_same by auto; reflexivity.
  - apply GO; [auto|reflexivity|repeat constructor|]. intros -> _.
    destruct (wi_cl _ _ _ W c1 Hl) as [ms C]. pose proof (ci_pc _ _ _ _ C) as P. unfold pc_ok in P. rewrite Hpc in P. destruct P as (_ & P1 & P2).
    apply (q_read _ _ _ _ buf niov q md (Some (x, cur'))); auto; try (rewrite cli_setc_same by auto; reflexivity).
    cbn. rewrite is_refl, app_nil_r. reflexivity.
  - apply GO; [auto| |repeat constructor|].
    + destruct Hw' as [->|(ks & h & _ & _ & ->)]; reflexivity.
    + apply SAME; auto. destruct Hw' as [->|(ks & h & _ & _ & ->)]; reflexivity.
  - apply GO; [auto|reflexivity|apply tagged_rets|]. destruct (flush_write_id _ _ _ _ _ Ee) as [[_ _ _ Q _ _ _ _] M].
    apply SAME; auto. apply mute_rets. apply (flush_write_mute _ _ _ _ _ Ee).
  - apply GO; [auto| |repeat constructor|].
    + destruct (e_lock e); [apply close_handles_cl|reflexivity].
    + intros _ H. discriminate.
  - apply GO; [auto|reflexivity|repeat constructor|]. apply SAME; auto. apply M1. unfold do_stat in E. destruct (negb (e_lock e)); inj E; exact Logic.I.
  - apply GO; [auto|reflexivity|repeat constructor|]. apply SAME; auto. apply M1. destruct (do_app_ret _ _ _ _ _ _ _ E) as (? & ? & ? & ->). exact Logic.I.
  - assert (L : (c1 < length (w_cl w))%nat).
    { apply pc_bound. intros H0. unfold wait_sid in Hs. rewrite H0 in Hs. discriminate. }
    apply GO; [auto|reflexivity|constructor|]. intros -> HL. 
    assert (Hl : c_live (cli w c1) = true) by (unfold resume in HL; destruct (c_pc (cli w c1)); exact HL).
    apply (SAME _ (resume (cli w c1))); auto; unfold resume; destruct (c_pc (cli w c1)); reflexivity.
  - assert (Hl : c_live (cli w c1) = true).
    { destruct (c_live (cli w c1)) eqn:L; [reflexivity|]. rewrite (wi_dead _ _ _ W c1 L) in Hpc. discriminate. }
    apply GO; [auto|reflexivity|apply tagged_rets|]. destruct (end_write_id _ _ _ _ _ _ E) as [[_ _ _ Q _ _ _ _] M].
    apply SAME; auto. apply mute_rets. apply (end_write_mute _ _ _ _ _ _ E).
  - assert (Hl : c_live (cli w c1) = true).
    { destruct (c_live (cli w c1)) eqn:L; [reflexivity|]. rewrite (wi_dead _ _ _ W c1 L) in Hpc. discriminate. }
    apply GO; [auto|reflexivity|repeat constructor|]. apply SAME; auto. apply M1. exact Logic.I.
  - apply GO; [auto|reflexivity|repeat constructor|]. intros _ H. discriminate.
Qed.

Lemma no_rets c ev : (forall x, ~ In (ERet c x) ev) -> delivered_to c ev = [] /\ lost_reported c ev = 0.
Proof.
  induction ev as [|e ev IH]; intros H; [auto|]. destruct IH as [A B]; [intros x Hx; apply (H x); right; exact Hx|].
  change (e :: ev) with ([e] ++ ev). rewrite delivered_to_app, lost_app, A, B, app_nil_r, Z.add_0_r.
  destruct e as [| |c1 x| |]; auto. destruct (Nat.eq_dec c c1) as [->|N]; [exfalso; apply (H x); left; reflexivity|].
  cbn. rewrite (is_neq c c1 N). split; [reflexivity|]. destruct x; auto. destruct reset; auto.
Qed.
Lemma ret_bound w0 w evs a w' ev c x : WI w0 w evs -> PI w evs -> step w a = Ok (w', ev) -> In (ERet c x) ev ->
  (c < length (w_cl w))%nat.
Proof.
  intros W HP HS Hin. destruct (step_bracket _ _ _ _ _ _ _ HP HS Hin) as [(k & -> & _ & Eev)|(_ & k & Pd & _)].
  - cbn [step] in HS. destruct (c_live (cli w c)) eqn:L; [apply live_bound; exact L|]. cbn [negb] in HS. injection HS as <- <-. destruct Hin.
  - apply live_bound. apply (pend_live _ _ _ _ _ W HP Pd).
Qed.

(** what the theorem below says of one client *)
Definition followed (P : world -> action -> Prop) (r : ring) (fsz : Z) (w : world) (evs : list event) (c : nat) : Prop :=
  exists pre post flags w1, evs = pre ++ EOpen flags (Some c) :: post /\ flags = c_flags (cli w c)
    /\ exec P (world0 r fsz) w1 pre
    /\ follow (committed evs) (eldest evs (w_ring w)) (eldest pre (w_ring w1))
         (delivered_to c evs) (lost_reported c evs + c_md (cli w c)) (c_q (cli w c)).

(** clients never go back to life, never change flags; the table only grows *)
Definition kin (a b : client) : Prop := c_live b = c_live a /\ c_flags b = c_flags a /\ c_pid b = c_pid a.
Lemma kin_refl a : kin a a.
Proof. repeat split. Qed.
Lemma kin_id a b : same_id a b -> kin a b.
Proof. intros []. repeat split; assumption. Qed.
Lemma step_ids w0 w evs a w' ev : WI w0 w evs -> contract w a -> step w a = Ok (w', ev) ->
  (length (w_cl w) <= length (w_cl w'))%nat /\
  (forall c, (c < length (w_cl w))%nat -> c_live (cli w' c) = true -> kin (cli w c) (cli w' c))
  /\ (forall c, c_live (cli w' c) = true -> (length (w_cl w) <= c)%nat ->
       exists flags, ev = [EOpen flags (Some c)] /\ c_flags (cli w' c) = flags /\ c = length (w_cl w) /\ c_pc (cli w' c) = Idle).
Proof.
  intros W HC HS. pose proof (wi_ring _ _ _ W) as I. apply step_inv in HS.
  assert (GO : forall w1 c1 cl1, w_cl w1 = w_cl w -> (c_live cl1 = true -> kin (cli w c1) cl1) ->
    (length (w_cl w) <= length (w_cl (setc w1 c1 cl1)))%nat /\
    (forall c, (c < length (w_cl w))%nat -> c_live (cli (setc w1 c1 cl1) c) = true -> kin (cli w c) (cli (setc w1 c1 cl1) c))
    /\ (forall c, c_live (cli (setc w1 c1 cl1) c) = true -> (length (w_cl w) <= c)%nat ->
       exists flags, ev = [EOpen flags (Some c)] /\ c_flags (cli (setc w1 c1 cl1) c) = flags /\ c = length (w_cl w) /\ c_pc (cli (setc w1 c1 cl1) c) = Idle)).
  { intros w1 c1 cl1 E H.
    assert (LE : length (w_cl (setc w1 c1 cl1)) = length (w_cl w)) by (cbn [w_cl setc set]; rewrite E; apply length_set_nat).
    split; [lia|]. split.
    - intros c L. destruct (Nat.eq_dec c c1) as [->|N].
      + rewrite cli_setc_same by (rewrite E; exact L). exact H.
      + rewrite cli_setc_other by exact N. unfold cli. rewrite E. intros _. apply kin_refl.
    - intros c L Hc. apply live_bound in L. lia. }
  assert (SAME : forall w1, w_cl w1 = w_cl w ->
    (length (w_cl w) <= length (w_cl w1))%nat /\
    (forall c, (c < length (w_cl w))%nat -> c_live (cli w1 c) = true -> kin (cli w c) (cli w1 c))
    /\ (forall c, c_live (cli w1 c) = true -> (length (w_cl w) <= c)%nat ->
       exists flags, ev = [EOpen flags (Some c)] /\ c_flags (cli w1 c) = flags /\ c = length (w_cl w) /\ c_pc (cli w1 c) = Idle)).
  { intros w1 E. rewrite E. split; [lia|]. split.
    - intros c _ _. unfold cli. rewrite E. apply kin_refl.
    - intros c L Hc. apply live_bound in L. rewrite E in L. lia. }
  destruct HS as
   [ a
   | e flags pid w' E
   | e flags pid w' cl E
   | c1 x cl' rs Hl Hpc E
   | c1 e k iov len nb v cl' rs Hl Hpc Hv E
   | c1 e k iov len n s p Hl Hpc He E Er
   | c1 e k iov len nb r1 hw ks bh hw' wok r2 rv cl' rs Hl Hpc He E Ew Eb E2 Ev Ee
   | c1 e buf niov Hl Hpc He
   | c1 e buf niov q md h ks ok Hl Hpc He Hnb E Eh Ef
   | c1 e buf niov q md n s p Hl Hpc He Hnb E Eh
   | c1 e buf niov q md x cur' hr r2w' ks1 bh1 ks2 ok h Hl Hpc He E Eh Er Hn0 Hn1 Ef
   | c1 e w' Hl Hpc Hw'
   | c1 e ks h b cl' rs Hl Hpc He E Ee
   | c1 e Hl Hpc
   | c1 e reset r x Hl Hpc E
   | c1 e get st sz r x Hl Hpc E
   | c1 sid polls Hs Hp
   | a c1 sc k iov len nb cl' rs Ha Hpc E
   | a c1 sc buf niov Ha Hpc
   | c1 Hl ].
  - apply SAME. reflexivity.
  - destruct (do_open_ok e w flags pid _ I HC) as (w1 & o & E' & E1 & E2 & E3 & _).
    rewrite E in E'. injection E' as <- <-. apply SAME. exact E2.
  - destruct (do_open_ok e w flags pid _ I HC) as (w1 & o & E' & E1 & E2 & E3 & Ho).
    rewrite E in E'. injection E' as <- <-. destruct (Ho cl eq_refl) as (C & HL & HP & HFl & _).
    split; [cbn [w_cl set]; rewrite E2, app_length; lia|]. unfold cli. cbn [w_cl set]. rewrite E2. split.
    + intros c L _. rewrite app_nth1 by exact L. apply kin_refl.
    + intros c L Hc. destruct (Nat.eq_dec c (length (w_cl w))) as [->|N].
      * rewrite app_nth2, Nat.sub_diag by lia. cbn [nth]. exists flags. auto.
      * rewrite nth_overflow in L by (rewrite app_length; cbn; lia). discriminate.
  - apply GO; [reflexivity|]. intros _. apply kin_id, (start_call_id _ _ _ _ E).
  - apply GO; [reflexivity|]. intros _. apply kin_id, (end_write_id _ _ _ _ _ _ E).
  - apply GO; [reflexivity|]. intros _. repeat split; reflexivity.
  - apply GO; [reflexivity|]. intros _. destruct (end_write_id _ _ _ _ _ _ Ee) as [[] _]. repeat split; assumption.
  - apply GO; [reflexivity|]. intros _. repeat split; reflexivity.
  - apply GO; [reflexivity|]. intros _. repeat split; reflexivity.
  - apply GO; [reflexivity|]. intros _. repeat split; reflexivity.
  - apply GO; [reflexivity|]. intros _. repeat split; reflexivity.
  - apply GO; [|intros _; repeat split; reflexivity]. destruct Hw' as [->|(ks & h & _ & _ & ->)]; reflexivity.
  - apply GO; [reflexivity|]. intros _. destruct (flush_write_id _ _ _ _ _ Ee) as [[] _]. repeat split; assumption.
  - apply GO; [|discriminate]. destruct (e_lock e); [apply close_handles_cl|reflexivity].
  - apply GO; [reflexivity|]. intros _. repeat split; reflexivity.
  - apply GO; [reflexivity|]. intros _. repeat split; reflexivity.
  - apply GO; [reflexivity|]. intros _. unfold resume. destruct (c_pc (cli w c1)); repeat split; reflexivity.
  - apply GO; [reflexivity|]. intros _. apply kin_id, (end_write_id _ _ _ _ _ _ E).
  - apply GO; [reflexivity|]. intros _. repeat split; reflexivity.
  - apply GO; [reflexivity|discriminate].
Qed.

Definition followed' P r fsz w evs c : Prop :=
  0 <= lost_reported c evs /\ 0 <= c_md (cli w c) /\
  exists pre post flags w1, evs = pre ++ EOpen flags (Some c) :: post /\ flags = c_flags (cli w c)
    /\ exec P (world0 r fsz) w1 pre
    /\ 0 <= eldest pre (w_ring w1)
    /\ follow (committed evs) (eldest evs (w_ring w)) (eldest pre (w_ring w1))
         (delivered_to c evs) (lost_reported c evs + c_md (cli w c)) (c_q (cli w c)).

Lemma farm_follow' (P : world -> action -> Prop) r fsz w evs :
  (forall w a, P w a -> contract w a) -> fresh r fsz -> r_farm r = true ->
  exec P (world0 r fsz) w evs -> seq_bound r evs ->
  forall c, c_live (cli w c) = true -> followed' P r fsz w evs c.
Proof.
  intros HP F Hf X HB.
  refine (proj1 (exec_ind_inv P r fsz (fun w evs => (forall c, c_live (cli w c) = true -> followed' P r fsz w evs c) /\
    (forall c, (length (w_cl w) <= c)%nat -> delivered_to c evs = [] /\ lost_reported c evs = 0)) HP F _ _ w evs X HB)).
  - split; [|auto]. intros c. rewrite world0_cli. discriminate.
  - clear w evs X HB. intros w evs a w' ev X W PI0 W' HB Pa S _ EF [IH IN].
    assert (SF : r_farm (w_ring w) = true) by (rewrite <- Hf; apply (proj1 (same_farm_exec P _ _ _ _ W))).
    assert (HBw : zlen (committed (evs ++ ev)) < W64) by (apply HB; exact SF).
    rewrite committed_app, zlen_app in HBw. pose proof (zlen_nonneg (committed ev)).
    destruct (step_ids _ _ _ _ _ _ W (HP _ _ Pa) S) as (LE & KIN & NEW).
    split.
    + intros c Hl.
      assert (CHAIN : (c < length (w_cl w))%nat -> c_live (cli w c) = true ->
        (forall pre w1, follow (committed evs) (eldest evs (w_ring w)) (eldest pre (w_ring w1))
           (delivered_to c evs) (lost_reported c evs + c_md (cli w c)) (c_q (cli w c)) ->
           0 <= eldest pre (w_ring w1) ->
           0 <= lost_reported c evs -> 0 <= c_md (cli w c) ->
           0 <= lost_reported c ev /\ 0 <= c_md (cli w' c) /\
           follow (committed evs) (eldest evs (w_ring w)) (eldest pre (w_ring w1))
           (delivered_to c evs ++ delivered_to c ev) (lost_reported c evs + lost_reported c ev + c_md (cli w' c)) (c_q (cli w' c))) ->
        followed' P r fsz w' (evs ++ ev) c).
      { intros L Hl0 H0. destruct (IH c Hl0) as (N1 & N2 & pre & post & flags & w1 & E & EF1 & X1 & N3 & FO).
        destruct (H0 pre w1 FO N3 N1 N2) as (M1 & M2 & FO').
        unfold followed'. rewrite lost_app, delivered_to_app, committed_app. split; [lia|]. split; [exact M2|].
        exists pre, (post ++ ev), flags, w1. split; [rewrite E, <- app_assoc; reflexivity|].
        split; [rewrite EF1; symmetry; apply (KIN c L Hl)|]. split; [exact X1|]. split; [exact N3|].
        apply (follow_app _ _ (eldest evs (w_ring w))); [apply (eldest_mono _ _ _ _ _ evs eq_refl EF)|exact FO']. }
      destruct (step_qstep _ _ _ _ _ _ _ W (HP _ _ Pa) S Hl) as
        [flags A1 A2 A3 A4|A1 A2 A3 A4 A5 A6|A1 A2 A3 A4 A5 A6|buf niov q md res A1 A2 B1 B2 A3 A4 A5 A6 A7].
      * clear CHAIN. destruct (IN c ltac:(lia)) as [D L]. pose proof (i_inv0 _ _ (wi_ring _ _ _ W)) as I0.
        pose proof (w_old _ _ _ (i_win _ _ I0)) as Ho. pose proof (i_m _ _ I0) as Hm.
        assert (E : r_q (w_ring w) = eldest evs (w_ring w)).
        { unfold eldest. rewrite (rq_eq _ _ I0) by lia. f_equal. rewrite (retained_eq _ _ I0). unfold lastn, zlen. rewrite skipn_length.
          unfold zlen in *. lia. }
        unfold followed'. rewrite A2, committed_app, delivered_to_app, lost_app, D, L, A3, A4. cbn [lost_reported fold_left].
        split; [lia|]. split; [lia|]. exists evs, [], flags, w. split; [reflexivity|].
        split; [destruct (NEW c Hl ltac:(lia)) as (f & E1 & E2 & _); rewrite A2 in E1; injection E1 as ->; symmetry; exact E2|].
        split; [exact X|]. split; [rewrite <- E, (rq_eq _ _ I0); lia|]. rewrite E. constructor.
      * apply CHAIN; auto. intros pre w1 FO N3 N1 N2. rewrite A3, A4, A5, A6, app_nil_r, Z.add_0_r. split; [lia|]. auto.
      * apply CHAIN; auto. intros pre w1 FO N3 N1 N2. rewrite A3, A4, A5, A6, app_nil_r, Z.add_0_r. split; [lia|]. split; [lia|]. exact FO.
      * apply CHAIN; auto. intros pre w1 FO N3 N1 N2.
        destruct (wi_cl _ _ _ W c A2) as [ms C].
        assert (Hq : qok (w_ring w) (committed evs) (c_q (cli w c))) by (apply (CI_qok _ _ _ _ C); intros _; lia).
        destruct (ring_read_ok _ _ _ (c_md (cli w c)) buf niov (wi_ring _ _ _ W) Hq B1 B2) as [Q1 Q2].
        destruct (Hq SF) as [Hq1 Hq2]. unfold rpos in Q1, Q2. rewrite SF in Q1, Q2. cbn [andb] in Q1, Q2.
        set (h := committed evs) in *. set (q0 := c_q (cli w c)) in *. set (old := zlen h - r_mp (w_ring w)) in *.
        set (k := Z.max q0 old) in *. set (md0 := c_md (cli w c)) in *.
        pose proof (w_old _ _ _ (i_win _ _ (i_inv0 _ _ (wi_ring _ _ _ W)))) as Ho. fold h old in Ho.
        pose proof (i_m _ _ (i_inv0 _ _ (wi_ring _ _ _ W))) as Hm.
        assert (OLD : 0 <= old <= zlen h) by (subst old; lia).
        assert (EOLD : eldest evs (w_ring w) = old).
        { unfold eldest, old. f_equal. rewrite (retained_eq _ _ (i_inv0 _ _ (wi_ring _ _ _ W))). unfold lastn, zlen. rewrite skipn_length.
          unfold zlen, h in *. lia. }
        assert (MD : md = (if q0 <? old then u64 (md0 + (k - q0)) else md0) /\
                     exists tk rest, skipn (Z.to_nat k) h = tk ++ rest /\ q = k + zlen tk /\ delivered_to c ev = tk).
        { destruct (list_eq_dec (list_eq_dec Z.eq_dec) (skipn (Z.to_nat k) h) []) as [Ee|Ne].
          - rewrite (Q1 Ee) in A3. injection A3 as Aq Am Ar. rewrite <- Ar in A7. split; [symmetry; exact Am|].
            exists [], []. rewrite zlen_nil. split; [exact Ee|]. split; [lia|exact A7].
          - destruct (Q2 Ne) as (x & cur' & Er & _ & _ & _ & _ & _ & _ & Bf & Io & _ & _ & _).
            rewrite Er in A3. injection A3 as Aq Am Ar. rewrite <- Ar in A7. split; [symmetry; exact Am|].
            destruct (take_fit_prefix (Z.to_nat niov) (clamp (zlen buf)) (skipn (Z.to_nat k) h)) as [rest ER].
            eexists _, rest. split; [exact ER|]. split; [symmetry; exact Aq|]. rewrite A7, Bf, Io.
            apply read_msgs_taken. rewrite clamp_usable. unfold usable.
            pose proof (nbytes_take_fit (Z.to_nat niov) (Z.min (zlen buf) SSIZE_MAX) (skipn (Z.to_nat k) h) ltac:(lia)). lia. }
        destruct MD as [MD (tk & rest & T1 & T2 & T3)].
        destruct (follow_count _ _ _ _ _ _ FO) as [FC FK]. pose proof (zlen_nonneg (delivered_to c evs)).
        rewrite A4, A5, A6, T2, T3, Z.add_0_r. split; [lia|].
        assert (FS : 0 <= md /\ follow h (eldest evs (w_ring w)) (eldest pre (w_ring w1)) (delivered_to c evs)
                       (lost_reported c evs + md) k).
        { destruct (Z.ltb_spec q0 old) as [LT|GE].
          - assert (k = old) by (subst k; lia). rewrite u64_small in MD by lia.
            split; [lia|]. rewrite MD. replace k with (q0 + (k - q0)) at 2 by lia. rewrite Z.add_assoc. apply fo_skip; [exact FO|lia|rewrite EOLD; lia].
          - assert (k = q0) by (subst k; lia). rewrite MD. split; [exact N2|]. replace k with q0 by lia. exact FO. }
        destruct FS as [M2 FS]. split; [exact M2|].
        apply follow_takes; [exact FS|lia|exists rest; exact T1].
    + intros c Hc.
      destruct (IN c ltac:(lia)) as [D L]. rewrite delivered_to_app, lost_app, D, L.
      destruct (no_rets c ev) as [-> ->]; [|auto]. intros x Hx.
      pose proof (ret_bound _ _ _ _ _ _ _ _ W PI0 S Hx). lia.
Qed.

Theorem farm_follow (P : world -> action -> Prop) r fsz w evs :
  (forall w a, P w a -> contract w a) -> fresh r fsz -> r_farm r = true ->
  exec P (world0 r fsz) w evs -> seq_bound r evs ->
  forall c, c_live (cli w c) = true -> followed P r fsz w evs c.
Proof.
  intros HP F Hf X HB c Hl. destruct (farm_follow' P r fsz w evs HP F Hf X HB c Hl) as (_ & _ & pre & post & flags & w1 & A & B & C & _ & D).
  exists pre, post, flags, w1. auto.
Qed.
