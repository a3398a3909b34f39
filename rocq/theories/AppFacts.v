(** * shr_appdata, shr_stat and interrupted calls (C14, C30, C36). *)
From Verif Require Export Calls.

Definition app_st (evs : list event) (st : (nat -> option call) * bytes) :=
  fold_left (fun st e => match e with
    | ECall c x => (fun c' => if is c' c then Some x else fst st c', snd st)
    | ERet c x => (fun c' => if is c' c then None else fst st c',
        match x, fst st c with
        | RetApp 0 _ _, Some (CApp GNull (Some s) _) | RetApp 0 _ _, Some (CApp (GBuf _) (Some s) _) => s
        | _, _ => snd st end)
    | ECrash c => (fun c' => if is c' c then None else fst st c', snd st)
    | _ => st end) evs st.
Lemma app_st_app a b st : app_st (a ++ b) st = app_st b (app_st a st).
Proof. apply fold_left_app. Qed.
Lemma app_st_pend evs app0 c : fst (app_st evs (fun _ => None, app0)) c = pending c evs.
Proof.
  induction evs as [|e evs IH] using rev_ind; [reflexivity|]. rewrite app_st_app, pending_app. cbn [app_st fold_left].
  destruct e as [| c1 x|c1 x| |c1]; cbn [fst]; rewrite <- IH; reflexivity.
Qed.
Lemma app_now_app app0 evs ev : app_now app0 (evs ++ ev) = snd (app_st ev (app_st evs (fun _ => None, app0))).
Proof. unfold app_now. fold (app_st (evs ++ ev) (fun _ => None, app0)). rewrite app_st_app. reflexivity. Qed.

(** returns other than of shr_appdata *)
Definition not_app (e : event) : Prop := match e with ERet _ (RetApp _ _ _) => False | _ => True end.
Lemma app_st_quiet ev : Forall not_app ev -> forall st, snd (app_st ev st) = snd st.
Proof.
  intros F. induction F as [|e ev N F IH]; intros st; [reflexivity|].
  change (e :: ev) with ([e] ++ ev). rewrite app_st_app, IH. cbn [app_st fold_left].
  destruct e as [| c x|c x| |c]; cbn [snd]; try reflexivity. destruct x; try reflexivity. destruct N.
Qed.
Lemma not_app_rets c rs : (forall x a b d, In x rs -> x <> RetApp a b d) -> Forall not_app (rets c rs).
Proof.
  intros H. unfold rets. apply Forall_forall. intros e He. apply in_map_iff in He. destruct He as (x & <- & Hx).
  destruct x; cbn; auto. exact (H _ _ _ _ Hx eq_refl).
Qed.

(** what shr_appdata does to the appdata, and what it returns *)
Lemma do_app_cases e r get st sz r' x : app_args_ok r get st sz -> zlen (r_app r) = r_app_len r ->
  do_app e r get st sz = Ok (r', x) ->
  exists v out z, x = RetApp v out z /\ (v = 0 \/ v = -1) /\
  match get, st with
  | GNull, Some s => (r' = r /\ v = -1 /\ (e_lock e = false \/ r_app_len r = 0 \/ zlen s <> r_app_len r))
      \/ (r' = r <| r_app := s |> /\ v = (if shr_sync e r' then 0 else -1) /\ zlen s = r_app_len r)
  | GBuf b, Some s => (r' = r /\ v = -1 /\ (e_lock e = false \/ r_app_len r = 0 \/ zlen s <> r_app_len r))
      \/ (r' = r <| r_app := s |> /\ v = (if shr_sync e r' then 0 else -1) /\ zlen s = r_app_len r /\ out = Some (r_app r))
  | GAlloc, None => r' = r /\ (v = 0 -> out = Some (r_app r) /\ z = r_app_len r)
  | GBuf b, None => r' = r /\ (v = 0 -> out = Some (r_app r) /\ z = r_app_len r)
  | _, _ => r' = r
  end.
Proof.
  intros HA HL. unfold do_app.
  assert (V : forall b : bool, (if b then 0 else -1) = 0 \/ (if b then 0 else -1) = -1) by (intros []; auto).
  assert (FULL : sub 0 (r_app_len r) (r_app r) = r_app r).
  { rewrite <- HL. unfold sub. cbn [Z.to_nat skipn]. apply firstn_all2. unfold zlen. lia. }
  assert (BL : forall a b : bytes, zlen a = zlen b -> blit 0 a b = a).
  { intros a b H. unfold blit. cbn [Z.to_nat firstn app]. replace (0 + length a)%nat with (length b) by (unfold zlen in H; lia).
    rewrite skipn_all, app_nil_r. reflexivity. }
  assert (WM : forall (a b b' : bytes), wr_mem 0 a b = Ok b' -> zlen a = zlen b -> b' = a).
  { intros a b b' H E. unfold wr_mem in H. destruct (_ && _); [|discriminate]. injection H as <-. apply BL. exact E. }
  assert (RM : forall n (a b : bytes), rd_mem 0 n a = Ok b -> zlen a = n -> b = a).
  { intros n a b H E. unfold rd_mem in H. destruct (_ && _); [|discriminate]. injection H as <-. subst n. unfold sub. cbn [Z.to_nat skipn].
    apply firstn_all2. unfold zlen. lia. }
  destruct (e_lock e); cbn [negb].
  2: { intros H. injection H as <- <-. do 3 eexists. split; [reflexivity|]. split; [auto|].
       destruct get, st; first [reflexivity | (left; split; [reflexivity|split; [reflexivity|auto]]) | (split; [reflexivity|discriminate])]. }
  destruct (Z.eqb_spec (r_app_len r) 0) as [E0|N0].
  1: { intros H. injection H as <- <-. do 3 eexists. split; [reflexivity|]. split; [auto|].
       destruct get, st; first [reflexivity | (left; split; [reflexivity|split; [reflexivity|auto]]) | (split; [reflexivity|discriminate])]. }
  destruct HA as [Hsz HA]. destruct get as [| |b], st as [s|]; cbn [app_args_ok] in HA.
  - destruct (Z.eqb_spec sz (r_app_len r)) as [E|N]; cbn [negb].
    + intros H. apply obind_ok in H. destruct H as (a & E1 & H). apply obind_ok in H. destruct H as (app & E2 & H). inj H.
      apply RM in E1; [|lia]. subst a. apply WM in E2; [|lia]. subst app.
      do 3 eexists. split; [reflexivity|]. split; [apply V|]. right. split; [reflexivity|]. split; [reflexivity|lia].
    + intros H. inj H. do 3 eexists. split; [reflexivity|]. split; [auto|]. left. split; [reflexivity|]. split; [reflexivity|]. right. right. lia.
  - intros H. inj H. do 3 eexists. split; [reflexivity|]. split; [apply V|reflexivity].
  - intros H. inj H. do 3 eexists. split; [reflexivity|]. split; [apply V|reflexivity].
  - destruct (negb (e_alloc e)).
    + intros H. inj H. do 3 eexists. split; [reflexivity|]. split; [auto|]. split; [reflexivity|discriminate].
    + intros H. apply obind_ok in H. destruct H as (a & E1 & H). inj H. apply RM in E1; [|lia]. subst a.
      do 3 eexists. split; [reflexivity|]. split; [apply V|]. split; [reflexivity|]. intros _. auto.
  - destruct HA as [HA1 HA2]. destruct (Z.eqb_spec sz (r_app_len r)) as [E|N]; cbn [negb].
    + intros H. apply obind_ok in H. destruct H as (a0 & F1 & H). apply obind_ok in H. destruct H as (b1 & F2 & H).
      apply obind_ok in H. destruct H as (a & E1 & H). apply obind_ok in H. destruct H as (app & E2 & H). inj H.
      apply RM in F1; [|lia]. subst a0. apply WM in F2; [|lia]. subst b1.
      apply RM in E1; [|lia]. subst a. apply WM in E2; [|lia]. subst app.
      do 3 eexists. split; [reflexivity|]. split; [apply V|]. right. split; [reflexivity|]. split; [reflexivity|]. split; [lia|reflexivity].
    + intros H. inj H. do 3 eexists. split; [reflexivity|]. split; [auto|]. left. split; [reflexivity|]. split; [reflexivity|]. right. right. lia.
  - destruct HA as [HA1 HA2]. destruct (Z.ltb_spec sz (r_app_len r)) as [L|L].
    + intros H. inj H. do 3 eexists. split; [reflexivity|]. split; [auto|]. split; [reflexivity|discriminate].
    + intros H. apply obind_ok in H. destruct H as (a & E1 & H). apply obind_ok in H. destruct H as (b1 & E2 & H). inj H.
      apply RM in E1; [|lia]. subst a. apply WM in E2; [|lia]. subst b1.
      do 3 eexists. split; [reflexivity|]. split; [apply V|]. split; [reflexivity|]. intros _. auto.
Qed.

Lemma dullw_rets c rs : (forall x, In x rs -> match x with RetApp _ _ _ => False | _ => True end) -> Forall not_app (rets c rs).
Proof. intros H. apply not_app_rets. intros x a b d Hi ->. exact (H _ Hi). Qed.
Lemma end_write_noapp c cl k iov v cl' rs : end_write cl k iov v = Ok (cl', rs) -> Forall not_app (rets c rs).
Proof.
  intros E. apply end_write_ret in E. destruct E as [->|(x & -> & Hx)]; [constructor|].
  repeat constructor. destruct k; [subst|destruct Hx as [? ->]|subst|destruct Hx]; exact I.
Qed.

Lemma faultless_contract : forall w a, faultless w a -> contract w a.
Proof. intros ? ? [[H _] _]; exact H. Qed.
Lemma reliable_contract : forall w a, reliable w a -> contract w a.
Proof. intros ? ? [H _]; exact H. Qed.
Lemma undisturbed_contract : forall w a, undisturbed w a -> contract w a.
Proof. intros ? ? [[[H _] _] _]; exact H. Qed.

(** What a step does to the application data. *)
Definition sets (x : call) : option bytes := match x with CApp GNull (Some s) _ | CApp (GBuf _) (Some s) _ => Some s | _ => None end.
Definition app_eff (a : action) (evs ev : list event) (app app' : bytes) : Prop :=
  (Forall not_app ev /\ app' = app)
  \/ exists c e x v out z, a = ARun c e /\ pending c evs = Some x /\ ev = [ERet c (RetApp v out z)]
     /\ match sets x with
        | None => app' = app
        | Some s => (v = 0 /\ app' = s) \/ (v = -1 /\ (app' = app \/ e_msync e = false /\ zlen s = zlen app /\ app' = s))
        end.
Lemma step_app w0 w evs a w' ev : WI w0 w evs -> PI w evs -> seq_bound (w_ring w) (evs ++ ev) -> contract w a -> stepI w a w' ev ->
  app_eff a evs ev (r_app (w_ring w)) (r_app (w_ring w')).
Proof.
  intros W HP HB HC HS. pose proof (wi_ring _ _ _ W) as I.
  assert (QU : forall ev' app', Forall not_app ev' -> app' = r_app (w_ring w) -> app_eff a evs ev' (r_app (w_ring w)) app') by (intros; left; auto).
  destruct HS as
   [ a
   | e flags pid w' E
   | e flags pid w' cl E
   | c x cl' rs Hl Hpc E
   | c e k iov len nb v cl' rs Hl Hpc Hv E
   | c e k iov len n s p Hl Hpc He E Er
   | c e k iov len nb r1 hw ks bh hw' wok r2 rv cl' rs Hl Hpc He E Ew Eb E2 Ev Ee
   | c e buf niov Hl Hpc He
   | c e buf niov q md h ks ok Hl Hpc He Hnb E Eh Ef
   | c e buf niov q md n s p Hl Hpc He Hnb E Eh
   | c e buf niov q md x cur' hr r2w' ks1 bh1 ks2 ok h Hl Hpc He E Eh Er Hn0 Hn1 Ef
   | c e w' Hl Hpc Hw'
   | c e ks h b cl' rs Hl Hpc He E Ee
   | c e Hl Hpc
   | c e reset r0 x Hl Hpc E
   | c e get st sz r0 x Hl Hpc E
   | c sid polls Hs Hp
   | a c sc k iov len nb cl' rs Ha Hpc E
   | a c sc buf niov Ha Hpc
   | c Hl ]; cbn [w_ring setc set].
  - apply QU; [constructor|reflexivity].
  - destruct (do_open_ok e w flags pid _ I HC) as (w1 & o & E' & E1 & _).
    rewrite E in E'. injection E' as <- <-. rewrite E1. apply QU; [repeat constructor|reflexivity].
  - destruct (do_open_ok e w flags pid _ I HC) as (w1 & o & E' & E1 & _).
    rewrite E in E'. injection E' as <- <-. rewrite E1. apply QU; [repeat constructor|reflexivity].
  - destruct (start_call_ret _ _ _ _ E) as [->|(y & -> & Hy)]; [apply QU; [repeat constructor|reflexivity]|].
    apply QU; [|reflexivity]. repeat constructor. cbn. destruct y; auto. destruct x; cbn in Hy; try destruct Hy. cbn in E. discriminate.
  - apply QU; [|reflexivity]. apply (end_write_noapp _ _ _ _ _ _ _ E).
  - apply QU; [constructor|reflexivity].
  - apply QU; [constructor; [exact Logic.I|apply (end_write_noapp _ _ _ _ _ _ _ Ee)]|].
    destruct (wi_cl _ _ _ W c Hl) as [ms C]. pose proof (ci_pc _ _ _ _ C) as P. unfold pc_ok in P. rewrite Hpc in P.
    destruct P as (Hw & Hi & -> & Hk & _). rewrite (ci_mm _ _ _ _ C) in E.
    destruct (ring_write_total _ _ iov I Hi) as [(E' & _)|(r' & E' & _ & S)]; rewrite E in E'; [discriminate|].
    injection E' as <-. destruct S as (_ & _ & _ & _ & _ & _ & S). transitivity (r_app r1); [subst r2; destruct wok; reflexivity|exact S].
  - apply QU; [repeat constructor|reflexivity].
  - apply QU; [repeat constructor|reflexivity].
  - apply QU; [constructor|reflexivity].
  - apply QU; [repeat constructor|].
    destruct (wi_cl _ _ _ W c Hl) as [ms C]. pose proof (ci_pc _ _ _ _ C) as P. unfold pc_ok in P. rewrite Hpc in P.
    destruct P as (Hr & Hb & Hn). pose proof (CI_qok _ _ _ _ C (seq_bound_app _ _ _ HB)) as Hq.
    destruct (ring_read_ok _ _ _ (c_md (cli w c)) buf niov I Hq Hb Hn) as [Q1 Q2].
    destruct (list_eq_dec (list_eq_dec Z.eq_dec) (skipn (Z.to_nat (Z.max (rpos (w_ring w) (committed evs) (c_q (cli w c))) (zlen (committed evs) - r_mp (w_ring w)))) (committed evs)) []) as [Ea|Na].
    + rewrite (Q1 Ea) in E. discriminate.
    + destruct (Q2 Na) as (x1 & cur1 & E' & _ & (_ & _ & _ & _ & _ & _ & S) & _). rewrite E in E'. injection E' as _ _ <- <-. exact S.
  - apply QU; [repeat constructor|]. destruct Hw' as [->|(ks & h & _ & _ & ->)]; reflexivity.
  - apply QU; [|reflexivity]. apply flush_write_ret in Ee. destruct Ee as [->|(_ & v & ->)]; repeat constructor.
  - apply QU; [repeat constructor|]. destruct (e_lock e); [|reflexivity]. unfold close_handles.
    destruct (match c_w2r (cli w c) with Some b => _ | None => _ end) as [ks h].
    cbn [w_ks w_r2w set].
    destruct (match c_r2w (cli w c) with Some b => _ | None => _ end) as [ks2 h2]. reflexivity.
  - unfold do_stat in E. destruct (negb (e_lock e)); [injection E as <- <-; apply QU; [repeat constructor|reflexivity]|].
    injection E as <- <-. apply QU; [repeat constructor|]. destruct reset; reflexivity.
  - destruct (wi_cl _ _ _ W c Hl) as [ms C]. pose proof (ci_pc _ _ _ _ C) as P. unfold pc_ok in P. rewrite Hpc in P.
    specialize (HP c). rewrite Hpc in HP. cbn [pc_for] in HP.
    destruct (do_app_cases _ _ _ _ _ _ _ P (wi_app _ _ _ W) E) as (v & out & z & -> & Hv & M).
    right. exists c, e, (CApp get st sz), v, out, z. split; [reflexivity|]. split; [exact HP|]. split; [reflexivity|].
    assert (SY : forall r', shr_sync e r' = false -> e_msync e = false) by (intros r' H; unfold shr_sync in H; destruct (e_msync e); [rewrite orb_true_r in H; discriminate|reflexivity]).
    destruct get as [| |b], st as [s0|]; cbn [sets].
    + destruct M as [(-> & -> & _)|(-> & -> & LE)]; [right; auto|]. match goal with |- context [shr_sync e ?q] => destruct (shr_sync e q) eqn:Es end; [left; auto|].
      right. split; [reflexivity|]. right. split; [apply (SY _ Es)|]. rewrite (wi_app _ _ _ W). auto.
    + rewrite M. reflexivity.
    + rewrite M. reflexivity.
    + destruct M as [-> _]. reflexivity.
    + destruct M as [(-> & -> & _)|(-> & -> & LE & _)]; [right; auto|]. match goal with |- context [shr_sync e ?q] => destruct (shr_sync e q) eqn:Es end; [left; auto|].
      right. split; [reflexivity|]. right. split; [apply (SY _ Es)|]. rewrite (wi_app _ _ _ W). auto.
    + destruct M as [-> _]. reflexivity.
  - apply QU; [constructor|reflexivity].
  - apply QU; [|reflexivity]. apply (end_write_noapp _ _ _ _ _ _ _ E).
  - apply QU; [repeat constructor|reflexivity].
  - apply QU; [repeat constructor|reflexivity].
Qed.

(** The application data is what the last successful set made it. *)
Lemma app_st_ret c v out z evs app0 : app_now app0 (evs ++ [ERet c (RetApp v out z)])
  = match pending c evs with Some x => match sets x with Some s => if v =? 0 then s else app_now app0 evs | None => app_now app0 evs end | None => app_now app0 evs end.
Proof.
  rewrite app_now_app. cbn [app_st fold_left snd]. rewrite app_st_pend.
  change (snd (app_st evs (fun _ => None, app0))) with (app_now app0 evs).
  destruct (pending c evs) as [x|]; [|destruct v; reflexivity].
  destruct x as [buf niov|iov|wait| |reset|reset|get st sz|fd| ]; try (destruct v; reflexivity). destruct get, st; cbn [sets]; destruct v; reflexivity.
Qed.
Theorem app_history r fsz w evs : fresh r fsz -> exec faultless (world0 r fsz) w evs -> seq_bound r evs ->
  r_app (w_ring w) = app_now (r_app r) evs.
Proof.
  intros F X HB. revert w evs X HB.
  refine (exec_ind_inv faultless r fsz (fun w evs => r_app (w_ring w) = app_now (r_app r) evs) faultless_contract F _ _); [reflexivity|].
  intros w evs a w' ev X W HP W' HB Pa HS0 HS _ IH.
  destruct (step_app _ _ _ _ _ _ W HP HB (faultless_contract _ _ Pa) HS) as [[N E]|(c & e & x & v & out & z & -> & Ep & -> & M)].
  - rewrite app_now_app, (app_st_quiet _ N), E. exact IH.
  - rewrite app_st_ret, Ep. destruct (sets x) as [s|]; [|rewrite M; exact IH]. destruct M as [[-> ->]|[-> [->|[Hm _]]]]; [reflexivity|exact IH|].
    destruct Pa as [_ Pa]. cbn in Pa. congruence.
Qed.
