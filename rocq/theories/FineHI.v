(** * Names and slots: preserved by every step. *)
From Verif Require Import BaseFacts MicroFacts KillExec KillFacts KillInv BwInv KillBwInv LockFacts WorldFacts StepInv SysFacts.
From Verif Require Export FineHome2.

Lemma setc_any w c x : cli (setc w c x) c = x \/ cli (setc w c x) c = cli w c.
Proof. unfold cli, setc. cbn [w_cl]. destruct (nth_set_any client0 (w_cl w) c c x) as [E|[_ E]]; [right; exact E|left; exact E]. Qed.

Lemma HI_quiet w w' c : HI w -> (forall c', c' <> c -> cli w' c' = cli w c') -> kx (w_ks w) (w_ks w') -> w_w2r w' = w_w2r w -> w_r2w w' = w_r2w w ->
  (forall b h, hnd b (cli w' c) = Some h -> bw_same (hnd b (cli w c)) (Some h)) -> HI w'.
Proof.
  intros [home H] HC K E1 E2 G. apply (HI_upd home w w' c home); [exact H| |exact HC|].
  - split; [intros ? ? ? X; exact X|]. split; [apply H|]. split; [apply (named_kx _ _ _ K), H|]. split; [|exact K].
    intros b. pose proof (hi_s _ _ H b) as S. destruct b; cbn [KillBwInv.hd shared sh_w2r sh_r2w]; rewrite ?E1, ?E2; exact S.
  - intros b h E. specialize (G b h E). destruct h as [q cs|n s p].
    + pose proof (bw_same_wake _ _ _ G) as Ea. apply (hconns_kx _ _ _ _ _ K), (hi_c _ _ H c b _ Ea).
    + destruct (bw_same_wait _ _ _ _ G) as [p0 Ea]. left. eauto.
Qed.
Lemma drop_kx ks h : kx ks (drop_sock ks h).
Proof. destruct h as [[|n s p]|]; try apply kx_refl. apply kx_upd. reflexivity. Qed.
Lemma HI_setc w ks c x : HI w -> kx (w_ks w) ks -> (forall b h, hnd b x = Some h -> bw_same (hnd b (cli w c)) (Some h)) ->
  HI (setc (w <| w_ks := ks |>) c x).
Proof.
  intros H K G. apply (HI_quiet w _ c H); [intros c' N; rewrite cli_setc_other by exact N; reflexivity|exact K|reflexivity|reflexivity|].
  intros b h E. destruct (setc_any (w <| w_ks := ks |>) c x) as [X|X]; rewrite X in E; [apply G, E|]. change (cli (w <| w_ks := ks |>) c) with (cli w c) in E. rewrite E. apply bw_same_refl.
Qed.
Lemma HI_setc0 w c x : HI w -> (forall b h, hnd b x = Some h -> bw_same (hnd b (cli w c)) (Some h)) -> HI (setc w c x).
Proof. intros H G. pose proof (HI_setc w (w_ks w) c x H (kx_refl _) G) as R. destruct w; exact R. Qed.
Lemma id_hnd a b : same_id a b -> forall d h, hnd d b = Some h -> bw_same (hnd d a) (Some h).
Proof. intros I d h E. rewrite <- E. destruct d; apply I. Qed.
Lemma bw_same_id a b : c_w2r b = c_w2r a -> c_r2w b = c_r2w a -> forall d h, hnd d b = Some h -> bw_same (hnd d a) (Some h).
Proof. intros E1 E2 d h E. rewrite <- E. destruct d; cbn [hnd]; rewrite ?E1, ?E2; apply bw_same_refl. Qed.

Lemma resume_hnd cl d : hnd d (resume cl) = hnd d cl.
Proof. unfold resume. destruct (c_pc cl); destruct d; reflexivity. Qed.
Theorem HI_free w a w' ev : unlocked a -> HI w -> step w a = Ok (w', ev) -> HI w'.
Proof.
  intros Un H St. apply step_inv in St.
  assert (RI : forall w1 c x, w_ks w1 = w_ks w -> w_w2r w1 = w_w2r w -> w_r2w w1 = w_r2w w -> w_cl w1 = w_cl w ->
    (forall b h, hnd b x = Some h -> bw_same (hnd b (cli w c)) (Some h)) -> HI (setc w1 c x)).
  { intros w1 c x E1 E2 E3 E4 G. assert (EC : forall c', cli w1 c' = cli w c') by (intros c'; unfold cli; rewrite E4; reflexivity).
    apply (HI_quiet w _ c H).
    - intros c' N. rewrite cli_setc_other by exact N. apply EC.
    - change (w_ks (setc w1 c x)) with (w_ks w1). rewrite E1. apply kx_refl.
    - exact E2.
    - exact E3.
    - intros b h E. destruct (setc_any w1 c x) as [X|X]; rewrite X in E; [apply G, E|]. rewrite EC in E. rewrite E. apply bw_same_refl. }
  destruct St as [a|e flags pid w' Eo|e flags pid w' cl Eo|c x cl' rs L Epc Ec|c e k iov len nb r cl' rs L Epc El Ew|c e k iov len n s p L Epc El|c e k iov len nb r1 hw ks bh hw' wok r2 rv cl' rs L Epc El
    |c e buf niov L Epc El|c e buf niov q md h ks k L Epc El|c e buf niov q md n s p L Epc El|c e buf niov q md x cur' hr r2w' ks1 bh1 ks2 k h L Epc El
    |c e w' L Epc El|c e ks h b cl' rs L Epc El|c e L Epc|c e reset r x L Epc Es|c e get st sz r x L Epc Ea|c sid polls Es Hp|a c sc k iov len nb cl' rs Ha Epc Ew|a c sc buf niov Ha Epc|c L];
    cbn [unlocked] in Un; try congruence; try exact H.
  - unfold do_open in Eo. rewrite Un in Eo. cbn [negb] in Eo. destruct (negb (validate_flags flags)); injection Eo as <-; exact H.
  - unfold do_open in Eo. rewrite Un in Eo. cbn [negb] in Eo. destruct (negb (validate_flags flags)); discriminate Eo.
  - apply HI_setc0; [exact H|]. apply id_hnd. eapply start_call_id; eassumption.
  - apply HI_setc0; [exact H|]. apply id_hnd. eapply end_write_id; eassumption.
  - apply HI_setc0; [exact H|]. apply bw_same_id; reflexivity.
  - destruct El as [->|(ks & h & El & _)]; [|congruence]. apply HI_setc0; [exact H|]. apply bw_same_id; reflexivity.
  - rewrite Un. apply HI_setc0; [exact H|]. intros d h E. destruct d; discriminate E.
  - apply RI; try reflexivity. apply bw_same_id; reflexivity.
  - apply RI; try reflexivity. apply bw_same_id; reflexivity.
  - apply HI_setc; [exact H|apply kx_upd; reflexivity|]. intros d h E. rewrite resume_hnd in E. rewrite E. apply bw_same_refl.
  - apply HI_setc0; [exact H|]. apply id_hnd. eapply end_write_id; eassumption.
  - apply HI_setc0; [exact H|]. apply bw_same_id; reflexivity.
  - apply HI_setc; [exact H|eapply kx_trans; apply drop_kx|]. apply bw_same_id; reflexivity.
Qed.

(** sections, as a whole *)
Lemma new_sk ks nm : (forall k, In k ks -> k_name k <> nm) -> forall s, (s < length ks)%nat -> k_name (sk ks s) <> nm.
Proof. intros H s L. apply H. unfold sk. apply nth_In, L. Qed.
Lemma body_ok w x home : HIw home w -> new_names w (act x) ->
  ok (body w x) (shared w) (JS (w_ks w) home) (match x with InCall c _ => Qr (w_ks w) home (cli w c) | InOpen _ _ _ => Qo (w_ks w) home end).
Proof.
  intros H N. pose proof (HI_JH _ _ H) as J. destruct x as [c e|e flags pid]; cbn [body act new_names] in *.
  - apply fsection_ok; [exact J|reflexivity|apply H|apply new_sk, N].
  - apply fopen_ok; [exact J|reflexivity|apply new_sk, N].
Qed.
Lemma HI_call w e c r m : HI w -> new_names w (ARun c e) -> exec_all (body w (InCall c e)) (shared w) = Ok (m, Ok r) ->
  (exists cl, fst r = Some cl) -> HI (fst (leave (with_shared w m) (InCall c e) r)).
Proof.
  intros [home H] N E [cl Ecl]. pose proof (proj2 (body_ok w (InCall c e) home H N) _ _ E) as (home' & J & G). destruct r as [o ev]. cbn [fst] in *. subst o. cbn [leave fst].
  apply (HI_upd home w _ c home'); [exact H|exact J|intros c' Nc; rewrite cli_setc_other by exact Nc; reflexivity|].
  destruct (setc_any (with_shared w m) c cl) as [X|X]; rewrite X.
  - exact (G _ _ eq_refl).
  - destruct J as (X1 & _ & _ & _ & K). apply (gh_same (w_ks w) home); [exact X1|exact K|apply H|reflexivity|reflexivity].
Qed.
Lemma HI_open w e flags pid r m : HI w -> new_names w (AOpen e flags pid) -> exec_all (body w (InOpen e flags pid)) (shared w) = Ok (m, Ok r) ->
  HI (fst (leave (with_shared w m) (InOpen e flags pid) r)).
Proof.
  intros [home H] N E. pose proof (proj2 (body_ok w (InOpen e flags pid) home H N) _ _ E) as (home' & J & G). destruct r as [o ev]. cbn [leave fst].
  assert (C : cli (with_shared w m) (length (w_cl w)) = client0) by (unfold cli; apply nth_overflow; cbn; lia).
  destruct o as [cl|]; cbn [fst].
  - apply (HI_add home w _ home'); [exact H|exact J| | |].
    + intros c' L. unfold cli. cbn. apply app_nth1, L.
    + cbn. rewrite app_length. cbn. lia.
    + assert (Ec : cli (with_shared w m <| w_cl := w_cl (with_shared w m) ++ [cl] |>) (length (w_cl w)) = cl) by (unfold cli; cbn; rewrite app_nth2, Nat.sub_diag by lia; reflexivity).
      rewrite Ec. exact (G _ _ eq_refl).
  - apply (HI_add home w _ home'); [exact H|exact J|reflexivity|cbn; lia|]. rewrite C. split; [intros b h Eh; destruct b; discriminate Eh|left; exact I].
Qed.
Lemma close_new_kx n ks : kx ks (close_new n ks) /\ length (close_new n ks) = length ks.
Proof.
  assert (E : close_new n ks = map (fun k => k) (firstn n ks) ++ map (fun k => k <| k_open := false |>) (skipn n ks)) by (rewrite map_id; reflexivity).
  assert (L : length (close_new n ks) = length ks) by (rewrite E, app_length, !map_length, <- app_length, firstn_skipn; reflexivity).
  split; [|exact L]. split; [lia|]. intros s Hs.
  assert (Em : map k_name (close_new n ks) = map k_name ks).
  { unfold close_new. rewrite map_app, map_map. rewrite <- (firstn_skipn n ks) at 3. rewrite map_app. f_equal. }
  unfold sk. rewrite <- (map_nth k_name), Em, (map_nth k_name). reflexivity.
Qed.
Lemma HI_die home w m x line : HIw home w -> JS (w_ks w) home m -> HI (fst (die w (with_shared w m) x line)).
Proof.
  intros H (home' & X & U & N & S & K). 
  assert (JK : forall ks, kx (sh_ks m) ks -> forall w', w_w2r w' = sh_w2r m -> w_r2w w' = sh_r2w m -> w_ks w' = ks -> JH (w_ks w) home home' (shared w')).
  { intros ks Kk w' E1 E2 E3. split; [exact X|]. split; [exact U|]. cbn [shared sh_ks]. rewrite E3. split; [apply (named_kx _ _ _ Kk), N|]. split; [|eapply kx_trans; eassumption].
    intros b. specialize (S b). destruct b; cbn [KillBwInv.hd shared sh_w2r sh_r2w]; rewrite ?E1, ?E2; exact S. }
  pose proof (proj1 (close_new_kx (length (w_ks w)) (sh_ks m))) as KC.
  destruct x as [c e|e flags pid]; cbn [die fst].
  - set (ks := drop_sock _ _). assert (Kk : kx (sh_ks m) ks) by (eapply kx_trans; [eapply kx_trans; [exact KC|apply drop_kx]|apply drop_kx]).
    apply (HI_upd home w _ c home'); [exact H|apply (JK ks); [exact Kk|reflexivity|reflexivity|reflexivity]| |].
    + intros c' Nc. rewrite cli_setc_other by exact Nc. reflexivity.
    + destruct (setc_any (with_shared w m <| w_ks := ks |>) c (cli (with_shared w m) c <| c_live := false |> <| c_pc := Idle |>)) as [Ex|Ex]; rewrite Ex;
        (apply (gh_same (w_ks w) home); [exact X|eapply kx_trans; eassumption|apply H|reflexivity|reflexivity]).
  - apply (HI_upd home w _ 0 home'); [exact H|apply (JK (close_new (length (w_ks w)) (sh_ks m))); [exact KC|reflexivity|reflexivity|reflexivity]|reflexivity|].
    apply (gh_same (w_ks w) home); [exact X|eapply kx_trans; eassumption|apply H|reflexivity|reflexivity].
Qed.
