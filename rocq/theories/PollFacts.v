(** * shr_ctl(SHR_POLLFD) (C36). *)
From Verif Require Export InitFacts.

Definition hp (h : option bwt) : list Z := match h with Some (Wait _ _ p) => p | _ => [] end.
(** the descriptors the blocking calls of a handle monitor *)
Definition mon (cl : client) : list Z := if has (c_flags cl) SHR_RDONLY then hp (c_w2r cl) else hp (c_r2w cl).

Definition noret (c : nat) (ev : list event) : Prop := ~ In (ERet c (RetInt 0)) ev.
Lemma reg_app c fd evs ev : noret c ev -> (registered c fd (evs ++ ev) <-> registered c fd evs).
Proof.
  intros N. split.
  - intros (pre & post & E & Pd). revert pre E Pd. 
    destruct (le_lt_dec (length evs) (length post)) as [_|_];
    intros pre E Pd;
    (destruct (le_lt_dec (length evs) (length pre)) as [L|L];
     [exfalso; apply N; assert (E' := f_equal (skipn (length evs)) E); rewrite skipn_app, skipn_all, Nat.sub_diag in E'; cbn [skipn app] in E';
      rewrite E', skipn_app; apply in_or_app; right; replace (length evs - length pre)%nat with O by lia; left; reflexivity
     |]).
    all: assert (E' := f_equal (firstn (length evs)) E); rewrite firstn_app, firstn_all, Nat.sub_diag in E'; cbn [firstn] in E'; rewrite app_nil_r in E';
      rewrite firstn_app, firstn_all2 in E' by lia;
      replace (length evs - length pre)%nat with (S (length evs - length pre - 1)) in E' by lia; cbn [firstn] in E';
      eexists pre, _; split; [exact E'|exact Pd].
  - intros (pre & post & -> & Pd). exists pre, (post ++ ev). split; [rewrite <- app_assoc; reflexivity|exact Pd].
Qed.
Lemma noret_rets c rs : (forall x, In x rs -> x <> RetInt 0) -> noret c (rets c rs).
Proof. intros H Hi. apply in_rets in Hi. destruct Hi as [_ Hi]. apply (H _ Hi). reflexivity. Qed.
Lemma noret_other c c' ev : c' <> c -> Forall (tagged c) ev -> noret c' ev.
Proof. intros N T Hi. rewrite Forall_forall in T. specialize (T _ Hi). cbn in T. congruence. Qed.

Definition same_h (a b : client) : Prop := c_w2r b = c_w2r a /\ c_r2w b = c_r2w a.
Lemma go_write_h cl iov len cl' rs : go_write cl iov len = Ok (cl', rs) -> same_h cl cl'.
Proof.
  unfold go_write.
  destruct (has (c_flags cl) SHR_BUFFERED); [|intros H; inj H; split; reflexivity].
  destruct (_ && _).
  - intros H. apply obind_ok in H. destruct H as (ca & _ & H). inj H. split; reflexivity.
  - destruct (ca_n (c_cache cl) =? 0); [intros H; inj H; split; reflexivity|].
    intros H. apply obind_ok in H. destruct H as (ms & _ & H).
    destruct (wr_check _ _ _); inj H; split; reflexivity.
Qed.
Lemma end_write_h cl k iov v cl' rs : end_write cl k iov v = Ok (cl', rs) -> same_h cl cl'.
Proof.
  destruct k; cbn [end_write]; intros H; try (inj H; split; reflexivity).
  destruct (v <=? 0); [inj H; split; reflexivity|]. apply go_write_h in H. exact H.
Qed.
Lemma flush_write_h cl k nb cl' rs : flush_write cl k nb = Ok (cl', rs) -> same_h cl cl'.
Proof.
  unfold flush_write. intros H. apply obind_ok in H. destruct H as (ms & _ & H).
  destruct (wr_check _ _ _); [inj H; split; reflexivity|]. destruct k; inj H; split; reflexivity.
Qed.
Lemma start_call_h cl x cl' rs : start_call cl x = Ok (cl', rs) -> (forall fd, x <> CCtl fd) -> same_h cl cl'.
Proof.
  destruct x as [buf niov|iov|wait| |reset|reset|get st sz|fd| ]; cbn [start_call]; intros H N.
  - destruct (has _ _); [|discriminate]. destruct (_ || _); inj H; split; reflexivity.
  - unfold start_write in H. destruct (has _ _); [|discriminate].
    destruct (wr_check _ _ _); [apply go_write_h in H; exact H|inj H; split; reflexivity].
  - unfold start_flush in H. destruct (has _ _); [|discriminate].
    destruct (_ =? _); [inj H; split; reflexivity|].
    destruct (_ && _); [destruct (c_r2w cl)|]; try (apply flush_write_h in H; exact H). inj H; split; reflexivity.
  - unfold start_close in H. destruct (_ =? _); [inj H; split; reflexivity|].
    destruct (has _ _); [|discriminate]. apply flush_write_h in H; exact H.
  - inj H; split; reflexivity.
  - unfold do_farm_stat in H. destruct (has _ _); [|discriminate]. cbn [obind] in H. inj H. destruct reset; split; reflexivity.
  - inj H; split; reflexivity.
  - elim (N fd). reflexivity.
  - inj H; split; reflexivity.
Qed.

(** what shr_ctl does to the monitored descriptors *)
Lemma ctl_mon cl fd cl' v : has (c_flags cl) SHR_RDONLY = negb (has (c_flags cl) SHR_WRONLY) ->
  (has (c_flags cl) SHR_WRONLY = true -> c_r2w cl = None \/ is_wait (c_r2w cl)) ->
  (has (c_flags cl) SHR_RDONLY = true -> is_wait (c_w2r cl)) ->
  do_ctl cl fd = Ok (cl', v) ->
  c_live cl' = c_live cl /\ c_flags cl' = c_flags cl /\ c_pc cl' = c_pc cl
  /\ (In fd (mon cl) /\ v = -1 /\ mon cl' = mon cl
      \/ ~ In fd (mon cl) /\ v = 0 /\ mon cl' = fd :: mon cl
      \/ v = 0 /\ has (c_flags cl) SHR_WRONLY = true /\ c_r2w cl = None /\ mon cl' = [] /\ mon cl = []).
Proof.
  intros HR HW HRd. unfold do_ctl, mon.
  assert (EX : forall p, existsb (Z.eqb fd) p = true <-> In fd p).
  { intros p. rewrite existsb_exists. split; [intros (x & Hx & E); apply Z.eqb_eq in E; subst; exact Hx|intros Hx; exists fd; split; [exact Hx|apply Z.eqb_refl]]. }
  destruct (has (c_flags cl) SHR_WRONLY) eqn:Hw; cbn [negb] in HR; rewrite HR.
  - destruct (HW eq_refl) as [Hn|(n & s & p & Hn)]; rewrite Hn.
    + cbn [obind]. rewrite HR. cbn [obind]. intros H. injection H as <- <-. rewrite HR, Hn. cbn [hp]. repeat (split; [reflexivity|]). right. right. auto.
    + cbn [obind bw_ctl hp]. destruct (existsb (Z.eqb fd) p) eqn:E; cbn [obind].
      * cbn [c_flags set]. rewrite HR. cbn [obind]. intros H. injection H as <- <-. cbn [c_flags c_r2w set hp c_live c_pc]. rewrite HR. repeat (split; [reflexivity|]).
        left. split; [apply EX; exact E|auto].
      * cbn [c_flags set]. rewrite HR. cbn [obind]. intros H. injection H as <- <-. cbn [c_flags c_r2w set hp c_live c_pc]. rewrite HR. repeat (split; [reflexivity|]).
        right. left. split; [rewrite <- EX; congruence|auto].
  - cbn [obind]. rewrite HR. destruct (HRd HR) as (n & s & p & Hn); rewrite Hn.
    cbn [obind bw_ctl hp]. destruct (existsb (Z.eqb fd) p) eqn:E; cbn [obind]; intros H; injection H as <- <-; cbn [c_flags c_w2r set hp c_live c_pc]; rewrite HR; repeat (split; [reflexivity|]).
    + left. split; [apply EX; exact E|auto].
    + right. left. split; [rewrite <- EX; congruence|auto].
Qed.

Lemma open_wait_nopolls e ks h pid name ks' h' b : bw_open_wait e ks h pid name = (ks', h', Some b) -> hp (Some b) = [].
Proof.
  unfold bw_open_wait. destruct (negb (e_alloc e)); [discriminate|]. destruct (find_free _ _); [|discriminate].
  destruct (if e_bind e then _ else _); [discriminate|]. destruct (e_self e); [|discriminate]. intros H. injection H as _ _ <-. reflexivity.
Qed.
Lemma do_open_mon e w flags pid w' cl : has flags SHR_RDONLY && has flags SHR_WRONLY = false -> do_open e w flags pid = Ok (w', Some cl) -> mon cl = [].
Proof.
  intros HX H. unfold do_open in H. destruct (negb (validate_flags flags)); [discriminate|]. destruct (negb (e_lock e)); [discriminate|].
  destruct (_ <? 0); [discriminate|]. destruct (_ && negb (e_alloc e)); [discriminate|].
  apply obind_ok in H. destruct H as ([w1 hs] & E & H). destruct hs as [[a b]|]; [|discriminate].
  destruct (init_cache _ _ _); [|discriminate]. destruct (shr_sync _ _); [|discriminate]. injection H as _ <-.
  unfold mon. cbn [c_flags c_w2r c_r2w]. unfold open_blockwake in E.
  destruct (has flags SHR_RDONLY) eqn:Hr; cbn [andb] in HX.
  - rewrite HX in E. destruct (bw_open_wait e (w_ks w) (w_w2r w) pid (e_name e)) as [[ks h1] a1] eqn:E1.
    destruct (bw_open_wake _ _ _) as [h2 b1]. destruct a1 as [x|]; [|discriminate]. destruct b1 as [y|]; [|discriminate].
    apply obind_ok in E. destruct E as ([w2 st] & E2 & E). apply obind_ok in E2. destruct E2 as ([ks2 ok] & _ & E2).
    destruct ok; injection E2 as <- <-; [|discriminate]. injection E as _ <- <-. apply (open_wait_nopolls _ _ _ _ _ _ _ _ E1).
  - cbn [obind] in E. destruct (has flags SHR_WRONLY); [|injection E as _ <- <-; reflexivity].
    destruct (bw_open_wake _ _ _) as [h1 a1]. destruct a1 as [x|]; [|discriminate].
    destruct (_ && _); [|injection E as _ <- <-; reflexivity].
    destruct (bw_open_wait e _ _ pid (e_name e)) as [[ks2 h2] b'] eqn:E1. destruct b' as [y|]; [|discriminate].
    injection E as _ <- <-. apply (open_wait_nopolls _ _ _ _ _ _ _ _ E1).
Qed.

Record POLL (w : world) (evs : list event) : Prop := mkPOLL {
  po_bound : forall c fd, registered c fd evs -> (c < length (w_cl w))%nat;
  po_reg : forall c fd, c_live (cli w c) = true -> In fd (mon (cli w c)) -> registered c fd evs;
  po_in : forall c fd, c_live (cli w c) = true -> waits w c -> registered c fd evs -> In fd (mon (cli w c)) }.

Lemma POLL_setc w w1 evs ev c cl' : POLL w evs -> w_cl w1 = w_cl w -> (c < length (w_cl w))%nat ->
  r_drop (w_ring w1) = r_drop (w_ring w) ->
  Forall (tagged c) ev -> noret c ev ->
  (c_live cl' = true -> c_live (cli w c) = true /\ c_flags cl' = c_flags (cli w c) /\ mon cl' = mon (cli w c)) ->
  POLL (setc w1 c cl') (evs ++ ev).
Proof.
  intros [P1 P2 P3] E L Hd T N HC.
  assert (NR : forall c', noret c' ev). { intros c'. destruct (Nat.eq_dec c' c) as [->|Hn]; [exact N|]. apply (noret_other c); assumption. }
  assert (EC : forall c', c' <> c -> cli (setc w1 c cl') c' = cli w c').
  { intros c' Hn. rewrite cli_setc_other by exact Hn. unfold cli. rewrite E. reflexivity. }
  assert (ES : cli (setc w1 c cl') c = cl') by (apply cli_setc_same; rewrite E; exact L).
  constructor.
  - intros c' fd H. apply (proj1 (reg_app _ _ _ _ (NR c'))) in H. cbn [w_cl setc set]. rewrite length_set_nat, E. apply (P1 _ _ H).
  - intros c' fd Hl Hi. apply (proj2 (reg_app _ _ _ _ (NR c'))). destruct (Nat.eq_dec c' c) as [->|Hn].
    + rewrite ES in Hl, Hi. destruct (HC Hl) as (H1 & H2 & H3). rewrite H3 in Hi. apply P2; assumption.
    + rewrite EC in Hl, Hi by exact Hn. apply P2; assumption.
  - intros c' fd Hl Hw H. apply (proj1 (reg_app _ _ _ _ (NR c'))) in H. unfold waits in Hw. cbn [w_ring setc set] in Hw. rewrite Hd in Hw.
    destruct (Nat.eq_dec c' c) as [->|Hn].
    + rewrite ES in *. destruct (HC Hl) as (H1 & H2 & H3). rewrite H3. rewrite H2 in Hw. apply P3; assumption.
    + rewrite EC in * by exact Hn. apply P3; assumption.
Qed.

Lemma end_write_noint cl k iov v cl' rs x : end_write cl k iov v = Ok (cl', rs) -> In x rs -> x <> RetInt 0.
Proof.
  intros H Hi. apply end_write_ret in H. destruct H as [->|(y & -> & H)]; [destruct Hi|]. destruct Hi as [->|[]].
  destruct k; try (rewrite H; discriminate); [destruct H as [? ->]; discriminate|contradiction].
Qed.
Lemma mon_same cl cl' : same_h cl cl' -> c_flags cl' = c_flags cl -> mon cl' = mon cl.
Proof. intros [A B] E. unfold mon. rewrite A, B, E. reflexivity. Qed.

Lemma step_POLL w0 w evs a w' ev : WI w0 w evs -> PI w evs -> WI w0 w' (evs ++ ev) -> contract w a ->
  step w a = Ok (w', ev) -> POLL w evs -> POLL w' (evs ++ ev).
Proof.
  intros W HP W' HC HS HQ. pose proof (wi_ring _ _ _ W) as I.
  assert (HD : r_drop (w_ring w') = r_drop (w_ring w)).
  { rewrite (same_dims_drop _ _ (wi_dims _ _ _ W')), (same_dims_drop _ _ (wi_dims _ _ _ W)). reflexivity. }
  pose proof (step_inv _ _ _ _ HS) as SI. clear HS.
  destruct SI as
   [ a
   | e flags pid w' E
   | e flags pid w' cl E
   | c1 x cl' rs Hl Hpc E
   | c1 e k iov len nb v cl' rs Hl Hpc Hv E
   | c1 e k iov len n s p Hl Hpc He E Er
   | c1 e k iov len nb r1 hw ks bh hw' wok r2 rv cl' rs Hl Hpc He E Ew Eb E2 Ev Ee
   | c1 e buf niov Hl Hpc He
   | c1 e buf niov q md h ks ok Hl Hpc He Hnb E Eh Ef
   | c1 e buf niov q md n s p Hl Hpc He Hnb E Eh
   | c1 e buf niov q md x cur' hr r2w' ks1 bh1 ks2 ok h Hl Hpc He E Eh Er Hn0 Hn1 Ef
   | c1 e w' Hl Hpc Hw'
   | c1 e ks h b cl' rs Hl Hpc He E Ee
   | c1 e Hl Hpc
   | c1 e reset r x Hl Hpc E
   | c1 e get st sz r x Hl Hpc E
   | c1 sid polls Hs Hp
   | a c1 sc k iov len nb cl' rs Ha Hpc E
   | a c1 sc buf niov Ha Hpc
   | c1 Hl ].
  all: try (pose proof (live_bound _ _ Hl) as LB; destruct (wi_cl _ _ _ W c1 Hl) as [ms C]; pose proof (ci_pc _ _ _ _ C) as P; unfold pc_ok in P; rewrite ?Hpc in P).
  all: try (assert (LB : (c1 < length (w_cl w))%nat) by (apply pc_bound; rewrite Hpc; discriminate)).
  all: try (apply (POLL_setc w); [exact HQ|reflexivity|exact LB|exact HD|repeat constructor|intros Hx; cbn in Hx; intuition discriminate|intros H; repeat split; exact H || exact Hl]; fail).
  - rewrite app_nil_r. exact HQ.
  - (* open_fail *)
    destruct (do_open_ok e w flags pid _ I HC) as (w1 & o & E' & E1 & E2 & E3 & _). rewrite E in E'. injection E' as <- <-.
    destruct HQ as [P1 P2 P3].
    assert (N : forall c, noret c [EOpen flags None]) by (intros c [H|[]]; discriminate).
    constructor; intros c fd; rewrite (reg_app _ _ _ _ (N c)); unfold waits, cli; rewrite E2, ?HD; [apply P1|apply P2|apply P3].
  - (* open *)
    destruct (do_open_ok e w flags pid _ I HC) as (w1 & o & E' & E1 & E2 & E3 & Ho). rewrite E in E'. injection E' as <- <-.
    destruct HQ as [P1 P2 P3]. set (N0 := length (w_cl w')).
    assert (N : forall c, noret c [EOpen flags (Some N0)]) by (intros c [H|[]]; discriminate).
    assert (CL : forall c, (cli (w' <| w_cl := w_cl w' ++ [cl] |>) c = cli w c /\ (c < length (w_cl w))%nat)
       \/ (c = length (w_cl w) /\ cli (w' <| w_cl := w_cl w' ++ [cl] |>) c = cl)
       \/ c_live (cli (w' <| w_cl := w_cl w' ++ [cl] |>) c) = false).
    { intros c. unfold cli. cbn [w_cl set]. rewrite E2. destruct (lt_eq_lt_dec c (length (w_cl w))) as [[Hlt|Heq]|Hgt].
      - left. rewrite app_nth1 by exact Hlt. auto.
      - right. left. subst c. rewrite app_nth2, Nat.sub_diag by lia. auto.
      - right. right. rewrite nth_overflow; [reflexivity|]. rewrite app_length. cbn. lia. }
    pose proof HC as (_ & _ & HX). pose proof (do_open_mon _ _ _ _ _ _ HX E) as M.
    constructor; intros c fd; rewrite (reg_app _ _ _ _ (N c)).
    + intros H. cbn [w_cl set]. rewrite app_length, E2. specialize (P1 _ _ H). lia.
    + intros Hl Hi. destruct (CL c) as [[Ec _]|[[-> Ec]|Ec]].
      * rewrite Ec in *. apply P2; assumption.
      * rewrite Ec, M in Hi. destruct Hi.
      * congruence.
    + intros Hl Hw Hr. destruct (CL c) as [[Ec _]|[[-> Ec]|Ec]].
      * unfold waits in Hw. rewrite Ec, HD in Hw. rewrite Ec in *. apply P3; assumption.
      * apply P1 in Hr. lia.
      * congruence.
  - (* call *)
    destruct (start_call_id _ _ _ _ E) as [ID _].
    destruct x as [buf niov|iov|wait| |reset|reset|get st sz|fd| ];
      [ | | | | | | | |]; try (
      apply (POLL_setc w); [exact HQ|reflexivity|exact LB|reflexivity|constructor; [reflexivity|apply tagged_rets]| |];
      [intros [H|H]; [discriminate|]; apply in_rets in H; destruct H as [_ H]; apply start_call_ret in E; destruct E as [->|(y & -> & E)];
       [destruct H|destruct H as [->|[]]; exact E]
      |intros _; split; [exact Hl|]; split; [apply (id_flags _ _ ID)|]; apply mon_same; [apply (start_call_h _ _ _ _ E); discriminate|apply (id_flags _ _ ID)]]; fail).
    cbn [start_call] in E. apply obind_ok in E. destruct E as ([cl1 v] & E & H). injection H as <- <-.
    assert (CW : has (c_flags (cli w c1)) SHR_WRONLY = true -> c_r2w (cli w c1) = None \/ is_wait (c_r2w (cli w c1))) by (intros H; apply (ci_wr _ _ _ _ C H)).
    assert (CR : has (c_flags (cli w c1)) SHR_RDONLY = true -> is_wait (c_w2r (cli w c1))) by (intros H; apply (ci_rd _ _ _ _ C H)).
    destruct (ctl_mon _ _ _ _ (ci_role _ _ _ _ C) CW CR E) as (L1 & L2 & L3 & [(K1 & -> & K2)|K]).
    + apply (POLL_setc w); [exact HQ|reflexivity|exact LB|reflexivity|repeat constructor| |].
      * intros [H|[H|[]]]; discriminate.
      * intros _. auto.
    + assert (v = 0) as -> by (destruct K as [(_ & -> & _)|(-> & _)]; reflexivity).
      change (rets c1 [RetInt 0]) with [ERet c1 (RetInt 0)].
      assert (PD : pending c1 (evs ++ [ECall c1 (CCtl fd)]) = Some (CCtl fd)).
      { unfold pending. rewrite fold_left_app. cbn. rewrite is_refl. reflexivity. }
      assert (RG : forall c fd', registered c fd' (evs ++ [ECall c1 (CCtl fd); ERet c1 (RetInt 0)]) <-> registered c fd' evs \/ (c = c1 /\ fd' = fd)).
      { intros c fd'. change (evs ++ [ECall c1 (CCtl fd); ERet c1 (RetInt 0)]) with (evs ++ [ECall c1 (CCtl fd)] ++ [ERet c1 (RetInt 0)]).
        rewrite app_assoc. split.
        - intros (pre & post & Eq & Pd). destruct (list_eq_dec Nat.eq_dec [] []); [|contradiction].
          destruct post as [|z post] using rev_ind.
          + apply app_inj_tail in Eq. destruct Eq as [<- Eq]. injection Eq as ->. rewrite PD in Pd. right. split; congruence.
          + rewrite app_comm_cons, app_assoc in Eq. apply app_inj_tail in Eq. destruct Eq as [Eq _]. left.
            apply (proj1 (reg_app c fd' evs [ECall c1 (CCtl fd)] ltac:(intros [H|[]]; discriminate))). exists pre, post. auto.
        - intros [(pre & post & -> & Pd)|[-> ->]].
          + exists pre, (post ++ [ECall c1 (CCtl fd); ERet c1 (RetInt 0)]). split; [rewrite <- !app_assoc; reflexivity|exact Pd].
          + exists (evs ++ [ECall c1 (CCtl fd)]), []. auto. }
      destruct HQ as [P1 P2 P3]. pose proof (cli_setc_same w c1 cl1 LB) as ES.
      constructor; intros c fd'; rewrite RG.
      * cbn [w_cl setc set]. rewrite length_set_nat. intros [H|[-> _]]; [apply (P1 _ _ H)|exact LB].
      * intros Hl' Hi. destruct (Nat.eq_dec c c1) as [->|Hn].
        { rewrite ES in *. destruct K as [(_ & _ & K)|(_ & _ & _ & K & _)]; rewrite K in Hi; [|destruct Hi].
          destruct Hi as [->|Hi]; [auto|]. left. apply P2; assumption. }
        { rewrite cli_setc_other in * by exact Hn. left. apply P2; assumption. }
      * intros Hl' Hw Hr. destruct (Nat.eq_dec c c1) as [->|Hn].
        { unfold waits in Hw. rewrite ES in *. cbn [w_ring setc set] in Hw. rewrite L2 in Hw.
          destruct K as [(_ & _ & K)|(_ & K0 & K1 & _)].
          - rewrite K. destruct Hr as [Hr|[_ ->]]; [right; apply P3; assumption|left; reflexivity].
          - exfalso. destruct Hw as [Hw|[Hw Hd]].
            + rewrite (ci_role _ _ _ _ C), K0 in Hw. discriminate.
            + destruct (ci_wb _ _ _ _ C K0 Hw Hd) as (? & ? & ? & Hq). congruence. }
        { unfold waits in Hw. rewrite cli_setc_other in * by exact Hn. destruct Hr as [Hr|[Hr _]]; [apply P3; assumption|contradiction]. }
  - (* write_fail *)
    apply (POLL_setc w); [exact HQ|reflexivity|exact LB|reflexivity|apply tagged_rets|apply noret_rets; intros y; apply (end_write_noint _ _ _ _ _ _ _ E)|].
    intros _. destruct (end_write_id _ _ _ _ _ _ E) as [ID _]. split; [exact Hl|]. split; [apply (id_flags _ _ ID)|].
    apply mon_same; [apply (end_write_h _ _ _ _ _ _ E)|apply (id_flags _ _ ID)].
  - (* commit *)
    apply (POLL_setc w); [exact HQ|reflexivity|exact LB|exact HD|constructor; [reflexivity|apply tagged_rets]| |].
    + intros [H|H]; [discriminate|]. revert H. apply noret_rets; intros y; apply (end_write_noint _ _ _ _ _ _ _ Ee).
    + intros _. destruct (end_write_id _ _ _ _ _ _ Ee) as [ID _]. pose proof (id_flags _ _ ID) as IF. cbn [c_flags set] in IF. split; [exact Hl|]. split; [exact IF|].
      rewrite (mon_same _ _ (end_write_h _ _ _ _ _ _ Ee) (id_flags _ _ ID)). unfold mon. cbn [c_flags c_w2r c_r2w set].
      destruct P as (Hw & _). rewrite (ci_role _ _ _ _ C), Hw. reflexivity.
  - (* read *)
    apply (POLL_setc w); [exact HQ|reflexivity|exact LB|exact HD|repeat constructor|intros [H|[]]; discriminate|].
    intros _. split; [exact Hl|]. split; [reflexivity|]. unfold mon. cbn [c_flags c_w2r c_r2w set]. destruct P as (Hr & _). rewrite Hr. reflexivity.
  - (* r2w_fail *)
    apply (POLL_setc w); [exact HQ| |exact LB|exact HD|repeat constructor|intros [H|[]]; discriminate|intros _; auto].
    destruct Hw' as [->|(ks & h & _ & _ & ->)]; reflexivity.
  - (* r2w *)
    destruct (flush_write_id _ _ _ _ _ Ee) as [ID _]. pose proof (id_flags _ _ ID) as IF. cbn [c_flags set] in IF.
    apply (POLL_setc w); [exact HQ|reflexivity|exact LB|exact HD|apply tagged_rets| |].
    + apply noret_rets. intros y Hy. apply flush_write_ret in Ee. destruct Ee as [->|(_ & v & ->)]; [destruct Hy|]. destruct Hy as [<-|[]]. discriminate.
    + intros _. split; [exact Hl|]. split; [exact IF|].
      rewrite (mon_same _ _ (flush_write_h _ _ _ _ _ Ee) (id_flags _ _ ID)). unfold mon. cbn [c_flags c_w2r c_r2w set].
      destruct P as (Hw & _ & Hn). rewrite (ci_role _ _ _ _ C), Hw, Hn. cbn [negb]. apply (open_wait_nopolls _ _ _ _ _ _ _ _ E).
  - (* close *)
    apply (POLL_setc w); [exact HQ| |exact LB|exact HD|repeat constructor|intros [H|[]]; discriminate|discriminate].
    destruct (e_lock e); [apply close_handles_cl|reflexivity].
  - (* stat *)
    apply (POLL_setc w); [exact HQ|reflexivity|exact LB|exact HD|repeat constructor| |intros _; auto].
    intros [H|[]]. injection H as H. unfold do_stat in E. destruct (negb (e_lock e)); injection E as _ E; congruence.
  - (* app *)
    apply (POLL_setc w); [exact HQ|reflexivity|exact LB|exact HD|repeat constructor| |intros _; auto].
    intros [H|[]]. injection H as H. apply do_app_ret in E. destruct E as (? & ? & ? & E). congruence.
  - (* wake *)
    assert (LB : (c1 < length (w_cl w))%nat).
    { apply pc_bound. unfold wait_sid in Hs. intros Hn. rewrite Hn in Hs. discriminate. }
    apply (POLL_setc w); [exact HQ|reflexivity|exact LB|exact HD|constructor|intros []|].
    intros H. unfold resume in *. destruct (c_pc (cli w c1)); auto.
  - (* waitfail w *)
    destruct (end_write_id _ _ _ _ _ _ E) as [ID _]. pose proof (id_flags _ _ ID) as IF. pose proof (id_live _ _ ID) as IL.
    apply (POLL_setc w); [exact HQ|reflexivity|exact LB|reflexivity|apply tagged_rets|apply noret_rets; intros y; apply (end_write_noint _ _ _ _ _ _ _ E)|].
    intros H. split; [congruence|]. split; [exact IF|].
    apply mon_same; [apply (end_write_h _ _ _ _ _ _ E)|exact IF].
Qed.

Lemma exec_POLL r w evs : reach contract r w evs -> POLL w evs.
Proof.
  intros (fsz & F & X & B). refine (exec_ind_inv contract r fsz (fun w evs => POLL w evs) id_contract F _ _ w evs X B).
  - constructor.
    + intros c fd (pre & post & E & _). destruct pre; discriminate.
    + intros c fd H. rewrite world0_cli in H. discriminate.
    + intros c fd H. rewrite world0_cli in H. discriminate.
  - intros w1 evs1 a w' ev X1 W HP W' HB Pa HS _ _ HQ. apply (step_POLL _ _ _ _ _ _ W HP W' Pa HS HQ).
Qed.

(** a sleeping writer has the handle it sleeps on *)
Definition notW (p : pc) : Prop := match p with WaitW _ _ _ _ => False | _ => True end.
Definition sleepW (w : world) (c : nat) : Prop :=
  match c_pc (cli w c) with WaitW _ _ _ nb => nb = false /\ r_drop (w_ring w) = false /\ is_wait (c_r2w (cli w c)) | _ => True end.
Lemma notW_sleep w c : notW (c_pc (cli w c)) -> sleepW w c.
Proof. unfold sleepW, notW. destruct (c_pc (cli w c)); tauto. Qed.
Lemma go_write_notW cl iov len cl' rs : go_write cl iov len = Ok (cl', rs) -> notW (c_pc cl').
Proof.
  unfold go_write. destruct (has (c_flags cl) SHR_BUFFERED); [|intros H; inj H; exact Logic.I].
  destruct (_ && _).
  - intros H. apply obind_ok in H. destruct H as (ca & _ & H). inj H. exact Logic.I.
  - destruct (ca_n (c_cache cl) =? 0); [intros H; inj H; exact Logic.I|].
    intros H. apply obind_ok in H. destruct H as (ms & _ & H). destruct (wr_check _ _ _); inj H; exact Logic.I.
Qed.
Lemma end_write_notW cl k iov v cl' rs : end_write cl k iov v = Ok (cl', rs) -> notW (c_pc cl').
Proof.
  destruct k; cbn [end_write]; intros H; try (inj H; exact Logic.I).
  destruct (v <=? 0); [inj H; exact Logic.I|]. apply go_write_notW in H. exact H.
Qed.
Lemma flush_write_notW cl k nb cl' rs : flush_write cl k nb = Ok (cl', rs) -> notW (c_pc cl').
Proof.
  unfold flush_write. intros H. apply obind_ok in H. destruct H as (ms & _ & H).
  destruct (wr_check _ _ _); [inj H; exact Logic.I|]. destruct k; inj H; exact Logic.I.
Qed.
Lemma start_call_notW cl x cl' rs : c_pc cl = Idle -> start_call cl x = Ok (cl', rs) -> notW (c_pc cl').
Proof.
  intros Hp. destruct x as [buf niov|iov|wait| |reset|reset|get st sz|fd| ]; cbn [start_call]; intros H.
  - destruct (has _ _); [|discriminate]. destruct (_ || _); inj H; [rewrite Hp|]; exact Logic.I.
  - unfold start_write in H. destruct (has _ _); [|discriminate].
    destruct (wr_check _ _ _); [apply go_write_notW in H; exact H|inj H; rewrite Hp; exact Logic.I].
  - unfold start_flush in H. destruct (has _ _); [|discriminate].
    destruct (_ =? _); [inj H; rewrite Hp; exact Logic.I|].
    destruct (_ && _); [destruct (c_r2w cl)|]; try (apply flush_write_notW in H; exact H). inj H; exact Logic.I.
  - unfold start_close in H. destruct (_ =? _); [inj H; exact Logic.I|].
    destruct (has _ _); [|discriminate]. apply flush_write_notW in H; exact H.
  - inj H; exact Logic.I.
  - unfold do_farm_stat in H. destruct (has _ _); [|discriminate]. cbn [obind] in H. inj H. destruct reset; cbn [c_pc set]; rewrite Hp; exact Logic.I.
  - inj H; exact Logic.I.
  - apply obind_ok in H. destruct H as ([cl1 v] & E & H). injection H as <- <-. unfold do_ctl in E.
    apply obind_ok in E. destruct E as ([cl2 sc1] & E1 & E). apply obind_ok in E. destruct E as ([cl3 sc2] & E2 & E). injection E as <- _.
    assert (S1 : c_pc cl2 = Idle).
    { destruct (has (c_flags cl) SHR_WRONLY); [|injection E1 as <- _; exact Hp]. destruct (c_r2w cl); [|injection E1 as <- _; exact Hp].
      apply obind_ok in E1. destruct E1 as ([b' ok] & _ & E1). injection E1 as <- _. exact Hp. }
    assert (S2 : c_pc cl3 = Idle).
    { destruct (has (c_flags cl2) SHR_RDONLY); [|injection E2 as <- _; exact S1]. destruct (c_w2r cl2); [|discriminate].
      apply obind_ok in E2. destruct E2 as ([b' ok] & _ & E2). injection E2 as <- _. exact S1. }
    rewrite S2. exact Logic.I.
  - inj H; rewrite Hp; exact Logic.I.
Qed.
Lemma step_sleepW w0 w evs a w' ev : WI w0 w evs -> WI w0 w' (evs ++ ev) -> contract w a -> stepI w a w' ev ->
  (forall c, sleepW w c) -> forall c, sleepW w' c.
Proof.
  intros W W' HC SI HQ c. pose proof (wi_ring _ _ _ W) as I.
  assert (HD : r_drop (w_ring w') = r_drop (w_ring w)).
  { rewrite (same_dims_drop _ _ (wi_dims _ _ _ W')), (same_dims_drop _ _ (wi_dims _ _ _ W)). reflexivity. }
  assert (GO : forall w1 c1 cl1, w' = setc w1 c1 cl1 -> w_cl w1 = w_cl w -> (c1 < length (w_cl w))%nat -> notW (c_pc cl1) -> sleepW w' c).
  { intros w1 c1 cl1 E E1 L N. subst w'. destruct (Nat.eq_dec c c1) as [->|Hn].
    - apply notW_sleep. rewrite cli_setc_same by (rewrite E1; exact L). exact N.
    - specialize (HQ c). unfold sleepW in *. rewrite cli_setc_other by exact Hn. rewrite HD. unfold cli in *. rewrite E1. exact HQ. }
  destruct SI as
   [ a
   | e flags pid w' E
   | e flags pid w' cl E
   | c1 x cl' rs Hl Hpc E
   | c1 e k iov len nb v cl' rs Hl Hpc Hv E
   | c1 e k iov len n s p Hl Hpc He E Er
   | c1 e k iov len nb r1 hw ks bh hw' wok r2 rv cl' rs Hl Hpc He E Ew Eb E2 Ev Ee
   | c1 e buf niov Hl Hpc He
   | c1 e buf niov q md h ks ok Hl Hpc He Hnb E Eh Ef
   | c1 e buf niov q md n s p Hl Hpc He Hnb E Eh
   | c1 e buf niov q md x cur' hr r2w' ks1 bh1 ks2 ok h Hl Hpc He E Eh Er Hn0 Hn1 Ef
   | c1 e w' Hl Hpc Hw'
   | c1 e ks h b cl' rs Hl Hpc He E Ee
   | c1 e Hl Hpc
   | c1 e reset r1 x Hl Hpc E
   | c1 e get st sz r1 x Hl Hpc E
   | c1 sid polls Hs Hp
   | a c1 sc k iov len nb cl' rs Ha Hpc E
   | a c1 sc buf niov Ha Hpc
   | c1 Hl ].
  all: try (pose proof (live_bound _ _ Hl) as LB).
  all: try (assert (LB : (c1 < length (w_cl w))%nat) by (apply pc_bound; rewrite Hpc; discriminate)).
  all: try (eapply GO; [reflexivity|reflexivity|exact LB|exact Logic.I]; fail).
  all: try (eapply GO; [reflexivity|reflexivity|exact LB|]; eapply end_write_notW; eassumption).
  - apply HQ.
  - destruct (do_open_ok e w flags pid _ I HC) as (w1 & o & E' & E1 & E2 & E3 & _). rewrite E in E'. injection E' as <- <-.
    specialize (HQ c). unfold sleepW, cli in *. rewrite E2, E1. exact HQ.
  - destruct (do_open_ok e w flags pid _ I HC) as (w1 & o & E' & E1 & E2 & E3 & Ho). rewrite E in E'. injection E' as <- <-.
    specialize (HQ c). unfold sleepW in *. rewrite HD. unfold cli in *. cbn [w_cl set]. rewrite E2.
    destruct (lt_eq_lt_dec c (length (w_cl w))) as [[Hlt|Heq]|Hgt].
    + rewrite app_nth1 by exact Hlt. exact HQ.
    + subst c. rewrite app_nth2, Nat.sub_diag by lia. cbn [nth].
      assert (Hpc : c_pc cl = Idle).
      { clear - E. unfold do_open in E. repeat match type of E with (if ?b then _ else _) = _ => destruct b; [discriminate|] end.
        apply obind_ok in E. destruct E as ([w1 hs] & _ & E). destruct hs as [[a b]|]; [|discriminate].
        destruct (init_cache _ _ _); [|discriminate]. destruct (shr_sync _ _); [|discriminate]. injection E as _ <-. reflexivity. }
      rewrite Hpc. exact Logic.I.
    + rewrite nth_overflow; [exact Logic.I|]. rewrite app_length. cbn. lia.
  - eapply GO; [reflexivity|reflexivity|exact LB|]. apply (start_call_notW _ _ _ _ Hpc E).
  - destruct (Nat.eq_dec c c1) as [->|Hn].
    + unfold sleepW. rewrite cli_setc_same by exact LB. cbn [c_pc set w_ring setc c_r2w]. split; [reflexivity|].
      split; [|exists n, s, p; exact Er]. destruct (wi_cl _ _ _ W c1 Hl) as [ms C]. pose proof (ci_pc _ _ _ _ C) as P. unfold pc_ok in P. rewrite Hpc in P.
      destruct P as (Hw & Hi & -> & _). rewrite (ci_mm _ _ _ _ C) in E.
      destruct (ring_write_total _ _ iov I Hi) as [(E' & Hd & _)|(r' & E' & _)]; [exact Hd|congruence].
    + specialize (HQ c). unfold sleepW in *. rewrite cli_setc_other by exact Hn. exact HQ.
  - eapply GO; [reflexivity| |exact LB|exact Logic.I]. destruct Hw' as [->|(ks & h & _ & _ & ->)]; reflexivity.
  - eapply GO; [reflexivity|reflexivity|exact LB|]. eapply flush_write_notW; eassumption.
  - eapply GO; [reflexivity| |exact LB|exact Logic.I]. destruct (e_lock e); [apply close_handles_cl|reflexivity].
  - eapply GO; [reflexivity|reflexivity| |]; unfold resume.
    + apply pc_bound. unfold wait_sid in Hs. intros Hn. rewrite Hn in Hs. discriminate.
    + destruct (c_pc (cli w c1)) as [ |? ? ? ?|? ? ? ?|? ?|? ?| | |?|g0 s0 z0] eqn:Ep; cbn [c_pc set]; try rewrite Ep; exact Logic.I.
Qed.

Lemma exec_sleepW r w evs c : reach contract r w evs -> sleepW w c.
Proof.
  intros (fsz & F & X & B). revert c. refine (exec_ind_inv contract r fsz (fun w evs => forall c, sleepW w c) id_contract F _ _ w evs X B).
  { intros c. unfold sleepW. rewrite world0_cli. exact Logic.I. }
  clear w evs X B. intros w evs a w' ev X W HP W' HB HC HS SI _ HQ. apply (step_sleepW _ _ _ _ _ _ W W' HC SI HQ).
Qed.

Lemma asleep_sid r w evs c : reach contract r w evs -> asleep w c = true ->
  c_live (cli w c) = true /\ exists s, wait_sid (cli w c) = Some (s, mon (cli w c)).
Proof.
  intros R H. pose proof (exec_sleepW r w evs c R) as SW. destruct (reach_inv _ _ _ _ id_contract R) as (fsz & F & X & B & W & HP & HB & SF & SD).
  assert (Hl : c_live (cli w c) = true).
  { destruct (c_live (cli w c)) eqn:E; [reflexivity|]. pose proof (wi_dead _ _ _ W c E) as D. unfold asleep in H. rewrite D in H. discriminate. }
  split; [exact Hl|]. destruct (wi_cl _ _ _ W c Hl) as [ms C]. pose proof (ci_pc _ _ _ _ C) as P. unfold pc_ok, asleep, sleepW, wait_sid, mon in *.
  destruct (c_pc (cli w c)) as [ |k iov len nb|k iov len nb|buf niov|buf niov| | | |]; try discriminate.
  - destruct P as (Hw & _). destruct SW as (_ & _ & n & s & p & E). rewrite (ci_role _ _ _ _ C), Hw, E. cbn [negb hp]. eauto.
  - destruct P as (Hr & _). destruct (ci_rd _ _ _ _ C Hr) as [(n & s & p & E) _]. rewrite Hr, E. cbn [hp]. eauto.
Qed.

Lemma existsb_in fd p : existsb (Z.eqb fd) p = true <-> In fd p.
Proof.
  rewrite existsb_exists. split; [intros (x & Hx & E); apply Z.eqb_eq in E; subst; exact Hx|].
  intros Hx. exists fd. split; [exact Hx|apply Z.eqb_refl].
Qed.
Lemma f_poll r w evs c fd : reach contract r w evs -> asleep w c = true -> waits w c -> registered c fd evs ->
  exists w' ev, step w (APoll c fd) = Ok (w', ev) /\ asleep w' c = false
    /\ (match pending c evs with
        | Some (CRead buf _) => ev = [ERet c (RetRead (-3) buf [])]
        | Some (CWrite iov) => ev = [ERet c (RetWrite iov (-3))]
        | Some (CFlush _) => ev = [ERet c (RetFlush (-3))]
        | Some CClose => ev = []
        | _ => False
        end)
    /\ w_ring w' = w_ring w /\ c_cache (cli w' c) = c_cache (cli w c) /\ c_q (cli w' c) = c_q (cli w c).
Proof.
  intros R Ha Hw Hr. destruct (asleep_sid _ _ _ _ R Ha) as [Hl (s & Es)]. pose proof (exec_POLL _ _ _ R) as [P1 P2 P3].
  destruct (reach_inv _ _ _ _ id_contract R) as (fsz & F & X & B & W & HP & HB & SF & SD).
  pose proof (P3 c fd Hl Hw Hr) as Hi. apply existsb_in in Hi. specialize (HP c). pose proof (live_bound _ _ Hl) as LB.
  cbn [step]. rewrite Es, Hi. unfold wait_failed, asleep in *.
  destruct (c_pc (cli w c)) as [ |k iov len nb|k iov len nb|buf niov|buf niov| | | |] eqn:Ep; try discriminate.
  - cbn [pc_for] in HP. destruct k as [|iov1 len1| |]; cbn [end_write] in *.
    + destruct HP as [-> _]. eexists _, _. split; [reflexivity|]. rewrite cli_setc_same by exact LB. repeat split; reflexivity.
    + destruct HP as [-> _]. change (-3 <=? 0) with true. cbn iota. eexists _, _. split; [reflexivity|]. rewrite cli_setc_same by exact LB. repeat split; reflexivity.
    + destruct HP as (wt & -> & _). change (-3 >? 0) with false. cbn iota. eexists _, _. split; [reflexivity|]. rewrite cli_setc_same by exact LB. repeat split; reflexivity.
    + destruct HP as [-> _]. change (-3 >? 0) with false. cbn iota. eexists _, _. split; [reflexivity|]. rewrite cli_setc_same by exact LB. repeat split; reflexivity.
  - cbn [pc_for] in HP. eexists _, _. split; [reflexivity|]. rewrite cli_setc_same by exact LB. rewrite HP. repeat split; reflexivity.
Qed.
Lemma f_poll_other r w evs c fd : reach contract r w evs -> ~ registered c fd evs -> step w (APoll c fd) = Ok (w, []).
Proof.
  intros R N. pose proof (exec_POLL _ _ _ R) as [P1 P2 P3]. cbn [step]. destruct (asleep w c) eqn:Ha.
  - destruct (asleep_sid _ _ _ _ R Ha) as [Hl (s & Es)]. rewrite Es. destruct (existsb (Z.eqb fd) (mon (cli w c))) eqn:E; [|reflexivity].
    apply existsb_in in E. elim N. apply P2; assumption.
  - unfold asleep, wait_sid in *. destruct (c_pc (cli w c)); try discriminate; reflexivity.
Qed.

Lemma rd_loop_nr : forall niov cur x y cur', rd_loop niov cur x = Ok (y, cur') -> 0 <= rd_nr x -> 0 <= rd_nr y.
Proof.
  induction niov as [|n IH]; intros cur x y cur' H Hx; cbn [rd_loop] in H; destruct cur as [sg|]; try (injection H as <- _; exact Hx).
  cbv zeta in H. destruct (_ >? _); [injection H as <- _; exact Hx|].
  apply obind_ok in H. destruct H as (a & _ & H). apply obind_ok in H. destruct H as (b & _ & H).
  apply obind_ok in H. destruct H as (b2 & _ & H). apply obind_ok in H. destruct H as ([r' q] & _ & H).
  apply obind_ok in H. destruct H as ([[q2 md] cur2] & _ & H). apply IH in H; [exact H|]. cbn [rd_nr].
  pose proof (u64_range (seg_l1 sg + seg_l2 sg)). lia.
Qed.
Lemma ring_read_nr r q md buf niov q' md' x cur : ring_read r q md buf niov = Ok (q', md', Some (x, cur)) -> 0 <= rd_nr x.
Proof.
  unfold ring_read. intros H. apply obind_ok in H. destruct H as ([[q1 md1] cur1] & _ & H). destruct cur1; [|discriminate].
  apply obind_ok in H. destruct H as ([y cur2] & E & H). injection H as _ _ <- _. cbn [rd_nr]. apply (rd_loop_nr _ _ _ _ _ E). cbn. lia.
Qed.
Lemma len_loop_nonneg : forall lens niov sn smm len x, len_loop lens niov sn smm len = Some x -> 0 <= len -> 0 <= x.
Proof.
  induction lens as [|l t IH]; intros niov sn smm len x H Hl; cbn [len_loop] in H; [injection H as <-; exact Hl|].
  cbv zeta in H. repeat match type of H with (if ?b then _ else _) = _ => destruct b; [discriminate|] end.
  apply IH in H; [exact H|]. apply u64_range.
Qed.
Lemma wr_check_nonneg lens sn smm x : wr_check lens sn smm = Some x -> 0 <= x.
Proof.
  unfold wr_check. destruct (len_loop _ _ _ _ _) eqn:E; [|discriminate]. destruct (_ =? 0); [discriminate|]. intros H. injection H as <-.
  apply (len_loop_nonneg _ _ _ _ _ _ E). lia.
Qed.
Lemma go_write_not3 cl iov len cl' rs y : 0 <= len -> go_write cl iov len = Ok (cl', rs) -> In y rs -> ret_code y <> Some (-3).
Proof.
  intros Hlen H Hi. unfold go_write in H. destruct (has (c_flags cl) SHR_BUFFERED); [|injection H as _ <-; destruct Hi].
  destruct (_ && _).
  - apply obind_ok in H. destruct H as (ca & _ & H). injection H as _ <-. destruct Hi as [<-|[]]. cbn. intros H. injection H as H. lia.
  - destruct (ca_n (c_cache cl) =? 0); [injection H as _ <-; destruct Hi|].
    apply obind_ok in H. destruct H as (ms & _ & H). destruct (wr_check _ _ _); injection H as _ <-; [destruct Hi|]. destruct Hi as [<-|[]]. discriminate.
Qed.
Lemma flush_write_not3 cl k nb cl' rs y : flush_write cl k nb = Ok (cl', rs) -> In y rs -> ret_code y <> Some (-3).
Proof.
  unfold flush_write. intros H Hi. apply obind_ok in H. destruct H as (ms & _ & H).
  destruct (wr_check _ _ _); [injection H as _ <-; destruct Hi|]. destruct k; injection H as _ <-; (destruct Hi; fail) || (destruct Hi as [<-|[]]; discriminate).
Qed.
Lemma end_write_not3 cl k iov v cl' rs y : end_write cl k iov v = Ok (cl', rs) -> v <> -3 ->
  match k with KThen _ len => 0 <= len | _ => True end -> In y rs -> ret_code y <> Some (-3).
Proof.
  destruct k as [|iov1 len1| |]; cbn [end_write]; intros H Hv Hk Hi.
  - injection H as _ <-. destruct Hi as [<-|[]]. cbn. congruence.
  - destruct (v <=? 0); [injection H as _ <-; destruct Hi as [<-|[]]; cbn; congruence|]. apply (go_write_not3 _ _ _ _ _ _ Hk H Hi).
  - injection H as _ <-. destruct Hi as [<-|[]]. cbn. congruence.
  - injection H as _ <-. destruct Hi.
Qed.
Lemma start_call_not3 cl x cl' rs y : start_call cl x = Ok (cl', rs) -> In y rs -> ret_code y <> Some (-3).
Proof.
  destruct x as [buf niov|iov|wait| |reset|reset|get st sz|fd| ]; cbn [start_call]; intros H Hi.
  - destruct (has _ _); [|discriminate]. destruct (_ || _); injection H as _ <-; [destruct Hi as [<-|[]]; discriminate|destruct Hi].
  - unfold start_write in H. destruct (has _ _); [|discriminate].
    destruct (wr_check _ _ _) eqn:E; [apply (go_write_not3 _ _ _ _ _ _ (wr_check_nonneg _ _ _ _ E) H Hi)|]. injection H as _ <-. destruct Hi as [<-|[]]. discriminate.
  - unfold start_flush in H. destruct (has _ _); [|discriminate].
    destruct (_ =? _); [injection H as _ <-; destruct Hi as [<-|[]]; discriminate|].
    destruct (_ && _); [destruct (c_r2w cl)|]; try (apply (flush_write_not3 _ _ _ _ _ _ H Hi)). injection H as _ <-. destruct Hi.
  - unfold start_close in H. destruct (_ =? _); [injection H as _ <-; destruct Hi|].
    destruct (has _ _); [|discriminate]. apply (flush_write_not3 _ _ _ _ _ _ H Hi).
  - injection H as _ <-. destruct Hi.
  - unfold do_farm_stat in H. destruct (has _ _); [|discriminate]. cbn [obind] in H. injection H as _ <-. destruct Hi as [<-|[]]. discriminate.
  - injection H as _ <-. destruct Hi.
  - apply obind_ok in H. destruct H as ([cl1 v] & E & H). injection H as _ <-. destruct Hi as [<-|[]]. cbn.
    unfold do_ctl in E. apply obind_ok in E. destruct E as ([cl2 s1] & _ & E). apply obind_ok in E. destruct E as ([cl3 s2] & _ & E).
    injection E as _ <-. destruct s2; discriminate.
  - injection H as _ <-. destruct Hi as [<-|[]]. discriminate.
Qed.
Lemma do_app_not3 e r get st sz r' x : do_app e r get st sz = Ok (r', x) -> ret_code x <> Some (-3).
Proof.
  unfold do_app. intros H. cbv zeta in H.
  destruct (negb (e_lock e)); [injection H as _ <-; discriminate|]. destruct (r_app_len r =? 0); [injection H as _ <-; discriminate|].
  assert (SY : forall o z r1, ret_code (RetApp (if shr_sync e r1 then 0 else -1) o z) <> Some (-3)) by (intros o z r1; cbn; destruct (shr_sync e r1); discriminate).
  unfold obind in H.
  destruct get, st; repeat match type of H with (if ?b then _ else _) = _ => destruct b end;
    repeat match type of H with (match ?m with Ok _ => _ | Abort => _ | UB => _ | Stuck => _ end) = _ => destruct m; try discriminate H end;
    injection H as _ <-; try apply SY; discriminate.
Qed.

Lemma kont_len r cl ms iov k : kont_ok r cl ms iov k -> match k with KThen _ len => 0 <= len | _ => True end.
Proof. destruct k as [|iov1 len1| |]; auto. intros (_ & _ & _ & ->). apply nbytes_nonneg. Qed.

Lemma f_poll_only r w evs a w' ev c x : reach contract r w evs -> contract w a -> step w a = Ok (w', ev) ->
  In (ERet c x) ev -> ret_code x = Some (-3) ->
  exists fd, a = APoll c fd /\ registered c fd evs /\ asleep w c = true /\ ev = [ERet c x]
    /\ w_ring w' = w_ring w /\ c_cache (cli w' c) = c_cache (cli w c) /\ c_q (cli w' c) = c_q (cli w c).
Proof.
  intros R HC HS Hi Hx. destruct (reach_inv _ _ _ _ id_contract R) as (fsz & F & X & B & W & HP & HB & SF & SD).
  assert (NR : forall y z, In (ERet c x) [ERet y z] -> c = y /\ x = z) by (intros y z [H|[]]; injection H as <- <-; auto).
  assert (POLL : forall c1 sc fd, a = AEintr c1 /\ sc = -1 \/ a = APoll c1 fd /\ sc = -3 -> asleep w c1 = true -> c = c1 -> sc = -3 ->
     registered c fd evs /\ asleep w c = true).
  { intros c1 sc fd Ha As -> Hs. split; [|exact As]. destruct Ha as [[_ ->]|[-> _]]; [lia|].
    destruct (exec_POLL _ _ _ R) as [P1 P2 P3]. destruct (asleep_sid _ _ _ _ R As) as [Hl (s & Es)]. apply P2; [exact Hl|].
    cbn [step] in HS. rewrite Es in HS. destruct (existsb (Z.eqb fd) (mon (cli w c1))) eqn:E; [apply existsb_in; exact E|]. injection HS as <- <-. destruct Hi. }
  pose proof HS as HS0. apply step_inv in HS.
  destruct HS as
   [ a
   | e flags pid w' E
   | e flags pid w' cl E
   | c1 y cl' rs Hl Hpc E
   | c1 e k iov len nb v cl' rs Hl Hpc Hv E
   | c1 e k iov len n s p Hl Hpc He E Er
   | c1 e k iov len nb r1 hw ks bh hw' wok r2 rv cl' rs Hl Hpc He E Ew Eb E2 Ev Ee
   | c1 e buf niov Hl Hpc He
   | c1 e buf niov q md h ks ok Hl Hpc He Hnb E Eh Ef
   | c1 e buf niov q md n s p Hl Hpc He Hnb E Eh
   | c1 e buf niov q md y cur' hr r2w' ks1 bh1 ks2 ok h Hl Hpc He E Eh Er Hn0 Hn1 Ef
   | c1 e w' Hl Hpc Hw'
   | c1 e ks h b cl' rs Hl Hpc He E Ee
   | c1 e Hl Hpc
   | c1 e reset r1 y Hl Hpc E
   | c1 e get st sz r1 y Hl Hpc E
   | c1 sid polls Hs Hp
   | a c1 sc k iov len nb cl' rs Ha Hpc E
   | a c1 sc buf niov Ha Hpc
   | c1 Hl ].
  all: try (destruct Hi as [Hi|[]]; discriminate Hi).
  all: try (destruct Hi; fail).
  all: try (exfalso; apply NR in Hi; destruct Hi as [_ ->]; discriminate Hx).
  all: try (destruct (wi_cl _ _ _ W c1 Hl) as [ms C]; pose proof (ci_pc _ _ _ _ C) as P; unfold pc_ok in P; rewrite ?Hpc in P).
  - exfalso. destruct Hi as [Hi|Hi]; [discriminate|]. apply in_rets in Hi. destruct Hi as [_ Hi]. apply (start_call_not3 _ _ _ _ _ E Hi Hx).
  - exfalso. apply in_rets in Hi. destruct Hi as [_ Hi]. destruct P as (_ & _ & _ & Hk & _).
    apply (end_write_not3 _ _ _ _ _ _ _ E) in Hi; [contradiction| |apply (kont_len _ _ _ _ _ Hk)]. destruct Hv as [[_ ->]|(_ & _ & -> & _)]; discriminate.
  - exfalso. destruct Hi as [Hi|Hi]; [discriminate|]. apply in_rets in Hi. destruct Hi as [_ Hi]. destruct P as (_ & Hio & -> & Hk & _).
    apply (end_write_not3 _ _ _ _ _ _ _ Ee) in Hi; [contradiction| |apply (kont_len _ _ _ _ _ Hk)]. subst rv.
    destruct (wok && shr_sync e r2); [pose proof (nbytes_nonneg iov); lia|discriminate].
  - exfalso. apply NR in Hi. destruct Hi as [_ ->]. cbn in Hx. pose proof (ring_read_nr _ _ _ _ _ _ _ _ _ E).
    destruct (zlen (rd_iov y) >? 0); injection Hx as Hx; lia.
  - exfalso. apply in_rets in Hi. destruct Hi as [_ Hi]. apply (flush_write_not3 _ _ _ _ _ _ Ee Hi Hx).
  - exfalso. apply NR in Hi. destruct Hi as [_ ->]. unfold do_stat in E. destruct (negb (e_lock e)); injection E as _ <-; [discriminate|].
    cbn in Hx. destruct (shr_sync _ _); discriminate.
  - exfalso. apply NR in Hi. destruct Hi as [_ ->]. apply (do_app_not3 _ _ _ _ _ _ _ E Hx).
  - assert (As : asleep w c1 = true) by (unfold asleep; rewrite Hpc; reflexivity).
    assert (LB : (c1 < length (w_cl w))%nat) by (apply pc_bound; rewrite Hpc; discriminate).
    destruct (asleep_sid _ _ _ _ R As) as [Hl _]. destruct (wi_cl _ _ _ W c1 Hl) as [ms C]. pose proof (ci_pc _ _ _ _ C) as P. unfold pc_ok in P. rewrite Hpc in P.
    pose proof Hi as Hi0. apply in_rets in Hi. destruct Hi as [Ec Hi].
    destruct (Z.eq_dec sc (-3)) as [Es|Es].
    2:{ exfalso. destruct P as (_ & _ & _ & Hk & _). apply (end_write_not3 _ _ _ _ _ _ _ E Es) in Hi; [contradiction|].
        destruct k as [|iov1 len1| |]; auto. destruct Hk as (_ & _ & Q & ->). apply nbytes_nonneg. }
    destruct Ha as [[_ ->]|[[fd ->] _]]; [discriminate|]. destruct (POLL c1 sc fd) as [Rg As2]; auto. subst c sc. exists fd.
    split; [reflexivity|]. split; [exact Rg|]. split; [exact As2|]. split.
    { apply end_write_ret in E. destruct E as [->|(z & -> & _)]; [destruct Hi|]. destruct Hi as [->|[]]. reflexivity. }
    split; [reflexivity|]. rewrite cli_setc_same by exact LB.
    destruct k as [|iov1 len1| |]; cbn [end_write] in E.
    + injection E as <- _. auto.
    + change (-3 <=? 0) with true in E. cbn iota in E. injection E as <- _. auto.
    + change (-3 >? 0) with false in E. cbn iota in E. injection E as <- _. auto.
    + change (-3 >? 0) with false in E. cbn iota in E. injection E as <- _. auto.
  - assert (As : asleep w c1 = true) by (unfold asleep; rewrite Hpc; reflexivity).
    assert (LB : (c1 < length (w_cl w))%nat) by (apply pc_bound; rewrite Hpc; discriminate).
    apply NR in Hi. destruct Hi as [-> ->]. cbn in Hx. injection Hx as ->.
    destruct Ha as [[_ Ha]|[[fd ->] _]]; [discriminate|]. destruct (POLL c1 (-3) fd) as [Rg As2]; auto. exists fd.
    split; [reflexivity|]. split; [exact Rg|]. split; [exact As2|]. split; [reflexivity|]. split; [reflexivity|]. rewrite cli_setc_same by exact LB. auto.
Qed.
