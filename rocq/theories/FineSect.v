(** * The critical sections of Fine.v do what run_client and do_open do, and
    what section and open_section (Kill.v) do up to any statement. *)
From Verif Require Import BaseFacts MicroFacts Crash Effects Final Pending PollFacts StepInv KillExec.
From Verif Require Export FineStep.

Lemma shared_setc w c x : shared (setc w c x) = shared w. Proof. reflexivity. Qed.
Lemma with_shared_same w : with_shared w (shared w) = w. Proof. destruct w; reflexivity. Qed.

(** [w'] is [w] with other shared memory and client [c] replaced *)
Theorem fsection_exec e w c w' ev : LI w -> ready w (InCall c e) -> run_client e w c = Ok (w', ev) ->
  exists cl m, exec_all (fsection e (shr_sync e (w_ring w)) c (cli w c)) (shared w) = Ok (m, Ok (Some cl, ev)) /\ w' = setc (with_shared w m) c cl.
Proof.
  intros L [Rd El]. unfold wants_lock in Rd. apply andb_prop in Rd. destruct Rd as [_ Rd]. unfold run_client, fsection.
  set (cl := cli w c) in *. cbv zeta.
  destruct (c_pc cl) as [ |k iov len nb|k iov len nb|buf niov|buf niov| | |reset|get st sz] eqn:Ep; try discriminate Rd.
  - (* writer *)
    intros H. apply obind_ok in H. destruct H as (res & E & H). unfold crit_write in E. rewrite El in E. cbn [negb] in E. cbv zeta in E.
    apply obind_ok in E. destruct E as (o & Eo & E). rewrite exec_bind, exec_ring. cbn [shared sh_ring].
    rewrite (write_exec _ _ _ false _ _ Eo). cbn [obind]. destruct o as [r'|].
    + cbn [obind]. destruct (c_w2r cl) as [h|] eqn:Eh; [|discriminate E].
      apply obind_ok in E. destruct E as ([[[ks bh] h'] ok] & Ew & E). rewrite exec_bind, exec_bw.
      unfold get_bk. rewrite exec_wake; [|exact (li_w2r _ L)|apply (li_a _ L c), Eh]. cbn [shared put_ring sh_ring sh_w2r sh_r2w sh_ks w_ks w_w2r].
      rewrite Ew. cbn [obind fst snd].
      assert (G : shr_sync e (stat_wrote r' len (zlen iov)) = shr_sync e (w_ring w)).
      { assert (r_gflags r' = r_gflags (w_ring w)); [|unfold shr_sync, stat_wrote; cbn [r_gflags set]; rewrite H0; reflexivity].
        apply (each_exec fixd fixd_r fixd_t _ (fx_write (c_mm cl) iov len) _ _ _ (write_exec _ _ _ false _ _ Eo)). }
      destruct ok; injection E as <-; apply obind_ok in H; destruct H as ([cl1 rs] & Ee & H); injection H as <- <-.
      * rewrite G in Ee. rewrite exec_bind, exec_ring. unfold wrote_p. rewrite exec_at. cbn [obind]. rewrite exec_at. cbn [obind exec_all].
        rewrite ?put_bk_t. cbn [exec_all]. cbn [set c_w2r] in Ee |- *. rewrite Ee. cbn [obind]. eexists _, _. split; [reflexivity|]. reflexivity.
      * rewrite ?put_bk_t. cbn [exec_all]. rewrite Ee. cbn [obind]. eexists _, _. split; reflexivity.
    + cbn [obind exec_all]. destruct nb.
      * injection E as <-; apply obind_ok in H; destruct H as ([cl1 rs] & Ee & H); injection H as <- <-. rewrite Ee. cbn [obind app].
        eexists _, _. split; [reflexivity|]. destruct w; reflexivity.
      * destruct (c_r2w cl) as [[|]|]; try discriminate E. injection E as <-. injection H as <- <-. eexists _, _. split; [reflexivity|]. destruct w; reflexivity.
  - (* reader *)
    intros H. apply obind_ok in H. destruct H as (res & E & H). unfold crit_read in E. rewrite El in E. cbn [negb] in E.
    apply obind_ok in E. destruct E as ([[q md] o] & Eo & E). rewrite exec_bind, exec_ring. cbn [shared sh_ring].
    rewrite (read_exec _ _ _ _ _ _ _ _ Eo). cbn [obind]. destruct o as [[x cur']|]; cbn [snd obind].
    + cbv zeta in E. apply obind_ok in E. destruct E as ([w1 cl1] & E1 & E). cbn [c_w2r set] in E1, E |- *.
      replace (rl_nr (loc_of x)) with (rd_nr x) by reflexivity.
      assert (V : forall z, (if (if zlen (rd_iov x) >? 0 then 0 else -2) =? 0 then z else (if zlen (rd_iov x) >? 0 then 0 else -2)) = (if zlen (rl_iov (loc_of x)) >? 0 then z else -2)).
      { intros z. change (rl_iov (loc_of x)) with (rd_iov x). destruct (zlen (rd_iov x) >? 0); reflexivity. }
      destruct (rd_nr x >? 0) eqn:En.
      * cbn [c_r2w set] in E1 |- *. destruct (c_r2w cl) as [h2|] eqn:Eh2; [|discriminate E1]. apply obind_ok in E1.
        destruct E1 as ([[[ks bh] h'] ok] & Ew & E1). injection E1 as <- <-. cbn [c_w2r set] in E.
        destruct (c_w2r cl) as [h|] eqn:Eh; [|discriminate E]. rewrite exec_bind, exec_bind, exec_bw.
        unfold get_bk. rewrite exec_wake; [|exact (li_r2w _ L)|apply (li_b _ L c), Eh2]. cbn [put_ring shared sh_ring sh_w2r sh_r2w sh_ks].
        cbn [w_ks w_r2w set] in Ew. rewrite Ew. cbn [obind exec_all]. rewrite exec_bind, exec_bw, put_bk_f.
        cbn [put_ring shared sh_ring sh_w2r sh_r2w sh_ks]. unfold get_bk. cbn [sh_w2r sh_ks]. rewrite exec_force.
        apply obind_ok in E. destruct E as ([ks2 ok2] & Ef & E). cbn [w_ks set] in Ef. rewrite Ef. cbn [obind fst snd exec_all].
        injection E as <-. injection H as <- <-. rewrite V. eexists _, _. split; reflexivity.
      * injection E1 as <- <-. cbn [c_w2r set] in E. destruct (c_w2r cl) as [h|] eqn:Eh; [|discriminate E].
        rewrite exec_bind. cbn [exec_all obind]. rewrite exec_bind, exec_bw. unfold get_bk. cbn [put_ring shared sh_ring sh_w2r sh_r2w sh_ks].
        rewrite exec_force. apply obind_ok in E. destruct E as ([ks2 ok2] & Ef & E). cbn [w_ks set] in Ef. rewrite Ef. cbn [obind fst snd exec_all].
        injection E as <-. injection H as <- <-. rewrite V. eexists _, _. split; reflexivity.
    + cbn [c_w2r c_flags set] in E |- *. destruct (c_w2r cl) as [h|] eqn:Eh; [|discriminate E].
      destruct (has (c_flags cl) SHR_NONBLOCK).
      * rewrite exec_bind, exec_bw. unfold get_bk. cbn [put_ring shared sh_ring sh_w2r sh_r2w sh_ks]. rewrite exec_force.
        apply obind_ok in E. destruct E as ([ks2 ok2] & Ef & E). rewrite Ef. cbn [obind fst snd exec_all]. injection E as <-. injection H as <- <-.
        eexists _, _. split; reflexivity.
      * destruct h; [discriminate E|]. injection E as <-. injection H as <- <-. eexists _, _. split; [reflexivity|]. destruct w; reflexivity.
  - (* opening a wait handle for flush *)
    rewrite El. cbn [negb]. intros H. rewrite exec_bind, exec_bw. unfold get_bk. cbn [shared sh_r2w sh_ks]. rewrite exec_open_wait by exact (li_r2w _ L).
    destruct (bw_open_wait e (w_ks w) (w_r2w w) (c_pid cl) (e_name e)) as [[ks h] o]. cbn [obind exec_all]. destruct o.
    + apply obind_ok in H. destruct H as ([cl1 rs] & Ef & H). injection H as <- <-. rewrite Ef. cbn [obind]. eexists _, _. split; reflexivity.
    + injection H as <- <-. eexists _, _. split; reflexivity.
  - (* close *)
    rewrite El. intros [= <- <-]. unfold close_handles. rewrite exec_bind.
    destruct (c_w2r cl) as [h|].
    + rewrite exec_bw. unfold get_bk at 1. cbn [shared sh_w2r sh_ks]. rewrite exec_close. destruct (bw_close (w_ks w) (w_w2r w) h) as [ks1 h1].
      cbn [obind]. rewrite put_bk_t, exec_bind. cbn [sh_ring sh_r2w]. destruct (c_r2w cl) as [h2|]; [|eexists _, _; split; reflexivity].
      rewrite exec_bw. unfold get_bk. cbn [shared sh_r2w sh_ks]. rewrite exec_close. cbn [w_ks w_r2w set]. destruct (bw_close ks1 (w_r2w w) h2) as [ks2 h3]. eexists _, _; split; reflexivity.
    + cbn [exec_all obind]. rewrite exec_bind. destruct (c_r2w cl) as [h2|]; [|eexists _, _; split; [reflexivity|destruct w; reflexivity]].
      rewrite exec_bw. unfold get_bk. cbn [shared sh_r2w sh_ks]. rewrite exec_close. cbn [w_ks w_r2w set]. destruct (bw_close (w_ks w) (w_r2w w) h2) as [ks2 h3]. eexists _, _; split; reflexivity.
  - (* stat *)
    unfold do_stat. rewrite El. cbn [negb]. cbv zeta. rewrite exec_at. cbn [obind shared sh_ring]. destruct reset as [t|]; intros [= <- <-].
    + unfold reset_p. rewrite exec_bind, exec_ring, exec_at. cbn [obind]. rewrite exec_at. cbn [obind exec_all]. eexists _, _. split; reflexivity.
    + eexists _, _. split; [reflexivity|]. destruct w; reflexivity.
  - (* appdata *)
    unfold do_app. rewrite El. cbn [negb]. rewrite exec_at. cbn [shared sh_ring].
    destruct (r_app_len (w_ring w) =? 0); [intros [= <- <-]; eexists _, _; split; [reflexivity|]; destruct w; reflexivity|]. intros H.
    apply obind_ok in H. destruct H as ([r x] & E & H). injection H as <- <-.
    destruct get as [ | |b], st as [s|];
      repeat match type of E with
      | (if ?b then _ else _) = Ok _ => destruct b eqn:?
      | obind _ _ = Ok _ => apply obind_ok in E; let y := fresh "y" in destruct E as (y & ? & E)
      end; try discriminate E; cbn [negb] in *;
      try (injection E as <- <-); repeat match goal with H : rd_mem _ _ _ = Ok _ |- _ => rewrite H; clear H; cbn [obind exec_all] | H : wr_mem 0 _ b = Ok _ |- _ => rewrite H; clear H; cbn [obind exec_all] end; 
      try (eexists _, _; split; [reflexivity|]; destruct w; reflexivity).
    + cbn [obind exec_all]. rewrite exec_bind, exec_ring. cbn [sh_ring shared].
      match goal with H : wr_mem 0 _ (r_app _) = Ok _ |- _ => rewrite (exec_app _ _ _ _ H) end. eexists _, _. split; reflexivity.
    + cbn [obind exec_all]. rewrite exec_bind, exec_ring. cbn [sh_ring shared].
      match goal with H : wr_mem 0 _ (r_app _) = Ok _ |- _ => rewrite (exec_app _ _ _ _ H) end. eexists _, _. split; reflexivity.
Qed.

Lemma fail_exec w a b w1 x :
  (let w := match b with Some h => let '(ks, bh) := bw_close (w_ks w) (w_r2w w) h in w <| w_ks := ks |> <| w_r2w := bh |> | None => w end in
   let w := match a with Some h => let '(ks, bh) := bw_close (w_ks w) (w_w2r w) h in w <| w_ks := ks |> <| w_w2r := bh |> | None => w end in
   Ok (w, None (A := option bwt * option bwt))) = Ok (w1, x) ->
  exec_all (run! _ <- fail_open a b; Ret (Ok (None, []) : fres)) (shared w) = Ok (shared w1, Ok (None, [])) /\ x = None /\ w1 = with_shared w (shared w1).
Proof.
  intros F. rewrite exec_bind. destruct (exec_fail _ _ _ _ _ F) as [G1 G2]. rewrite G1. cbn [obind exec_all]. split; [reflexivity|].
  split; [exact G2|]. clear G1 G2. cbv zeta in F. injection F as <- <-. destruct b as [h|]; [destruct (bw_close (w_ks w) (w_r2w w) h) as [k1 b1]|];
  (destruct a as [h'|]; [cbn [w_ks w_w2r set]; match goal with |- context [bw_close ?x ?y ?z] => destruct (bw_close x y z) as [k2 b2] end|]); destruct w; reflexivity.
Qed.
Theorem fopen_exec e w flags pid w' o : LI w -> has flags SHR_RDONLY && has flags SHR_WRONLY = false -> e_lock e = true -> do_open e w flags pid = Ok (w', o) ->
  exists m, exec_all (fopen e (w_fsz w) flags pid) (shared w) = Ok (m, Ok (o, [])) /\ w' = with_shared w m.
Proof.
  intros L X El H. unfold do_open in H. unfold fopen. rewrite exec_at. cbn [obind shared sh_ring].
  destruct (validate_flags flags) eqn:V; cbn [negb orb] in *; [|injection H as <- <-; eexists; split; [reflexivity|symmetry; apply with_shared_same]].
  rewrite El in *; cbn [negb orb] in *.
  destruct (validate_ring (w_fsz w) true (w_ring w) <? 0); cbn [orb] in *; [injection H as <- <-; eexists; split; [reflexivity|symmetry; apply with_shared_same]|].
  destruct (has (r_gflags (w_ring w)) SHR_MLOCK && negb (e_alloc e)); [injection H as <- <-; eexists; split; [reflexivity|symmetry; apply with_shared_same]|].
  apply obind_ok in H. destruct H as ([w1 hs] & E & H).
  assert (w' = w1) as ->. { destruct hs as [[a b]|]; [|congruence]. destruct (init_cache _ _ _); [|congruence]. destruct (shr_sync _ _); congruence. }
  unfold open_blockwake in E. apply obind_ok in E. destruct E as ([w2 st] & E1 & E).
  destruct (has flags SHR_RDONLY) eqn:R; cbn [andb] in X.
  - rewrite X in E. assert (E0 : w1 = w2 /\ hs = st) by (destruct st as [[a b]|]; split; congruence). destruct E0 as [-> ->]. clear E.
    rewrite exec_bind, exec_bw. unfold get_bk. cbn [shared sh_w2r sh_ks]. rewrite exec_open_wait by apply L.
    destruct (bw_open_wait e (w_ks w) (w_w2r w) pid (e_name e)) as [[ks h1] a]. cbn [obind]. rewrite put_bk_t. cbn [sh_ring sh_r2w].
    rewrite exec_bind, exec_bw. unfold get_bk. cbn [shared sh_r2w sh_ks sh_ring]. rewrite exec_open_wake by apply L.
    cbn [w_ks w_r2w set] in E1. destruct (bw_open_wake e ks (w_r2w w)) as [h2 b]. cbn [obind]. rewrite put_bk_f. cbn [sh_ring sh_w2r].
    destruct a as [x|]; [destruct b as [y|]|].
    + rewrite exec_bind, exec_bw. unfold get_bk. cbn [sh_w2r sh_ks]. rewrite exec_force.
      apply obind_ok in E1. destruct E1 as ([ks2 ok] & Ef & E1). cbn [w_ks w_ring set] in Ef. rewrite Ef. cbn [obind fst snd]. rewrite put_bk_t. cbn [sh_ring sh_w2r sh_r2w].
      destruct ok.
      * injection E1 as <- <-. cbn [exec_all].
        assert (FIN : o = match init_cache e (w_ring w) flags with
               | None => None
               | Some ca => if shr_sync e (w_ring w) then Some (mkcl true pid flags (r_q (w_ring w)) 0 (Some x) (Some y) ca (r_n (w_ring w)) (r_mm (w_ring w)) Idle) else None end).
        { destruct (init_cache _ _ _); [|injection H as <-; reflexivity]. destruct (shr_sync _ _); injection H as <-; reflexivity. }
        rewrite FIN. eexists. split; reflexivity.
      * pose proof (fail_exec (w <| w_ks := ks |> <| w_w2r := h1 |> <| w_r2w := h2 |> <| w_ks := ks2 |>) (Some x) (Some y) w2 st E1) as G; destruct G as (G1 & -> & G2).
        injection H as <-. eexists. split; [exact G1|]. rewrite G2 at 1. reflexivity.
    + pose proof (fail_exec (w <| w_ks := ks |> <| w_w2r := h1 |> <| w_r2w := h2 |>) (Some x) None w2 st E1) as G; destruct G as (G1 & -> & G2).
      injection H as <-. eexists. split; [exact G1|]. rewrite G2 at 1. reflexivity.
    + pose proof (fail_exec (w <| w_ks := ks |> <| w_w2r := h1 |> <| w_r2w := h2 |>) None b w2 st E1) as G; destruct G as (G1 & -> & G2).
      injection H as <-. eexists. split; [exact G1|]. rewrite G2 at 1. reflexivity.
  - injection E1 as <- <-. assert (Wf : has flags SHR_WRONLY = true) by (apply validate_flags_iff in V; destruct V as [V _]; rewrite R in V; exact V).
    rewrite Wf in E. clear X V. rewrite exec_bind, exec_bw. unfold get_bk. cbn [shared sh_w2r sh_ks]. rewrite exec_open_wake by apply L.
    destruct (bw_open_wake e (w_ks w) (w_w2r w)) as [h1 a]. cbn [obind]. rewrite put_bk_t. cbn [sh_ring sh_r2w].
    destruct a as [x|]; [|injection E as <- <-; injection H as <-; eexists; split; [reflexivity|reflexivity]].
    assert (FIN : forall b ca, init_cache e (w_ring w) flags = ca -> hs = Some (Some x, b) -> o = match init_cache e (w_ring w) flags with
               | None => None
               | Some ca => if shr_sync e (w_ring w) then Some (mkcl true pid flags (r_q (w_ring w)) 0 (Some x) b ca (r_n (w_ring w)) (r_mm (w_ring w)) Idle) else None end).
    { intros b ca Eca ->. destruct (init_cache _ _ _); [|injection H as <-; reflexivity]. destruct (shr_sync _ _); injection H as <-; reflexivity. }
    cbn [w_ring w_ks w_r2w set] in E. destruct (negb (has flags SHR_NONBLOCK) && negb (r_drop (w_ring w))).
    + rewrite exec_bind, exec_bw. unfold get_bk. cbn [sh_w2r sh_r2w sh_ks shared]. rewrite exec_open_wait by apply L.
      destruct (bw_open_wait e (w_ks w) (w_r2w w) pid (e_name e)) as [[ks h2] b]. cbn [obind]. rewrite put_bk_f. cbn [sh_ring sh_w2r].
      destruct b as [y|].
      * injection E as <- <-. rewrite (FIN (Some y) _ eq_refl eq_refl). cbn [exec_all]. eexists. split; reflexivity.
      * pose proof (fail_exec (w <| w_w2r := h1 |> <| w_ks := ks |> <| w_r2w := h2 |>) (Some x) None w1 hs E) as G; destruct G as (G1 & -> & G2).
        injection H as <-. eexists. split; [exact G1|]. rewrite G2 at 1. reflexivity.
    + injection E as <- <-. rewrite (FIN None _ eq_refl eq_refl). cbn [exec_all]. eexists. split; reflexivity.
Qed.

(** ** killed *)
Lemma dies_bindl {S A B} (p : prog S A) (k : A -> prog S B) s l m : dies_at p s l m -> dies_at (bindp p k) s l m.
Proof.
  induction 1 as [l f s|l f s s' p' l' s'' E D IH]; cbn [bindp]; [constructor|]. eapply da_next; [|exact IH]. rewrite E. reflexivity.
Qed.
Lemma dies_bindr {S A B} (p : prog S A) (k : A -> prog S B) x : forall s s1 l m, exec_all p s = Ok (s1, x) -> dies_at (k x) s1 l m -> dies_at (bindp p k) s l m.
Proof.
  induction p as [y|l0 f IH] using prog_ind2; intros s s1 l m E D; cbn [exec_all bindp] in *; [injection E as <- <-; exact D|].
  destruct (f s) as [[s2 p2]| | |] eqn:Ef; try discriminate E. eapply da_next; [rewrite Ef; reflexivity|]. eapply IH; eassumption.
Qed.
Lemma dies_cont {S A B C} (p : prog S A) (k : A -> prog S B) (k' : A -> prog S C) s l m :
  (forall x s1, exec_all p s = Ok (s1, x) -> dies_at (k x) s1 l m -> dies_at (k' x) s1 l m) -> dies_at (bindp p k) s l m -> dies_at (bindp p k') s l m.
Proof.
  intros H D. apply dies_bind in D. destruct D as [D|(s1 & x & E & D)]; [apply dies_bindl, D|]. eapply dies_bindr; [exact E|apply (H _ _ E D)].
Qed.
Lemma dies_end {S A B} (p : prog S A) (g : A -> B) s l m : dies_at (bindp p (fun x => Ret (g x))) s l m -> dies_at p s l m.
Proof. intros D. apply dies_bind in D. destruct D as [D|(s1 & x & E & D)]; [exact D|elim (dies_ret _ _ _ _ D)]. Qed.
Lemma dies_here {S A} l f (s : S) : dies_at (@At S A l f) s l s. Proof. constructor. Qed.

Lemma kill_call e sync c cl s l m : e_lock e = true -> dies_at (fsection e sync c cl) s l m ->
  (exists l', dies_at (section e cl) s l' m /\ (match c_pc cl with RunW _ _ _ _ | RunR _ _ => l' = l | _ => True end))
  \/ m = s /\ (match c_pc cl with RunW _ _ _ _ | RunR _ _ => False | _ => True end).
Proof.
  intros El. unfold fsection, section. rewrite El. cbn [negb].
  destruct (c_pc cl) as [ |k iov len nb|k iov len nb|buf niov|buf niov| | |reset|get st sz]; cbv zeta; intros D.
  - right. apply dies_at_inv in D. destruct D as [[_ ->]|(s1 & p1 & E & _)]; [auto|discriminate E].
  - left. exists l. split; [|reflexivity]. revert D. apply dies_cont. intros [|] s1 E D; [|elim (dies_ret _ _ _ _ D)].
    destruct (c_w2r cl) as [h|].
    + revert D. apply dies_cont. intros [h' ok] s2 E2. cbn [fst snd]. destruct ok; intros D; [|elim (dies_ret _ _ _ _ D)]. apply dies_end in D. exact D.
    + apply dies_at_inv in D. destruct D as [[-> ->]|(s2 & p1 & E2 & _)]; [constructor|discriminate E2].
  - right. apply dies_at_inv in D. destruct D as [[_ ->]|(s1 & p1 & E & _)]; [auto|discriminate E].
  - left. exists l. split; [|reflexivity]. revert D. apply dies_cont. intros [[q md] got] s1 E. cbn [snd c_w2r c_flags c_r2w set].
    destruct got as [[x cur']|], (c_w2r cl) as [h|];
      try (intros D; apply dies_at_inv in D; destruct D as [[-> ->]|(s2 & p1 & E2 & _)]; [constructor|discriminate E2]).
    + intros D. apply dies_bind in D. destruct D as [D|(s2 & x2 & E2 & D)].
      * apply dies_bindl. destruct (rl_nr x >? 0); [|elim (dies_ret _ _ _ _ D)]. destruct (c_r2w cl) as [h2|].
        -- apply dies_end in D. apply dies_bindl, D.
        -- apply dies_at_inv in D. destruct D as [[-> ->]|(s3 & p1 & E3 & _)]; [constructor|discriminate E3].
      * eapply (dies_bindr _ _ tt); [|apply dies_bindl; apply dies_end in D; exact D].
        destruct (rl_nr x >? 0); [|injection E2 as <- <-; reflexivity]. destruct (c_r2w cl) as [h2|]; [|discriminate E2].
        rewrite exec_bind in E2. rewrite exec_bind. destruct (exec_all (on_bw false (bw_wake_p e h2)) s1) as [[s3 y]| | |]; try discriminate E2. injection E2 as <- <-. reflexivity.
    + destruct (has (c_flags cl) SHR_NONBLOCK); intros D; [|elim (dies_ret _ _ _ _ D)]. apply dies_end in D. apply dies_bindl, D.
  - right. apply dies_at_inv in D. destruct D as [[_ ->]|(s1 & p1 & E & _)]; [auto|discriminate E].
  - left. exists l. split; [|exact Logic.I]. apply dies_end in D. apply dies_bindl, D.
  - left. exists l. split; [|exact Logic.I]. revert D. apply dies_cont. intros [] s1 E D. apply dies_end in D. exact D.
  - apply dies_at_inv in D. destruct D as [[_ ->]|(s1 & p1 & E & D)].
    + right. auto.
    + apply ok_pair in E. destruct E as [<- <-]. destruct reset as [t|]; [|elim (dies_ret _ _ _ _ D)].
      left. exists l. split; [|exact Logic.I]. apply dies_end in D. exact D.
  - apply dies_at_inv in D. destruct D as [[-> ->]|(s1 & p1 & E & D)]; [right; auto|].
    left. exists l. split; [|exact Logic.I].
    unfold setapp_p, on_ring. cbn [liftp]. 
    repeat match type of E with
    | (if ?b then _ else _) = Ok _ => destruct b eqn:?
    | obind _ _ = Ok _ => apply obind_ok in E; let y := fresh "y" in destruct E as (y & ? & E); cbn [obind] in E
    | (match ?x with _ => _ end) = Ok _ => destruct x
    end; apply ok_pair in E; destruct E as [<- <-]; try (elim (dies_ret _ _ _ _ D)).
    all: apply dies_end in D; eapply da_next; [|exact D]; repeat match goal with H : ?x = _ |- context [if ?x then _ else _] => rewrite H end;
      match goal with H : rd_mem _ _ _ = Ok ?a |- context [app_p 0 ?a] => rewrite H end; cbn [obind]; destruct s; reflexivity.
Qed.
Lemma kill_open e w flags pid l m : e_lock e = true -> dies_at (fopen e (w_fsz w) flags pid) (shared w) l m ->
  m = shared w \/ exists l', dies_at (open_section e w flags pid) (shared w) l' m.
Proof.
  intros El D. unfold fopen in D. apply dies_at_inv in D. destruct D as [[_ ->]|(s1 & p1 & E & D)]; [auto|]. apply ok_pair in E. destruct E as [<- <-].
  right. exists l. unfold open_section. cbn [shared sh_ring] in D.
  destruct (_ || _ || _ || _); [elim (dies_ret _ _ _ _ D)|].
  destruct (has flags SHR_RDONLY).
  - revert D. apply dies_cont. intros a s1 _. apply dies_cont. intros b s2 _.
    destruct a as [x|]; [destruct b as [y|]|]; try (intros D; apply dies_end in D; exact D).
    apply dies_cont. intros ok s3 _. destruct ok; intros D; [elim (dies_ret _ _ _ _ D)|]. apply dies_end in D; exact D.
  - revert D. apply dies_cont. intros a s1 _. destruct a as [x|]; [|intros D; elim (dies_ret _ _ _ _ D)].
    destruct (_ && _); [|intros D; elim (dies_ret _ _ _ _ D)]. apply dies_cont. intros b s2 _. destruct b as [y|]; intros D; [elim (dies_ret _ _ _ _ D)|].
    apply dies_end in D. exact D.
Qed.
