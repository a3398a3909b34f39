(** * Inversion of a step of the world: what each kind of step does. *)
From Verif Require Export SysFacts.

Inductive stepI (w : world) : action -> world -> list event -> Prop :=
| I_skip a : stepI w a w []
| I_open_fail e flags pid w' : do_open e w flags pid = Ok (w', None) ->
    stepI w (AOpen e flags pid) w' [EOpen flags None]
| I_open e flags pid w' cl : do_open e w flags pid = Ok (w', Some cl) ->
    stepI w (AOpen e flags pid) (w' <| w_cl := w_cl w' ++ [cl] |>)
      [EOpen flags (Some (length (w_cl w')))]
| I_call c x cl' rs : c_live (cli w c) = true -> c_pc (cli w c) = Idle ->
    start_call (cli w c) x = Ok (cl', rs) ->
    stepI w (ACall c x) (setc w c cl') (ECall c x :: rets c rs)
| I_write_fail c e k iov len nb r cl' rs :
    c_live (cli w c) = true -> c_pc (cli w c) = RunW k iov len nb ->
    (e_lock e = false /\ r = -1) \/
    (e_lock e = true /\ nb = true /\ r = 0 /\ ring_write (w_ring w) (c_mm (cli w c)) iov len = Ok None) ->
    end_write (cli w c) k iov r = Ok (cl', rs) ->
    stepI w (ARun c e) (setc w c cl') (rets c rs)
| I_write_block c e k iov len n s p :
    c_live (cli w c) = true -> c_pc (cli w c) = RunW k iov len false ->
    e_lock e = true -> ring_write (w_ring w) (c_mm (cli w c)) iov len = Ok None ->
    c_r2w (cli w c) = Some (Wait n s p) ->
    stepI w (ARun c e) (setc w c ((cli w c) <| c_pc := WaitW k iov len false |>)) []
| I_commit c e k iov len nb r1 hw ks bh hw' wok r2 rv cl' rs :
    c_live (cli w c) = true -> c_pc (cli w c) = RunW k iov len nb ->
    e_lock e = true -> ring_write (w_ring w) (c_mm (cli w c)) iov len = Ok (Some r1) ->
    c_w2r (cli w c) = Some hw -> bw_wake e (w_ks w) (w_w2r w) hw = Ok (ks, bh, hw', wok) ->
    r2 = (if wok then stat_wrote r1 len (zlen iov) else r1) ->
    rv = (if wok && shr_sync e r2 then len else -1) ->
    end_write ((cli w c) <| c_w2r := Some hw' |>) k iov rv = Ok (cl', rs) ->
    stepI w (ARun c e)
      (setc (w <| w_ks := ks |> <| w_w2r := bh |> <| w_ring := r2 |>) c cl')
      (ECommit c iov :: rets c rs)
| I_read_fail c e buf niov :
    c_live (cli w c) = true -> c_pc (cli w c) = RunR buf niov -> e_lock e = false ->
    stepI w (ARun c e) (setc w c ((cli w c) <| c_pc := Idle |>)) [ERet c (RetRead (-1) buf [])]
| I_read_none c e buf niov q md h ks ok :
    c_live (cli w c) = true -> c_pc (cli w c) = RunR buf niov -> e_lock e = true ->
    has (c_flags (cli w c)) SHR_NONBLOCK = true ->
    ring_read (w_ring w) (c_q (cli w c)) (c_md (cli w c)) buf niov = Ok (q, md, None) ->
    c_w2r (cli w c) = Some h -> bw_force e (w_ks w) h false = Ok (ks, ok) ->
    stepI w (ARun c e)
      (setc (w <| w_ks := ks |>) c ((cli w c) <| c_q := q |> <| c_md := md |> <| c_pc := Idle |>))
      [ERet c (RetRead 0 buf [])]
| I_read_block c e buf niov q md n s p :
    c_live (cli w c) = true -> c_pc (cli w c) = RunR buf niov -> e_lock e = true ->
    has (c_flags (cli w c)) SHR_NONBLOCK = false ->
    ring_read (w_ring w) (c_q (cli w c)) (c_md (cli w c)) buf niov = Ok (q, md, None) ->
    c_w2r (cli w c) = Some (Wait n s p) ->
    stepI w (ARun c e)
      (setc w c ((cli w c) <| c_q := q |> <| c_md := md |> <| c_pc := WaitR buf niov |>)) []
| I_read c e buf niov q md x cur' hr r2w' ks1 bh1 ks2 ok h :
    c_live (cli w c) = true -> c_pc (cli w c) = RunR buf niov -> e_lock e = true ->
    ring_read (w_ring w) (c_q (cli w c)) (c_md (cli w c)) buf niov = Ok (q, md, Some (x, cur')) ->
    c_w2r (cli w c) = Some h ->
    c_r2w (cli w c) = hr ->
    (rd_nr x >? 0 = false -> ks1 = w_ks w /\ bh1 = w_r2w w /\ r2w' = hr) ->
    (rd_nr x >? 0 = true -> exists hh hh' wok, hr = Some hh /\ r2w' = Some hh' /\
        bw_wake e (w_ks w) (w_r2w w) hh = Ok (ks1, bh1, hh', wok)) ->
    bw_force e ks1 h (match cur' with Some _ => true | None => false end) = Ok (ks2, ok) ->
    stepI w (ARun c e)
      (setc (w <| w_ring := rd_ring x |> <| w_r2w := bh1 |> <| w_ks := ks2 |>) c
         ((cli w c) <| c_q := q |> <| c_md := md |> <| c_r2w := r2w' |> <| c_pc := Idle |>))
      [ERet c (RetRead (if zlen (rd_iov x) >? 0 then rd_nr x else -2) (rd_buf x) (rev (rd_iov x)))]
| I_r2w_fail c e w' :
    c_live (cli w c) = true -> c_pc (cli w c) = RunOpenR2W ->
    w' = w \/ (exists ks h, e_lock e = true /\
      bw_open_wait e (w_ks w) (w_r2w w) (c_pid (cli w c)) (e_name e) = (ks, h, None) /\
      w' = w <| w_ks := ks |> <| w_r2w := h |>) ->
    stepI w (ARun c e) (setc w' c ((cli w c) <| c_pc := Idle |>)) [ERet c (RetFlush (-1))]
| I_r2w c e ks h b cl' rs :
    c_live (cli w c) = true -> c_pc (cli w c) = RunOpenR2W -> e_lock e = true ->
    bw_open_wait e (w_ks w) (w_r2w w) (c_pid (cli w c)) (e_name e) = (ks, h, Some b) ->
    flush_write ((cli w c) <| c_r2w := Some b |>) KFlush false = Ok (cl', rs) ->
    stepI w (ARun c e) (setc (w <| w_ks := ks |> <| w_r2w := h |>) c cl') (rets c rs)
| I_close c e :
    c_live (cli w c) = true -> c_pc (cli w c) = RunClose ->
    stepI w (ARun c e)
      (setc (if e_lock e then close_handles w (cli w c) else w) c
        ((cli w c) <| c_live := false |> <| c_w2r := None |> <| c_r2w := None |>
                       <| c_cache := cache0 |> <| c_pc := Idle |>)) [ERet c RetClosed]
| I_stat c e reset r x :
    c_live (cli w c) = true -> c_pc (cli w c) = RunStat reset ->
    do_stat e (w_ring w) (cli w c) reset = (r, x) ->
    stepI w (ARun c e) (setc (w <| w_ring := r |>) c ((cli w c) <| c_pc := Idle |>)) [ERet c x]
| I_app c e get st sz r x :
    c_live (cli w c) = true -> c_pc (cli w c) = RunApp get st sz ->
    do_app e (w_ring w) get st sz = Ok (r, x) ->
    stepI w (ARun c e) (setc (w <| w_ring := r |>) c ((cli w c) <| c_pc := Idle |>)) [ERet c x]
| I_wake c sid polls : wait_sid (cli w c) = Some (sid, polls) -> 0 < k_pend (sk (w_ks w) sid) ->
    stepI w (AWake c) (setc (w <| w_ks := bw_recv (w_ks w) sid |>) c (resume (cli w c))) []
| I_waitfail_w a c sc k iov len nb cl' rs :
    a = AEintr c /\ sc = -1 \/ (exists fd, a = APoll c fd) /\ sc = -3 ->
    c_pc (cli w c) = WaitW k iov len nb -> end_write (cli w c) k iov sc = Ok (cl', rs) ->
    stepI w a (setc w c cl') (rets c rs)
| I_waitfail_r a c sc buf niov :
    a = AEintr c /\ sc = -1 \/ (exists fd, a = APoll c fd) /\ sc = -3 ->
    c_pc (cli w c) = WaitR buf niov ->
    stepI w a (setc w c ((cli w c) <| c_pc := Idle |>)) [ERet c (RetRead sc buf [])]
| I_crash c : c_live (cli w c) = true ->
    stepI w (ACrash c)
      (setc (w <| w_ks := drop_sock (drop_sock (w_ks w) (c_w2r (cli w c))) (c_r2w (cli w c)) |>) c
         ((cli w c) <| c_live := false |> <| c_pc := Idle |>)) [ECrash c].

Lemma waitfail_inv w a c sc w' ev : a = AEintr c /\ sc = -1 \/ (exists fd, a = APoll c fd) /\ sc = -3 ->
  wait_failed w c sc = Ok (w', ev) -> stepI w a w' ev.
Proof.
  intros Ha. unfold wait_failed. destruct (c_pc (cli w c)) eqn:Epc; intros H; try (injection H as <- <-; apply I_skip).
  - apply obind_ok in H. destruct H as ([cl' rs] & E & H). injection H as <- <-.
    eapply I_waitfail_w; eassumption.
  - injection H as <- <-. eapply I_waitfail_r; eassumption.
Qed.

Ltac inj H := injection H; clear H; intros; subst.

Lemma run_inv w c e w' ev : c_live (cli w c) = true -> run_client e w c = Ok (w', ev) ->
  stepI w (ARun c e) w' ev.
Proof.
  intros Hl. unfold run_client. destruct (c_pc (cli w c)) as [ |k iov len nb| |buf niov| | | |reset|get st sz] eqn:Epc; intros H.
  - inj H. apply I_skip.
  - apply obind_ok in H. destruct H as (res & E & H).
    unfold crit_write in E. destruct (e_lock e) eqn:El; cbn [negb] in E.
    2: { injection E as <-. apply obind_ok in H. destruct H as ([cl' rs] & E & H). inj H.
         eapply I_write_fail; [exact Hl|exact Epc|left; split; [exact El|reflexivity]|exact E]. }
    apply obind_ok in E. destruct E as (go & Eg & E). destruct go as [r1|].
    2: { destruct nb.
         - injection E as <-. apply obind_ok in H. destruct H as ([cl' rs] & E & H). inj H.
           eapply I_write_fail; [exact Hl|exact Epc|right; repeat split; assumption|exact E].
         - destruct (c_r2w (cli w c)) as [[?|n s p]|] eqn:Er; try discriminate. injection E as <-. inj H.
           eapply I_write_block; eassumption. }
    destruct (c_w2r (cli w c)) as [hw|] eqn:Ew; [|discriminate].
    apply obind_ok in E. destruct E as ([[[ks bh] hw'] wok] & Eb & E).
    destruct wok.
    + injection E as <-. apply obind_ok in H. destruct H as ([cl' rs] & E & H). inj H.
      eapply (I_commit w c e k iov len nb r1 hw ks bh hw' true); try eassumption; try reflexivity.
    + injection E as <-. apply obind_ok in H. destruct H as ([cl' rs] & E & H). inj H.
      eapply (I_commit w c e k iov len nb r1 hw ks bh hw' false); try eassumption; try reflexivity.
  - inj H. apply I_skip.
  - apply obind_ok in H. destruct H as (res & E & H).
    unfold crit_read in E. destruct (e_lock e) eqn:El; cbn [negb] in E.
    2: { injection E as <-. inj H. eapply I_read_fail; eassumption. }
    apply obind_ok in E. destruct E as ([[q md] go] & Eg & E). destruct go as [[x cur']|].
    + apply obind_ok in E. destruct E as ([w1 cl1] & E1 & E).
      destruct (rd_nr x >? 0) eqn:Enr.
      * destruct (c_r2w ((cli w c) <| c_q := q |> <| c_md := md |>)) as [hh|] eqn:Er; [|discriminate].
        apply obind_ok in E1. destruct E1 as ([[[ks1 bh1] hh'] wok] & Eb & E1). inj E1.
        cbn [c_w2r set] in E. destruct (c_w2r (cli w c)) as [hw|] eqn:Ew; [|discriminate].
        apply obind_ok in E. destruct E as ([ks2 ok] & Ef & E). inj E. inj H.
        assert (HR := I_read w c e buf niov q md x cur' (Some hh) (Some hh') ks1 bh1 ks2 ok hw Hl Epc El Eg Ew Er).
        cbn [set] in HR. destruct (zlen (rd_iov x) >? 0) eqn:Ez; cbn [Z.eqb Pos.eqb] in *;
        apply HR; try (intros; congruence); try exact Ef;
        intros _; exists hh, hh', wok; repeat split; exact Eb.
      * inj E1. cbn [c_w2r set] in E. destruct (c_w2r (cli w c)) as [hw|] eqn:Ew; [|discriminate].
        apply obind_ok in E. destruct E as ([ks2 ok] & Ef & E). inj E. inj H.
        assert (HR := I_read w c e buf niov q md x cur' _ (c_r2w (cli w c)) (w_ks w) (w_r2w w) ks2 ok hw Hl Epc El Eg Ew eq_refl).
        assert (HR' := HR ltac:(intros; auto) ltac:(intros; congruence) Ef). clear HR.
        replace (w <| w_ring := rd_ring x |> <| w_r2w := w_r2w w |> <| w_ks := ks2 |>)
          with (w <| w_ring := rd_ring x |> <| w_ks := ks2 |>) in HR' by (destruct w; reflexivity).
        replace ((cli w c) <| c_q := q |> <| c_md := md |> <| c_r2w := c_r2w (cli w c) |> <| c_pc := Idle |>)
          with ((cli w c) <| c_q := q |> <| c_md := md |> <| c_pc := Idle |>) in HR' by (destruct (cli w c); reflexivity).
        destruct (zlen (rd_iov x) >? 0) eqn:Ez; exact HR'.
    + cbn [c_w2r c_flags set] in E. destruct (c_w2r (cli w c)) as [hw|] eqn:Ew; [|discriminate].
      destruct (has (c_flags (cli w c)) SHR_NONBLOCK) eqn:Enb.
      * apply obind_ok in E. destruct E as ([ks ok] & Ef & E). inj E. inj H.
        eapply I_read_none; eassumption.
      * destruct hw as [?|n s p]; [discriminate|]. inj E. inj H. eapply I_read_block; eassumption.
  - inj H. apply I_skip.
  - destruct (e_lock e) eqn:El; cbn [negb] in H.
    2: { inj H. apply I_r2w_fail; try assumption. left; reflexivity. }
    destruct (bw_open_wait e (w_ks w) (w_r2w w) (c_pid (cli w c)) (e_name e)) as [[ks h] o] eqn:Eo.
    destruct o as [b|].
    + apply obind_ok in H. destruct H as ([cl' rs] & E & H). inj H. eapply I_r2w; eassumption.
    + inj H. eapply (I_r2w_fail w c e); try assumption. right. exists ks, h. repeat split; assumption.
  - inj H. apply I_close; assumption.
  - destruct (do_stat e (w_ring w) (cli w c) reset) as [r x] eqn:Es. inj H. eapply I_stat; eassumption.
  - apply obind_ok in H. destruct H as ([r x] & E & H). inj H. eapply I_app; eassumption.
Qed.

Theorem step_inv w a w' ev : step w a = Ok (w', ev) -> stepI w a w' ev.
Proof.
  destruct a as [e flags pid|c x|c e|c|c|c fd|c]; cbn [step]; intros H.
  - apply obind_ok in H. destruct H as ([w1 o] & E & H). destruct o as [cl|]; inj H; [apply I_open|apply I_open_fail]; assumption.
  - destruct (c_live (cli w c)) eqn:El; cbn [negb] in H; [|inj H; apply I_skip].
    destruct (c_pc (cli w c)) eqn:Epc; try (inj H; apply I_skip).
    apply obind_ok in H. destruct H as ([cl' rs] & E & H). inj H. apply I_call; assumption.
  - destruct (c_live (cli w c)) eqn:El; [apply run_inv; assumption|inj H; apply I_skip].
  - destruct (wait_sid (cli w c)) as [[sid p]|] eqn:Ew; [|inj H; apply I_skip].
    destruct (Z.gtb_spec (k_pend (sk (w_ks w) sid)) 0); inj H; [eapply I_wake; [eassumption|lia]|apply I_skip].
  - eapply waitfail_inv; [left; split; reflexivity|exact H].
  - destruct (wait_sid (cli w c)) as [[sid p]|] eqn:Ew; [|inj H; apply I_skip].
    destruct (existsb (Z.eqb fd) p); [|inj H; apply I_skip].
    eapply waitfail_inv; [right; split; [exists fd|]; reflexivity|exact H].
  - destruct (c_live (cli w c)) eqn:El; cbn [negb] in H; inj H; [apply I_crash; assumption|apply I_skip].
Qed.
