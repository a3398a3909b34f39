(** * The programs of BwMicro.v and Kill.v, run to their ends, are the
    functions of Bw.v and Sys.v. *)
From Verif Require Import MicroFacts Crash Effects Final Pending PollFacts StepInv.
From Verif Require Export KillFacts KillInv.

Lemma nth_mid {A} (d x : A) pre t : nth (length pre) (pre ++ x :: t) d = x.
Proof. rewrite app_nth2, Nat.sub_diag by lia. reflexivity. Qed.
Lemma set_mid {A} (x y : A) pre t : set_nat (pre ++ x :: t) (length pre) y = pre ++ y :: t.
Proof. induction pre as [|z pre IH]; [reflexivity|]. cbn [app length set_nat]. rewrite IH. reflexivity. Qed.
Lemma snoc {A} (x : A) pre t : pre ++ x :: t = (pre ++ [x]) ++ t.
Proof. rewrite <- app_assoc. reflexivity. Qed.
Lemma snoc_len {A} (x : A) pre : length (pre ++ [x]) = S (length pre).
Proof. rewrite app_length. cbn. lia. Qed.

Lemma slot_mid q pre s t ks : BwMicro.slot (mkbk (mkbwh q (pre ++ s :: t)) ks) (length pre) = s.
Proof. unfold BwMicro.slot. cbn [b_h h_wr]. apply nth_mid. Qed.
Lemma set_pid_mid q pre s t ks pid : set_pid (mkbk (mkbwh q (pre ++ s :: t)) ks) (length pre) pid
  = mkbk (mkbwh q (pre ++ s <| ws_pid := pid |> :: t)) ks.
Proof. unfold set_pid. rewrite slot_mid. cbn [b_h h_wr set]. rewrite set_mid. reflexivity. Qed.
Lemma inc_seq_eq q wr ks : inc_seq (mkbk (mkbwh q wr) ks) = mkbk (mkbwh (q + 1) wr) ks.
Proof. reflexivity. Qed.

Lemma exec_prune e ks : forall wr pre q, exec_all (prune_p e (length wr) (length pre)) (mkbk (mkbwh q (pre ++ wr)) ks)
  = Ok (mkbk (mkbwh (q + snd (prune_slots e wr)) (pre ++ fst (prune_slots e wr))) ks, tt).
Proof.
  induction wr as [|s t IH]; intros pre q.
  - cbn [length prune_p prune_slots fst snd exec_all]. rewrite Z.add_0_r. reflexivity.
  - cbn [length prune_p prune_slots]. rewrite exec_at, slot_mid. specialize (IH (pre ++ [s <| ws_pid := (if (ws_pid s =? 0) || negb (e_probe e (ws_pid s) (ws_name s) =? 0) then ws_pid s else 0) |>])).
    destruct (prune_slots e t) as [t' c]. cbn [fst snd] in *. rewrite snoc_len in IH.
    destruct (ws_pid s =? 0) eqn:E0; cbn [orb obind] in *.
    + cbn [fst snd]. rewrite (snoc s). replace (s <| ws_pid := ws_pid s |>) with s in IH by (destruct s; reflexivity).
      rewrite IH, <- app_assoc. reflexivity.
    + destruct (e_probe e (ws_pid s) (ws_name s) =? 0); cbn [negb obind fst snd] in *.
      * rewrite exec_at. cbn [obind]. rewrite exec_at. cbn [obind]. rewrite set_pid_mid, inc_seq_eq.
        rewrite (snoc (s <| ws_pid := 0 |>)), IH, <- app_assoc. cbn [app]. do 4 f_equal. lia.
      * rewrite (snoc s). replace (s <| ws_pid := ws_pid s |>) with s in IH by (destruct s; reflexivity).
        rewrite IH, <- app_assoc. reflexivity.
Qed.

Lemma exec_sync_p e ks : forall wr cs pre cpre q, length cs = length wr -> length cpre = length pre ->
  exec_all (sync_p e (length wr) (length pre) (cpre ++ cs)) (mkbk (mkbwh q (pre ++ wr)) ks)
  = let '(wr', cs', ok, inc) := sync_slots e ks (Z.of_nat (length pre)) wr cs in
    Ok (mkbk (mkbwh (q + inc) (pre ++ wr')) ks, (cpre ++ cs', ok)).
Proof.
  induction wr as [|s t IH]; intros [|c cs] pre cpre q L LP; try discriminate L.
  - cbn [length sync_p sync_slots exec_all]. rewrite Z.add_0_r. reflexivity.
  - injection L as L. cbn [length sync_p sync_slots]. rewrite exec_at, slot_mid. cbv zeta.
    replace (nth (length pre) (cpre ++ c :: cs) conn0) with c by (rewrite <- LP; symmetry; apply nth_mid). unfold sync_slot. cbn [b_ks].
    assert (SN : forall s' c' q', exec_all (sync_p e (length t) (S (length pre)) (set_nat (cpre ++ c :: cs) (length pre) c')) (mkbk (mkbwh q' (pre ++ s' :: t)) ks)
       = let '(wr', cs', ok, inc) := sync_slots e ks (Z.of_nat (length pre) + 1) t cs in
         Ok (mkbk (mkbwh (q' + inc) (pre ++ s' :: wr')) ks, (cpre ++ c' :: cs', ok))).
    { intros s' c' q'. rewrite <- LP at 2. rewrite set_mid. rewrite (snoc c'), (snoc s'). rewrite <- (snoc_len s').
      rewrite IH by (rewrite ?snoc_len; congruence). rewrite snoc_len. replace (Z.of_nat (S (length pre))) with (Z.of_nat (length pre) + 1) by lia.
      destruct (sync_slots e ks (Z.of_nat (length pre) + 1) t cs) as [[[wr' cs'] ok] inc]. rewrite <- !app_assoc. reflexivity. }
    set (c1 := match cn_fd c with Some _ => _ | None => _ end). clearbody c1.
    destruct (cn_fd c1) eqn:Ec.
    { cbn [obind]. rewrite SN. destruct (sync_slots e ks (Z.of_nat (length pre) + 1) t cs) as [[[wr' cs'] ok] inc]. reflexivity. }
    destruct (ws_pid s =? 0).
    { cbn [obind]. rewrite SN. destruct (sync_slots e ks (Z.of_nat (length pre) + 1) t cs) as [[[wr' cs'] ok] inc]. reflexivity. }
    destruct (e_socket e (Z.of_nat (length pre))); cbn [negb].
    2:{ cbn [obind exec_all]. rewrite <- LP, set_mid, Z.add_0_r. reflexivity. }
    destruct (if e_connect e (Z.of_nat (length pre)) then sk_lookup ks (ws_name s) else None) as [k|].
    { cbn [obind]. rewrite SN. destruct (sync_slots e ks (Z.of_nat (length pre) + 1) t cs) as [[[wr' cs'] ok] inc]. reflexivity. }
    destruct (e_probe e (ws_pid s) (ws_name s) =? 0).
    + cbn [obind]. rewrite exec_at. cbn [obind]. rewrite exec_at. cbn [obind]. rewrite set_pid_mid, inc_seq_eq. rewrite SN.
      destruct (sync_slots e ks (Z.of_nat (length pre) + 1) t cs) as [[[wr' cs'] ok] inc]. rewrite Z.add_assoc. reflexivity.
    + cbn [obind exec_all]. rewrite <- LP, set_mid, Z.add_0_r. reflexivity.
Qed.
Definition full (h : bwh) : Prop := length (h_wr h) = BW_WAITMAX.
Lemma exec_sync e ks h seq cs : full h -> length cs = BW_WAITMAX -> exec_all (bw_sync_p e seq cs) (mkbk h ks)
  = let '(h', seq', cs', ok) := bw_sync e ks h seq cs in Ok (mkbk h' ks, (seq', cs', ok)).
Proof.
  intros LH LC. unfold bw_sync_p, bw_sync. rewrite exec_at. cbn [b_h]. destruct (seq =? h_seq h); [reflexivity|]. cbn [obind].
  rewrite exec_bind. pose proof (exec_sync_p e ks (h_wr h) cs [] [] (h_seq h) ltac:(congruence) eq_refl) as X. rewrite LH in X. cbn [length app Z.of_nat] in X.
  replace (mkbwh (h_seq h) (h_wr h)) with h in X by (destruct h; reflexivity). rewrite X. clear X.
  destruct (sync_slots e ks 0 (h_wr h) cs) as [[[wr' cs'] ok] inc]. cbn [obind snd fst]. destruct ok; [|reflexivity].
  rewrite exec_at. cbn [obind]. reflexivity.
Qed.

Lemma exec_wake_p e : forall wr cs pre cpre q ks, length cs = length wr -> length cpre = length pre ->
  exec_all (wake_p e (length wr) (length pre) (cpre ++ cs)) (mkbk (mkbwh q (pre ++ wr)) ks)
  = let '(wr', cs', ks', inc) := wake_slots e (Z.of_nat (length pre)) ks wr cs in
    Ok (mkbk (mkbwh (q + inc) (pre ++ wr')) ks', cpre ++ cs').
Proof.
  induction wr as [|s t IH]; intros [|c cs] pre cpre q ks L LP; try discriminate L.
  - cbn [length wake_p wake_slots exec_all]. rewrite Z.add_0_r. reflexivity.
  - injection L as L. cbn [length wake_p wake_slots]. rewrite exec_at. cbv zeta.
    replace (nth (length pre) (cpre ++ c :: cs) conn0) with c by (rewrite <- LP; symmetry; apply nth_mid). unfold wake_slot.
    assert (SN : forall s' c' q' ks, exec_all (wake_p e (length t) (S (length pre)) (cpre ++ c' :: cs)) (mkbk (mkbwh q' (pre ++ s' :: t)) ks)
       = let '(wr', cs', ks', inc) := wake_slots e (Z.of_nat (length pre) + 1) ks t cs in
         Ok (mkbk (mkbwh (q' + inc) (pre ++ s' :: wr')) ks', cpre ++ c' :: cs')).
    { intros s' c' q' ks'. rewrite (snoc c'), (snoc s'). rewrite <- (snoc_len s').
      rewrite IH by (rewrite ?snoc_len; congruence). rewrite snoc_len. replace (Z.of_nat (S (length pre))) with (Z.of_nat (length pre) + 1) by lia.
      destruct (wake_slots e (Z.of_nat (length pre) + 1) ks' t cs) as [[[wr' cs'] ok] inc]. rewrite <- !app_assoc. reflexivity. }
    destruct (cn_fd c) as [k|] eqn:Ec.
    2:{ cbn [obind]. rewrite SN. destruct (wake_slots e (Z.of_nat (length pre) + 1) ks t cs) as [[[wr' cs'] ks'] inc]. reflexivity. }
    cbn [b_ks]. destruct (k_open (sk ks k) && e_send e (Z.of_nat (length pre))).
    + cbn [obind]. destruct (k_pend (sk ks k) <? k_cap (sk ks k)).
      * match goal with |- context [exec_all _ ?S0] => change S0 with (mkbk (mkbwh q (pre ++ s :: t)) (sk_upd ks k (fun x => x <| k_pend := k_pend x + 1 |>))) end.
        rewrite SN. destruct (wake_slots e (Z.of_nat (length pre) + 1) _ t cs) as [[[wr' cs'] ks'] inc]. reflexivity.
      * rewrite SN. destruct (wake_slots e (Z.of_nat (length pre) + 1) _ t cs) as [[[wr' cs'] ks'] inc]. reflexivity.
    + cbn [obind]. rewrite exec_at. cbn [obind]. rewrite exec_at. cbn [obind]. rewrite inc_seq_eq, set_pid_mid.
      replace (set_nat (cpre ++ c :: cs) (length pre) (c <| cn_fd := None |>)) with (cpre ++ c <| cn_fd := None |> :: cs)
        by (rewrite <- LP; symmetry; apply set_mid). rewrite SN.
      destruct (wake_slots e (Z.of_nat (length pre) + 1) ks t cs) as [[[wr' cs'] ks'] inc]. rewrite Z.add_assoc. reflexivity.
Qed.

Lemma prune_len e wr : length (fst (prune_slots e wr)) = length wr.
Proof.
  induction wr as [|s t IH]; [reflexivity|]. cbn [prune_slots]. destruct (prune_slots e t) as [t' c]. cbn [fst] in IH.
  destruct (ws_pid s =? 0); [|destruct (e_probe e (ws_pid s) (ws_name s) =? 0)]; cbn [fst length]; rewrite IH; reflexivity.
Qed.
Lemma prune_full e h : full h -> full (prune_handle e h).
Proof. unfold full, prune_handle. pose proof (prune_len e (h_wr h)) as X. destruct (prune_slots e (h_wr h)) as [t' c]. cbn [h_wr fst] in *. congruence. Qed.
Lemma sync_slots_len e ks : forall wr cs n wr' cs' ok inc, sync_slots e ks n wr cs = (wr', cs', ok, inc) ->
  length wr' = length wr /\ length cs' = length cs.
Proof.
  induction wr as [|s t IH]; intros [|c cs] n wr' cs' ok inc; cbn [sync_slots]; try (intros [= <- <- <- <-]; split; reflexivity).
  destruct (sync_slot e ks n s c) as [[[s1 c1] ok1] inc1]. destruct ok1; [|intros [= <- <- <- <-]; split; reflexivity].
  destruct (sync_slots e ks (n + 1) t cs) as [[[t1 cs1] ok2] inc2] eqn:E. apply IH in E. destruct E as [E1 E2].
  intros [= <- <- <- <-]. cbn [length]. rewrite E1, E2. split; reflexivity.
Qed.
Lemma sync_len e ks h seq cs h' seq' cs' ok : full h -> length cs = BW_WAITMAX -> bw_sync e ks h seq cs = (h', seq', cs', ok) ->
  full h' /\ length cs' = BW_WAITMAX.
Proof.
  intros LH LC. unfold bw_sync. destruct (seq =? h_seq h); [intros [= <- <- <- <-]; split; assumption|].
  destruct (sync_slots e ks 0 (h_wr h) cs) as [[[wr1 cs1] ok1] inc] eqn:E. apply sync_slots_len in E. destruct E as [E1 E2].
  intros [= <- <- <- <-]. unfold full in *. cbn [h_wr]. split; congruence.
Qed.
Lemma wake_slots_len e : forall wr cs n ks wr' cs' ks' inc, wake_slots e n ks wr cs = (wr', cs', ks', inc) ->
  length wr' = length wr /\ length cs' = length cs.
Proof.
  induction wr as [|s t IH]; intros [|c cs] n ks wr' cs' ks' inc; cbn [wake_slots]; try (intros [= <- <- <- <-]; split; reflexivity).
  destruct (wake_slot e n ks s c) as [[[s1 c1] ks1] inc1].
  destruct (wake_slots e (n + 1) ks1 t cs) as [[[t1 cs1] ks2] inc2] eqn:E. apply IH in E. destruct E as [E1 E2].
  intros [= <- <- <- <-]. cbn [length]. rewrite E1, E2. split; reflexivity.
Qed.
(** a handle as its owner has it *)
Definition conns (w : bwt) : Prop := match w with Wake _ cs => length cs = BW_WAITMAX | _ => True end.
Lemma wake_len e ks h w ks' h' w' ok : full h -> conns w -> bw_wake e ks h w = Ok (ks', h', w', ok) -> full h' /\ conns w'.
Proof.
  intros LH LC. destruct w as [seq cs|n s p]; [|discriminate]. unfold bw_wake. destruct (bw_sync e ks h seq cs) as [[[h1 seq1] cs1] ok1] eqn:E.
  eapply sync_len in E; eauto. destruct E as [E1 E2]. destruct ok1.
  - destruct (wake_slots e 0 ks (h_wr h1) cs1) as [[[wr2 cs2] ks2] inc] eqn:F. apply wake_slots_len in F. destruct F as [F1 F2].
    intros [= <- <- <- <-]. unfold full in *. cbn [h_wr conns]. split; congruence.
  - intros [= <- <- <- <-]. split; assumption.
Qed.

Lemma exec_wake e ks h w : full h -> conns w ->
  exec_all (bw_wake_p e w) (mkbk h ks)
  = do x <- bw_wake e ks h w; let '(ks', h', w', ok) := x in Ok (mkbk h' ks', (w', ok)).
Proof.
  intros LH LC. destruct w as [seq cs|n s p]; [|reflexivity]. unfold bw_wake_p, bw_wake. rewrite exec_bind, exec_sync by assumption.
  destruct (bw_sync e ks h seq cs) as [[[h' seq'] cs'] ok] eqn:E. cbn [obind]. destruct ok; [|reflexivity].
  rewrite exec_bind.
  assert (LH' : full h' /\ length cs' = BW_WAITMAX) by (eapply sync_len; eauto). destruct LH' as [LH' LC'].
  pose proof (exec_wake_p e (h_wr h') cs' [] [] (h_seq h') ks ltac:(unfold full in LH'; congruence) eq_refl) as X. rewrite LH' in X. cbn [length app Z.of_nat] in X.
  replace (mkbwh (h_seq h') (h_wr h')) with h' in X by (destruct h'; reflexivity). rewrite X. clear X.
  destruct (wake_slots e 0 ks (h_wr h') cs') as [[[wr' cs2] ks2] inc]. reflexivity.
Qed.
Lemma exec_prune_h e ks h : full h -> exec_all (prune_p e BW_WAITMAX 0) (mkbk h ks) = Ok (mkbk (prune_handle e h) ks, tt).
Proof.
  intros LH. pose proof (exec_prune e ks (h_wr h) [] (h_seq h)) as X. rewrite LH in X. cbn [length app] in X.
  replace (mkbwh (h_seq h) (h_wr h)) with h in X by (destruct h; reflexivity). rewrite X. unfold prune_handle. destruct (prune_slots e (h_wr h)); reflexivity.
Qed.
Lemma set_nat_twice {A} (l : list A) n x y : set_nat (set_nat l n x) n y = set_nat l n y.
Proof. revert n. induction l as [|z l IH]; intros [|n]; cbn [set_nat]; try reflexivity. rewrite IH. reflexivity. Qed.
Lemma nth_set_nat {A} (d : A) l n x : (n < length l)%nat -> nth n (set_nat l n x) d = x.
Proof. revert n. induction l as [|z l IH]; intros [|n] H; cbn [length] in H; try lia; cbn [set_nat nth]; [reflexivity|apply IH; lia]. Qed.
Lemma set_nat_len {A} (l : list A) n x : length (set_nat l n x) = length l.
Proof. revert n. induction l as [|z l IH]; intros [|n]; cbn [set_nat length]; try reflexivity. rewrite IH. reflexivity. Qed.
Lemma find_free_lt wr : forall i n, find_free wr i = Some n -> (i <= n < i + length wr)%nat.
Proof.
  induction wr as [|s t IH]; intros i n; cbn [find_free length]; [discriminate|]. destruct (ws_pid s =? 0).
  - intros [= <-]. lia.
  - intros H. apply IH in H. lia.
Qed.
Lemma sk_upd_last ks k f : sk_upd (ks ++ [k]) (length ks) f = ks ++ [f k].
Proof. unfold sk_upd, sk. rewrite nth_mid. apply set_mid. Qed.
Lemma exec_open_wait e ks h pid name : full h -> exec_all (bw_open_wait_p e pid name) (mkbk h ks)
  = let '(ks', h', o) := bw_open_wait e ks h pid name in Ok (mkbk h' ks', o).
Proof.
  intros LH. unfold bw_open_wait_p, bw_open_wait. destruct (e_alloc e); cbn [negb]; [|reflexivity].
  rewrite exec_bind, exec_prune_h by assumption. cbn [obind]. rewrite exec_at. cbn [b_h b_ks].
  set (h1 := prune_handle e h). clearbody h1. destruct (find_free (h_wr h1) 0) as [n|] eqn:F; [|reflexivity].
  destruct (if e_bind e then sk_lookup ks name else Some 0%nat); [reflexivity|]. cbn [obind].
  apply find_free_lt in F. destruct h1 as [q wr]. cbn [h_wr h_seq] in *.
  rewrite exec_at. cbn [obind]. rewrite exec_at. cbn [obind]. rewrite exec_at. cbn [obind].
  unfold set_pid, set_name, inc_seq, BwMicro.slot. cbn [b_h b_ks h_wr h_seq set].
  rewrite nth_set_nat by lia. rewrite set_nat_twice.
  destruct (e_self e); [reflexivity|].
  rewrite exec_at. cbn [obind]. rewrite exec_at. cbn [obind exec_all].
  cbn [b_h b_ks h_wr h_seq set]. rewrite nth_set_nat by lia. rewrite !set_nat_twice, sk_upd_last. reflexivity.
Qed.
Lemma exec_open_wake e ks h : full h -> exec_all (bw_open_wake_p e) (mkbk h ks)
  = let '(h', o) := bw_open_wake e ks h in Ok (mkbk h' ks, o).
Proof.
  intros LH. pose proof (prune_full e _ LH) as LP. unfold bw_open_wake_p, bw_open_wake. destruct (e_alloc e); cbn [negb]; [|reflexivity].
  rewrite exec_bind, exec_prune_h by assumption. cbn [obind]. rewrite exec_bind, exec_sync by (rewrite ?repeat_length; auto).
  destruct (bw_sync e ks (prune_handle e h) (-1) (repeat conn0 BW_WAITMAX)) as [[[h' seq'] cs'] ok]. reflexivity.
Qed.
Lemma exec_force e ks h w want : exec_all (bw_force_p e w want) (mkbk h ks)
  = do x <- bw_force e ks w want; Ok (mkbk h (fst x), snd x).
Proof.
  destruct w as [seq cs|n s p]; [reflexivity|]. unfold bw_force_p, bw_force. destruct (e_force e); cbn [negb]; [|reflexivity].
  rewrite exec_at. cbn [b_ks b_h]. destruct want, (k_pend (sk ks s) >? 0); reflexivity.
Qed.
Lemma exec_close ks h w : exec_all (bw_close_p w) (mkbk h ks) = let '(ks', h') := bw_close ks h w in Ok (mkbk h' ks', tt).
Proof. destruct w as [seq cs|n s p]; reflexivity. Qed.

Lemma open_wait_len e ks h pid name ks' h' o : full h -> bw_open_wait e ks h pid name = (ks', h', o) -> full h' /\ forall w, o = Some w -> conns w.
Proof.
  intros LH. pose proof (prune_full e _ LH) as LP. unfold bw_open_wait. destruct (e_alloc e); cbn [negb]; [|intros [= <- <- <-]; split; [assumption|discriminate]].
  destruct (find_free _ 0) as [n|]; [|intros [= <- <- <-]; split; [assumption|discriminate]].
  destruct (if e_bind e then sk_lookup ks name else Some 0%nat); [intros [= <- <- <-]; split; [assumption|discriminate]|].
  destruct (e_self e); intros [= <- <- <-]; unfold full in *; cbn [h_wr set]; rewrite ?set_nat_len; (split; [assumption|]); [intros w [= <-]; exact I|discriminate].
Qed.
Lemma open_wake_len e ks h h' o : full h -> bw_open_wake e ks h = (h', o) -> full h' /\ forall w, o = Some w -> conns w.
Proof.
  intros LH. pose proof (prune_full e _ LH) as LP. unfold bw_open_wake. destruct (e_alloc e); cbn [negb]; [|intros [= <- <-]; split; [assumption|discriminate]].
  destruct (bw_sync e ks (prune_handle e h) (-1) (repeat conn0 BW_WAITMAX)) as [[[h1 seq1] cs1] ok1] eqn:E.
  eapply sync_len in E; [|assumption|apply repeat_length]. destruct E as [E1 E2]. intros [= <- <-]. split; [assumption|]. destruct ok1; [|discriminate]. intros w [= <-]. exact E2.
Qed.
Lemma close_len ks h w ks' h' : full h -> bw_close ks h w = (ks', h') -> full h'.
Proof. intros LH. destruct w; intros [= <- <-]; [assumption|]. unfold full in *. cbn [h_wr]. rewrite set_nat_len. exact LH. Qed.

(** ** the invariant: 64 slots, 64 connections *)
Record LI (w : world) : Prop := {
  li_w2r : full (w_w2r w);
  li_r2w : full (w_r2w w);
  li_a : forall c h, c_w2r (cli w c) = Some h -> conns h;
  li_b : forall c h, c_r2w (cli w c) = Some h -> conns h }.

Lemma exec_app : forall bs pos r app, wr_mem pos bs (r_app r) = Ok app -> exec_all (app_p pos bs) r = Ok (r <| r_app := app |>, tt).
Proof.
  induction bs as [|x t IH]; intros pos r app H; cbn [app_p]; apply wr_mem_inv in H; destruct H as (H0 & H1 & ->).
  - rewrite blit_nil. destruct r; reflexivity.
  - rewrite exec_at. pose proof H1 as Hl2. rewrite zlen_cons in Hl2. pose proof (zlen_nonneg t).
    rewrite zset_ok by lia. cbn [obind]. rewrite (IH _ _ (blit pos (x :: t) (r_app r))); [reflexivity|].
    cbn [r_app set]. rewrite wr_mem_ok by (rewrite ?zlen_zupd; lia). f_equal. symmetry; apply (blit_cons 0); assumption.
Qed.

Lemma put_bk_t m h ks : put_bk true m (mkbk h ks) = mksh (sh_ring m) h (sh_r2w m) ks. Proof. reflexivity. Qed.
Lemma put_bk_f m h ks : put_bk false m (mkbk h ks) = mksh (sh_ring m) (sh_w2r m) h ks. Proof. reflexivity. Qed.

Theorem section_exec e w c w' ev : LI w -> run_client e w c = Ok (w', ev) ->
  exec_all (section e (cli w c)) (shared w) = Ok (shared w', tt).
Proof.
  intros L. unfold run_client, section. set (cl := cli w c) in *. cbv zeta.
  destruct (e_lock e) eqn:El; cbn [negb].
  2:{ intros H. destruct (c_pc cl) as [ |k iov len nb|k iov len nb|buf niov|buf niov| | |reset|get st sz] eqn:Ep;
        unfold crit_write, crit_read, do_stat, do_app in H; try rewrite El in H; cbn [negb obind] in H;
        try (injection H as <- <-; reflexivity).
      apply obind_ok in H. destruct H as ([cl1 rs] & _ & H). injection H as <- <-. reflexivity. }
  destruct (c_pc cl) as [ |k iov len nb|k iov len nb|buf niov|buf niov| | |reset|get st sz] eqn:Ep;
    try (intros [= <- <-]; reflexivity).
  - (* writer *)
    intros H. apply obind_ok in H. destruct H as (res & E & H). unfold crit_write in E. rewrite El in E. cbn [negb] in E. cbv zeta in E.
    apply obind_ok in E. destruct E as (o & Eo & E). rewrite exec_bind, exec_ring. cbn [shared sh_ring].
    rewrite (write_exec _ _ _ false _ _ Eo). cbn [obind]. destruct o as [r'|].
    + cbn [obind]. destruct (c_w2r cl) as [h|] eqn:Eh; [|discriminate E].
      apply obind_ok in E. destruct E as ([[[ks bh] h'] ok] & Ew & E). rewrite exec_bind, exec_bw.
      unfold get_bk. rewrite exec_wake; [|exact (li_w2r _ L)|apply (li_a _ L c), Eh]. cbn [shared put_ring sh_ring sh_w2r sh_r2w sh_ks w_ks w_w2r].
      rewrite Ew. cbn [obind snd]. destruct ok; injection E as <-; apply obind_ok in H; destruct H as ([cl1 rs] & _ & H); injection H as <- <-;
        rewrite ?put_bk_t; reflexivity.
    + cbn [obind]. destruct nb; [injection E as <-; apply obind_ok in H; destruct H as ([cl1 rs] & _ & H); injection H as <- <-; destruct w; reflexivity|].
      destruct (c_r2w cl) as [[|]|]; try discriminate E. injection E as <-. injection H as <- <-. destruct w; reflexivity.
  - (* reader *)
    intros H. apply obind_ok in H. destruct H as (res & E & H). unfold crit_read in E. rewrite El in E. cbn [negb] in E.
    apply obind_ok in E. destruct E as ([[q md] o] & Eo & E). rewrite exec_bind, exec_ring. cbn [shared sh_ring].
    rewrite (read_exec _ _ _ _ _ _ _ _ Eo). cbn [obind]. destruct o as [[x cur']|]; cbn [snd obind].
    + cbv zeta in E. apply obind_ok in E. destruct E as ([w1 cl1] & E1 & E). cbn [c_w2r set] in E1, E.
      replace (rl_nr (loc_of x)) with (rd_nr x) by reflexivity.
      destruct (rd_nr x >? 0) eqn:En.
      * cbn [c_r2w set] in E1. destruct (c_r2w cl) as [h2|] eqn:Eh2; [|discriminate E1]. apply obind_ok in E1.
        destruct E1 as ([[[ks bh] h'] ok] & Ew & E1). injection E1 as <- <-. cbn [c_w2r set] in E.
        destruct (c_w2r cl) as [h|] eqn:Eh; [|discriminate E]. rewrite exec_bind, exec_bind, exec_bw.
        unfold get_bk. rewrite exec_wake; [|exact (li_r2w _ L)|apply (li_b _ L c), Eh2]. cbn [put_ring shared sh_ring sh_w2r sh_r2w sh_ks].
        cbn [w_ks w_r2w set] in Ew. rewrite Ew. cbn [obind exec_all]. rewrite exec_bind, exec_bw, put_bk_f.
        cbn [put_ring shared sh_ring sh_w2r sh_r2w sh_ks]. unfold get_bk. cbn [sh_w2r sh_ks]. rewrite exec_force.
        apply obind_ok in E. destruct E as ([ks2 ok2] & Ef & E). cbn [w_ks set] in Ef. rewrite Ef. cbn [obind fst snd exec_all].
        injection E as <-. injection H as <- <-. reflexivity.
      * injection E1 as <- <-. cbn [c_w2r set] in E. destruct (c_w2r cl) as [h|] eqn:Eh; [|discriminate E].
        rewrite exec_bind. cbn [exec_all obind]. rewrite exec_bind, exec_bw. unfold get_bk. cbn [put_ring shared sh_ring sh_w2r sh_r2w sh_ks].
        rewrite exec_force. apply obind_ok in E. destruct E as ([ks2 ok2] & Ef & E). cbn [w_ks set] in Ef. rewrite Ef. cbn [obind fst snd exec_all].
        injection E as <-. injection H as <- <-. reflexivity.
    + cbn [c_w2r c_flags set] in E. destruct (c_w2r cl) as [h|] eqn:Eh; [|discriminate E].
      destruct (has (c_flags cl) SHR_NONBLOCK).
      * rewrite exec_bind, exec_bw. unfold get_bk. cbn [put_ring shared sh_ring sh_w2r sh_r2w sh_ks]. rewrite exec_force.
        apply obind_ok in E. destruct E as ([ks2 ok2] & Ef & E). rewrite Ef. cbn [obind fst snd exec_all]. injection E as <-. injection H as <- <-. reflexivity.
      * destruct h; [discriminate E|]. injection E as <-. injection H as <- <-. destruct w; reflexivity.
  - (* opening a wait handle for flush *)
    intros H. rewrite exec_bind, exec_bw. unfold get_bk. cbn [shared sh_r2w sh_ks]. rewrite exec_open_wait by exact (li_r2w _ L).
    destruct (bw_open_wait e (w_ks w) (w_r2w w) (c_pid cl) (e_name e)) as [[ks h] o]. cbn [obind exec_all]. destruct o.
    + apply obind_ok in H. destruct H as ([cl1 rs] & _ & H). injection H as <- <-. reflexivity.
    + injection H as <- <-. reflexivity.
  - (* close *)
    intros [= <- <-]. unfold close_handles. rewrite exec_bind.
    destruct (c_w2r cl) as [h|].
    + rewrite exec_bw. unfold get_bk at 1. cbn [shared sh_w2r sh_ks]. rewrite exec_close. destruct (bw_close (w_ks w) (w_w2r w) h) as [ks1 h1].
      cbn [obind]. rewrite put_bk_t. cbn [sh_ring sh_r2w]. destruct (c_r2w cl) as [h2|]; [|reflexivity].
      rewrite exec_bw. unfold get_bk. cbn [shared sh_r2w sh_ks]. rewrite exec_close. cbn [w_ks w_r2w set]. destruct (bw_close ks1 (w_r2w w) h2) as [ks2 h3]. reflexivity.
    + cbn [exec_all obind]. destruct (c_r2w cl) as [h2|]; [|destruct w; reflexivity].
      rewrite exec_bw. unfold get_bk. cbn [shared sh_r2w sh_ks]. rewrite exec_close. cbn [w_ks w_r2w set]. destruct (bw_close (w_ks w) (w_r2w w) h2) as [ks2 h3]. reflexivity.
  - (* stat *)
    unfold do_stat. rewrite El. cbn [negb]. cbv zeta. destruct reset as [t|]; intros [= <- <-]; [|destruct w; reflexivity].
    unfold reset_p. rewrite exec_ring, exec_at. cbn [obind]. rewrite exec_at. cbn [obind exec_all]. reflexivity.
  - (* appdata *)
    unfold do_app. rewrite El. cbn [negb]. unfold setapp_p. rewrite exec_ring, exec_at. cbn [shared sh_ring].
    destruct (r_app_len (w_ring w) =? 0); [intros [= <- <-]; destruct w; reflexivity|]. intros H.
    apply obind_ok in H. destruct H as ([r x] & E & H). injection H as <- <-.
    destruct get as [ | |b], st as [s|];
      repeat match type of E with
      | (if ?b then _ else _) = Ok _ => destruct b eqn:?
      | obind _ _ = Ok _ => apply obind_ok in E; let y := fresh "y" in destruct E as (y & ? & E)
      end; try discriminate E; cbn [negb] in *;
      try (injection E as <- <-; cbn [obind exec_all]; destruct w; reflexivity).
    + injection E as <- <-. match goal with H : rd_mem 0 sz s = Ok _ |- _ => rewrite H end. cbn [obind].
      match goal with H : wr_mem 0 _ (r_app _) = Ok _ |- _ => rewrite (exec_app _ _ _ _ H) end. reflexivity.
    + injection E as <- <-. match goal with H : rd_mem 0 sz s = Ok _ |- _ => rewrite H end. cbn [obind].
      match goal with H : wr_mem 0 _ (r_app _) = Ok _ |- _ => rewrite (exec_app _ _ _ _ H) end. reflexivity.
Qed.

(** lib/bw.c keeps the number of slots *)
Definition bklen (s : bks) : nat := length (h_wr (b_h s)).
Definition keeps {A} (p : prog bks A) : Prop := (forall s l s', dies_at p s l s' -> bklen s' = bklen s) /\ (forall s s' x, exec_all p s = Ok (s', x) -> bklen s' = bklen s).
Lemma keeps_ret {A} (x : A) : keeps (Ret x).
Proof. split; [intros s l s' D; apply dies_ret in D; contradiction|]. intros s s' y E. apply ok_pair in E. destruct E as [<- _]. reflexivity. Qed.
Lemma keeps_at {A} line (f : bks -> outcome (bks * prog bks A)) : (forall s s' p', f s = Ok (s', p') -> bklen s' = bklen s /\ keeps p') -> keeps (At line f).
Proof.
  intros H. split.
  - intros s l s' D. apply dies_at_inv in D. destruct D as [[-> ->]|(s1 & p1 & E & D)]; [reflexivity|]. destruct (H _ _ _ E) as [H1 [H2 _]]. rewrite (H2 _ _ _ D). exact H1.
  - intros s s' x. rewrite exec_at. destruct (f s) as [[s1 p1]| | |] eqn:E; cbn [obind]; try discriminate. intros X. destruct (H _ _ _ E) as [H1 [_ H2]]. rewrite (H2 _ _ _ X). exact H1.
Qed.
Lemma keeps_bind {A B} (p : prog bks A) (k : A -> prog bks B) : keeps p -> (forall x, keeps (k x)) -> keeps (bindp p k).
Proof.
  intros [P1 P2] K. split.
  - intros s l s' D. apply dies_bind in D. destruct D as [D|(s1 & x & E & D)]; [exact (P1 _ _ _ D)|]. rewrite (proj1 (K x) _ _ _ D). exact (P2 _ _ _ E).
  - intros s s' x. rewrite exec_bind. destruct (exec_all p s) as [[s1 y]| | |] eqn:E; cbn [obind]; try discriminate. intros X. rewrite (proj2 (K y) _ _ _ X). exact (P2 _ _ _ E).
Qed.
Lemma bklen_pid s n p : bklen (set_pid s n p) = bklen s. Proof. unfold bklen, set_pid. cbn [b_h h_wr set]. apply set_nat_len. Qed.
Lemma bklen_name s n p : bklen (set_name s n p) = bklen s. Proof. unfold bklen, set_name. cbn [b_h h_wr set]. apply set_nat_len. Qed.
Lemma bklen_inc s : bklen (inc_seq s) = bklen s. Proof. reflexivity. Qed.
Ltac keeps1 := match goal with
  | |- keeps (Ret _) => apply keeps_ret
  | |- keeps (At _ _) => apply keeps_at; intros ? ? ? E; cbv beta zeta in E; try discriminate E
  | |- keeps (bindp _ _) => apply keeps_bind; [|intros ?]
  | E : Ok _ = Ok _ |- _ => apply ok_pair in E; destruct E as [<- <-]
  | E : (if ?b then _ else _) = Ok _ |- _ => destruct b; try discriminate E
  | E : match ?x with Some _ => _ | None => _ end = Ok _ |- _ => destruct x; try discriminate E
  | |- keeps (if ?b then _ else _) => destruct b
  | |- bklen ?x = bklen ?x /\ _ => split; [reflexivity|]
  | |- bklen _ = bklen _ /\ _ => split; [rewrite ?bklen_inc, ?bklen_pid, ?bklen_name; try reflexivity|]
  end.
Lemma keeps_prune e m : forall n, keeps (prune_p e m n).
Proof. induction m as [|m IH]; intros n; cbn [prune_p]; repeat first [keeps1|apply IH]. Qed.
Lemma keeps_sync_p e m : forall n cs, keeps (sync_p e m n cs).
Proof. induction m as [|m IH]; intros n cs; cbn [sync_p]; repeat first [keeps1|apply IH]. Qed.
Lemma keeps_sync e seq cs : keeps (bw_sync_p e seq cs).
Proof. unfold bw_sync_p. repeat first [keeps1|apply keeps_sync_p]. Qed.
Lemma keeps_wake_p e m : forall n cs, keeps (wake_p e m n cs).
Proof.
  induction m as [|m IH]; intros n cs; cbn [wake_p]; repeat first [keeps1|apply IH].
  match goal with |- bklen (if ?b then _ else _) = _ => destruct b; reflexivity end.
Qed.
Lemma keeps_wake e w : keeps (bw_wake_p e w).
Proof.
  destruct w as [seq cs|n sid pl]; cbn [bw_wake_p]; [|keeps1].
  apply keeps_bind; [apply keeps_sync|]. intros [[q c] ok]. destruct ok; [|keeps1]. apply keeps_bind; [apply keeps_wake_p|intros; keeps1].
Qed.
Lemma keeps_open_wait e pid name : keeps (bw_open_wait_p e pid name).
Proof. unfold bw_open_wait_p. repeat first [keeps1|apply keeps_prune]. Qed.
Lemma keeps_open_wake e : keeps (bw_open_wake_p e).
Proof.
  unfold bw_open_wake_p. keeps1; [keeps1|]. keeps1; [apply keeps_prune|]. apply keeps_bind; [apply keeps_sync|]. intros [[q c] ok]. keeps1.
Qed.
Lemma keeps_force e w want : keeps (bw_force_p e w want).
Proof.
  destruct w; cbn [bw_force_p]; repeat keeps1.
  match goal with |- bklen (if ?b then _ else if ?c then _ else _) = _ => destruct b; [|destruct c]; reflexivity end.
Qed.
Lemma keeps_close w : keeps (bw_close_p w).
Proof. destruct w; cbn [bw_close_p]; repeat keeps1. Qed.

(** on the shared memory *)
Definition shlen (m : shm) : nat * nat := (length (h_wr (sh_w2r m)), length (h_wr (sh_r2w m))).
Definition skeeps {A} (p : prog shm A) : Prop := (forall s l s', dies_at p s l s' -> shlen s' = shlen s) /\ (forall s s' x, exec_all p s = Ok (s', x) -> shlen s' = shlen s).
Lemma skeeps_ret {A} (x : A) : skeeps (Ret x).
Proof. split; [intros s l s' D; apply dies_ret in D; contradiction|]. intros s s' y E. apply ok_pair in E. destruct E as [<- _]. reflexivity. Qed.
Lemma skeeps_stop {A} line (f : shm -> outcome (shm * prog shm A)) : (forall s, f s = UB) -> skeeps (At line f).
Proof.
  intros H. split.
  - intros s l s' D. apply dies_at_inv in D. destruct D as [[-> ->]|(s1 & p1 & E & D)]; [reflexivity|]. rewrite H in E. discriminate E.
  - intros s s' x. rewrite exec_at, H. discriminate.
Qed.
Lemma skeeps_bind {A B} (p : prog shm A) (k : A -> prog shm B) : skeeps p -> (forall x, skeeps (k x)) -> skeeps (bindp p k).
Proof.
  intros [P1 P2] K. split.
  - intros s l s' D. apply dies_bind in D. destruct D as [D|(s1 & x & E & D)]; [exact (P1 _ _ _ D)|]. rewrite (proj1 (K x) _ _ _ D). exact (P2 _ _ _ E).
  - intros s s' x. rewrite exec_bind. destruct (exec_all p s) as [[s1 y]| | |] eqn:E; cbn [obind]; try discriminate. intros X. rewrite (proj2 (K y) _ _ _ X). exact (P2 _ _ _ E).
Qed.
Lemma skeeps_ring {A} (p : prog ring A) : skeeps (on_ring p).
Proof.
  split.
  - intros s l s' D. apply dies_ring in D. destruct D as (r & _ & ->). reflexivity.
  - intros s s' x. rewrite exec_ring. destruct (exec_all p (sh_ring s)) as [[r y]| | |]; cbn [obind]; try discriminate. intros E. apply ok_pair in E. destruct E as [<- _]. reflexivity.
Qed.
Lemma shlen_put b m x : bklen x = bklen (get_bk b m) -> shlen (put_bk b m x) = shlen m.
Proof. destruct m as [r1 h1 h2 ks1]. unfold shlen, bklen. destruct b; cbn; intros ->; reflexivity. Qed.
Lemma skeeps_bw {A} b (p : prog bks A) : keeps p -> skeeps (on_bw b p).
Proof.
  intros [K1 K2]. split.
  - intros s l s' D. apply dies_bw in D. destruct D as (x & D & ->). apply shlen_put. exact (K1 _ _ _ D).
  - intros s s' x. rewrite exec_bw. destruct (exec_all p (get_bk b s)) as [[r y]| | |] eqn:E; cbn [obind]; try discriminate. intros X. apply ok_pair in X. destruct X as [<- _].
    apply shlen_put. exact (K2 _ _ _ E).
Qed.
Ltac skeeps1 := match goal with
  | |- skeeps (Ret _) => apply skeeps_ret
  | |- skeeps (At _ _) => apply skeeps_stop; reflexivity
  | |- skeeps (on_ring _) => apply skeeps_ring
  | |- skeeps (on_bw _ _) => apply skeeps_bw; first [apply keeps_wake|apply keeps_force|apply keeps_close|apply keeps_open_wait|apply keeps_open_wake]
  | |- skeeps (bindp _ _) => apply skeeps_bind; [|intros ?]
  | |- skeeps (if ?b then _ else _) => destruct b
  | |- skeeps (match ?x with Some _ => _ | None => _ end) => destruct x
  | |- skeeps (let '(_, _) := ?x in _) => destruct x
  end.
Lemma skeeps_section e cl : skeeps (section e cl).
Proof. unfold section. destruct (negb (e_lock e)); [apply skeeps_ret|]. destruct (c_pc cl); repeat skeeps1. Qed.
Lemma skeeps_open e w flags pid : skeeps (open_section e w flags pid).
Proof. unfold open_section, fail_open, close_opt. repeat skeeps1. Qed.

Lemma LI_kill w c e line m : LI w -> dies_at (section e (cli w c)) (shared w) line m -> LI (killed w c m).
Proof.
  intros L D. apply (proj1 (skeeps_section e (cli w c))) in D. unfold shlen in D. cbn [shared sh_w2r sh_r2w] in D. injection D as D1 D2.
  constructor.
  - unfold full. etransitivity; [exact D1|]. apply L.
  - unfold full. etransitivity; [exact D2|]. apply L.
  - intros c' h. destruct (Nat.eq_dec c' c) as [->|N].
    + unfold killed, cli, setc. cbn. intros H. destruct (Nat.lt_ge_cases c (length (w_cl w))) as [Lt|Ge].
      * rewrite nth_set_nat in H by exact Lt. cbn in H. exact (li_a _ L c h H).
      * rewrite nth_overflow in H by (rewrite set_nat_len; exact Ge). discriminate H.
    + rewrite cli_killed_other by exact N. apply L.
  - intros c' h. destruct (Nat.eq_dec c' c) as [->|N].
    + unfold killed, cli, setc. cbn. intros H. destruct (Nat.lt_ge_cases c (length (w_cl w))) as [Lt|Ge].
      * rewrite nth_set_nat in H by exact Lt. cbn in H. exact (li_b _ L c h H).
      * rewrite nth_overflow in H by (rewrite set_nat_len; exact Ge). discriminate H.
    + rewrite cli_killed_other by exact N. apply L.
Qed.
Lemma LI_kill_open w e flags pid line m : LI w -> dies_at (open_section e w flags pid) (shared w) line m -> LI (killed_opening w m).
Proof.
  intros L D. apply (proj1 (skeeps_open e w flags pid)) in D. unfold shlen in D. cbn [shared sh_w2r sh_r2w] in D. injection D as D1 D2.
  constructor; [unfold full; etransitivity; [exact D1|]; apply L|unfold full; etransitivity; [exact D2|]; apply L|intros c h; rewrite cli_opening; apply L|intros c h; rewrite cli_opening; apply L].
Qed.

Definition okh (cl : client) : Prop := (forall h, c_w2r cl = Some h -> conns h) /\ (forall h, c_r2w cl = Some h -> conns h).
Lemma LI_cl w c : LI w -> okh (cli w c). Proof. intros L. split; [apply (li_a _ L)|apply (li_b _ L)]. Qed.
Lemma LI_setc w w1 c cl' : LI w -> w_cl w1 = w_cl w -> full (w_w2r w1) -> full (w_r2w w1) -> okh cl' -> LI (setc w1 c cl').
Proof.
  intros L E F1 F2 [H1 H2].
  assert (Q : forall c', okh (cli (setc w1 c cl') c')).
  { intros c'. destruct (Nat.eq_dec c' c) as [->|N].
    - destruct (Nat.lt_ge_cases c (length (w_cl w1))) as [Lt|Ge]; [rewrite cli_setc_same by exact Lt; split; assumption|].
      unfold cli, setc. cbn. rewrite nth_overflow by (rewrite set_nat_len; exact Ge). split; discriminate.
    - rewrite cli_setc_other by exact N. unfold cli. rewrite E. exact (LI_cl _ c' L). }
  constructor; [exact F1|exact F2|intros c' h; apply Q|intros c' h; apply Q].
Qed.
Lemma same_h_okh a b : same_h a b -> okh a -> okh b.
Proof. intros [E1 E2] [H1 H2]. split; intros h; [rewrite E1; apply H1|rewrite E2; apply H2]. Qed.
Lemma ctl_okh cl fd cl' r : do_ctl cl fd = Ok (cl', r) -> okh cl -> okh cl'.
Proof.
  assert (B : forall h fd h' ok, bw_ctl h fd = Ok (h', ok) -> conns h').
  { intros [|n s p] fd0 h' ok; cbn [bw_ctl]; [discriminate|]. destruct (existsb _ _); intros E; injection E as <- <-; exact I. }
  unfold do_ctl. intros H [O1 O2]. apply obind_ok in H. destruct H as ([cl1 sc] & E1 & H). apply obind_ok in H. destruct H as ([cl2 sc2] & E2 & H). injection H as <- _.
  assert (O : okh cl1).
  { destruct (has _ _); [|injection E1 as <- _; split; assumption]. destruct (c_r2w cl) as [h|] eqn:Eh; [|injection E1 as <- _; split; auto; congruence].
    apply obind_ok in E1. destruct E1 as ([h' ok] & Ec & E1). injection E1 as <- _. split; cbn [c_w2r c_r2w set]; [exact O1|intros ? [= <-]; eapply B, Ec]. }
  clear O1 O2. destruct O as [O1 O2].
  destruct (has (c_flags cl1) SHR_RDONLY); [|injection E2 as <- _; split; assumption]. destruct (c_w2r cl1) as [h|] eqn:Eh; [|discriminate E2].
  apply obind_ok in E2. destruct E2 as ([h' ok] & Ec & E2). injection E2 as <- _. split; cbn [c_w2r c_r2w set]; [intros ? [= <-]; eapply B, Ec|exact O2].
Qed.
Lemma call_okh cl x cl' rs : start_call cl x = Ok (cl', rs) -> okh cl -> okh cl'.
Proof.
  intros H. destruct x; try (apply same_h_okh; eapply start_call_h; [exact H|discriminate]).
  cbn [start_call] in H. apply obind_ok in H. destruct H as ([cl1 r] & E & H). injection H as <- _. eapply ctl_okh, E.
Qed.
Lemma pc_okh cl p : okh cl -> okh (cl <| c_pc := p |>). Proof. exact (fun H => H). Qed.
Lemma open_LI e w flags pid w' o : LI w -> do_open e w flags pid = Ok (w', o) ->
  full (w_w2r w') /\ full (w_r2w w') /\ w_cl w' = w_cl w /\ forall cl, o = Some cl -> okh cl.
Proof.
  intros L H. unfold do_open in H.
  assert (T : o = None -> w' = w -> full (w_w2r w') /\ full (w_r2w w') /\ w_cl w' = w_cl w /\ (forall cl, o = Some cl -> okh cl))
    by (intros -> ->; split; [apply L|split; [apply L|split; [reflexivity|discriminate]]]).
  repeat match type of H with (if ?b then Ok _ else _) = Ok _ => destruct b; [injection H as <- <-; apply T; reflexivity|] end. clear T.
  apply obind_ok in H. destruct H as ([w1 hs] & E & H).
  assert (Q : full (w_w2r w1) /\ full (w_r2w w1) /\ w_cl w1 = w_cl w /\ match hs with None => True | Some (a, b) => (forall h, a = Some h -> conns h) /\ (forall h, b = Some h -> conns h) end).
  2:{ destruct Q as (Q1 & Q2 & Q3 & Q4). destruct hs as [[a b]|]; [|injection H as <- <-; split; [exact Q1|split; [exact Q2|split; [exact Q3|discriminate]]]].
      destruct (init_cache _ _ _); [|injection H as <- <-; split; [exact Q1|split; [exact Q2|split; [exact Q3|discriminate]]]].
      destruct (shr_sync _ _); injection H as <- <-; (split; [exact Q1|split; [exact Q2|split; [exact Q3|]]]); [|discriminate].
      intros cl [= <-]. exact Q4. }
  clear H o w'. unfold open_blockwake in E.
  assert (FL : forall w2 a b w3 x, full (w_w2r w2) -> full (w_r2w w2) -> w_cl w2 = w_cl w ->
     (let w := match b with Some h => let '(ks, bh) := bw_close (w_ks w2) (w_r2w w2) h in w2 <| w_ks := ks |> <| w_r2w := bh |> | None => w2 end in
      let w := match a with Some h => let '(ks, bh) := bw_close (w_ks w) (w_w2r w) h in w <| w_ks := ks |> <| w_w2r := bh |> | None => w end in
      Ok (w, None (A := option bwt * option bwt))) = Ok (w3, x) -> full (w_w2r w3) /\ full (w_r2w w3) /\ w_cl w3 = w_cl w /\ x = None).
  { clear. intros w2 a b w3 x F1 F2 F3. cbv zeta.
    set (w4 := match b with Some _ => _ | None => _ end).
    assert (F4 : full (w_w2r w4) /\ full (w_r2w w4) /\ w_cl w4 = w_cl w).
    { unfold w4. destruct b as [h|]; [|auto]. destruct (bw_close (w_ks w2) (w_r2w w2) h) as [ks bh] eqn:E. cbn. split; [exact F1|split; [exact (close_len _ _ _ _ _ F2 E)|exact F3]]. }
    clearbody w4. destruct F4 as (F4 & F5 & F6). destruct a as [h|]; [|intros [= <- <-]; auto].
    destruct (bw_close (w_ks w4) (w_w2r w4) h) as [ks bh] eqn:E. intros [= <- <-]. cbn. split; [exact (close_len _ _ _ _ _ F4 E)|auto]. }
  apply obind_ok in E. destruct E as ([w2 st] & E1 & E).
  assert (Q : full (w_w2r w2) /\ full (w_r2w w2) /\ w_cl w2 = w_cl w /\ match st with None => True | Some (a, b) => (forall h, a = Some h -> conns h) /\ (forall h, b = Some h -> conns h) end).
  { clear E. destruct (has flags SHR_RDONLY).
    2:{ injection E1 as <- <-. split; [apply L|split; [apply L|split; [reflexivity|split; discriminate]]]. }
    destruct (bw_open_wait e (w_ks w) (w_w2r w) pid (e_name e)) as [[ks h1] a] eqn:Ea. apply open_wait_len in Ea; [|apply L]. destruct Ea as [A1 A2].
    cbn [w_ks w_r2w set] in E1. destruct (bw_open_wake e ks (w_r2w w)) as [h2 b] eqn:Eb. apply open_wake_len in Eb; [|apply L]. destruct Eb as [B1 B2].
    destruct a as [x|]; [destruct b as [y|]|].
    - apply obind_ok in E1. destruct E1 as ([ks2 ok] & _ & E1). destruct ok; [injection E1 as <- <-; cbn; auto|].
      assert (Z1 := fun A B C => FL (w <| w_ks := ks |> <| w_w2r := h1 |> <| w_r2w := h2 |> <| w_ks := ks2 |>) (Some x) (Some y) _ _ A B C E1); clear E1; rename Z1 into E1; lapply E1; [clear E1; intros E1; lapply E1; [clear E1; intros E1; lapply E1; [clear E1; intros E1|cbn; auto]|cbn; auto]|cbn; auto]. destruct E1 as (X1 & X2 & X3 & ->). auto.
    - assert (Z1 := fun A B C => FL (w <| w_ks := ks |> <| w_w2r := h1 |> <| w_r2w := h2 |>) (Some x) None _ _ A B C E1); clear E1; rename Z1 into E1; lapply E1; [clear E1; intros E1; lapply E1; [clear E1; intros E1; lapply E1; [clear E1; intros E1|cbn; auto]|cbn; auto]|cbn; auto]. destruct E1 as (X1 & X2 & X3 & ->). auto.
    - assert (Z1 := fun A B C => FL (w <| w_ks := ks |> <| w_w2r := h1 |> <| w_r2w := h2 |>) None b _ _ A B C E1); clear E1; rename Z1 into E1; lapply E1; [clear E1; intros E1; lapply E1; [clear E1; intros E1; lapply E1; [clear E1; intros E1|cbn; auto]|cbn; auto]|cbn; auto]. destruct E1 as (X1 & X2 & X3 & ->). auto. }
  destruct Q as (Q1 & Q2 & Q3 & Q4). destruct st as [[a b]|]; [|injection E as <- <-; auto].
  destruct (has flags SHR_WRONLY); [|injection E as <- <-; auto].
  destruct (bw_open_wake e (w_ks w2) (w_w2r w2)) as [h1 a'] eqn:Ea. apply open_wake_len in Ea; [|exact Q1]. destruct Ea as [A1 A2].
  destruct a' as [x|]; [|assert (Z1 := fun A B C => FL (w2 <| w_w2r := h1 |>) None b _ _ A B C E); clear E; rename Z1 into E; lapply E; [clear E; intros E; lapply E; [clear E; intros E; lapply E; [clear E; intros E|cbn; auto]|cbn; auto]|cbn; auto]; destruct E as (X1 & X2 & X3 & ->); auto].
  destruct (_ && _); [|injection E as <- <-; cbn; split; [exact A1|split; [exact Q2|split; [exact Q3|split; [exact A2|apply Q4]]]]].
  cbn [w_ks w_r2w set] in E.
  destruct (bw_open_wait e (w_ks w2) (w_r2w w2) pid _) as [[ks h2] b'] eqn:Eb. apply open_wait_len in Eb; [|exact Q2]. destruct Eb as [B1 B2].
  destruct b' as [y|]; [injection E as <- <-; cbn; auto|assert (Z1 := fun A B C => FL (w2 <| w_w2r := h1 |> <| w_ks := ks |> <| w_r2w := h2 |>) (Some x) None _ _ A B C E); clear E; rename Z1 into E; lapply E; [clear E; intros E; lapply E; [clear E; intros E; lapply E; [clear E; intros E|cbn; auto]|cbn; auto]|cbn; auto]; destruct E as (X1 & X2 & X3 & ->); auto].
Qed.

Lemma LI_step w a w' ev : LI w -> step w a = Ok (w', ev) -> LI w'.
Proof.
  intros L H. apply step_inv in H. destruct H;
    try match goal with
    | H : do_open _ _ _ _ = Ok (_, None) |- _ => destruct (open_LI _ _ _ _ _ _ L H) as (Q1 & Q2 & Q3 & _);
        constructor; [exact Q1|exact Q2|intros c h; unfold cli; rewrite Q3; apply L|intros c h; unfold cli; rewrite Q3; apply L]
    end;
    try (match goal with H : end_write _ _ _ _ = Ok _ |- _ => pose proof (end_write_h _ _ _ _ _ _ H) as SH end);
    try (match goal with H : flush_write _ _ _ = Ok _ |- _ => pose proof (flush_write_h _ _ _ _ _ H) as SH end);
    try exact L;
    try (match goal with |- LI (setc _ ?c _) => pose proof (LI_cl _ c L) as O end);
    try (apply (LI_setc w); [exact L|reflexivity|apply L|apply L|]; try exact O; try (apply (same_h_okh _ _ SH), O); fail).
  - match goal with H : do_open _ _ _ _ = Ok (_, Some _) |- _ => destruct (open_LI _ _ _ _ _ _ L H) as (Q1 & Q2 & Q3 & Q4) end.
    assert (Q : forall c, okh (cli (w' <| w_cl := w_cl w' ++ [cl] |>) c)).
    { intros c. unfold cli. cbn. destruct (Nat.lt_ge_cases c (length (w_cl w'))) as [Lt|Ge].
      - rewrite app_nth1 by exact Lt. rewrite Q3. exact (LI_cl _ c L).
      - destruct (Nat.eq_dec c (length (w_cl w'))) as [->|N]; [rewrite nth_middle; apply Q4; reflexivity|].
        rewrite nth_overflow by (rewrite app_length; cbn; lia). split; discriminate. }
    constructor; [exact Q1|exact Q2|intros c h; apply Q|intros c h; apply Q].
  - apply (LI_setc w); [exact L|reflexivity|apply L|apply L|]. eapply call_okh; [eassumption|exact O].
  - match goal with H : bw_wake _ _ _ _ = Ok _ |- _ => apply wake_len in H; [|apply L|apply (proj1 O); assumption]; destruct H as [W1 W2] end.
    apply (LI_setc w); [exact L|reflexivity|exact W1|apply L|]. apply (same_h_okh _ _ SH). split; cbn; [intros h [= <-]; exact W2|apply O].
  - assert (X : full bh1 /\ forall h, r2w' = Some h -> conns h).
    { destruct (rd_nr x >? 0) eqn:E.
      - match goal with H : true = true -> _ |- _ => destruct (H eq_refl) as (hh & hh' & wok & X1 & X2 & X3) end. subst.
        apply wake_len in X3; [|apply L|apply (proj2 O); assumption]. destruct X3 as [X3 X4]. split; [exact X3|]. intros h0 E0. congruence.
      - match goal with H : false = false -> _ |- _ => destruct (H eq_refl) as (X1 & X2 & X3) end. subst. split; [apply L|apply O]. }
    destruct X as [X1 X2]. apply (LI_setc w); [exact L|reflexivity|apply L|exact X1|]. split; cbn; [apply O|exact X2].
  - match goal with H : w' = w \/ _ |- _ => destruct H as [->|(ks & h & _ & E & ->)] end; [apply (LI_setc w); [exact L|reflexivity|apply L|apply L|exact O]|].
    apply open_wait_len in E; [|apply L]. destruct E as [E _]. apply (LI_setc w); [exact L|reflexivity|apply L|exact E|exact O].
  - match goal with H : bw_open_wait _ _ _ _ _ = _ |- _ => apply open_wait_len in H; [|apply L]; destruct H as [E1 E2] end.
    apply (LI_setc w); [exact L|reflexivity|apply L|exact E1|]. apply (same_h_okh _ _ SH). split; cbn; [apply O|intros h' [= <-]; apply E2; reflexivity].
  - assert (X : full (w_w2r (close_handles w (cli w c))) /\ full (w_r2w (close_handles w (cli w c))) /\ w_cl (close_handles w (cli w c)) = w_cl w).
    { unfold close_handles.
      assert (F : full (snd (match c_w2r (cli w c) with Some b => bw_close (w_ks w) (w_w2r w) b | None => (w_ks w, w_w2r w) end))).
      { destruct (c_w2r (cli w c)) as [b|]; [|apply L]. destruct (bw_close (w_ks w) (w_w2r w) b) as [ks h] eqn:E. exact (close_len _ _ _ _ _ (li_w2r _ L) E). }
      destruct (match c_w2r (cli w c) with Some b => bw_close (w_ks w) (w_w2r w) b | None => (w_ks w, w_w2r w) end) as [ks h]. cbn [snd w_ks w_r2w set] in *.
      assert (G : full (snd (match c_r2w (cli w c) with Some b => bw_close ks (w_r2w w) b | None => (ks, w_r2w w) end))).
      { destruct (c_r2w (cli w c)) as [b|]; [|apply L]. destruct (bw_close ks (w_r2w w) b) as [ks' h'] eqn:E. exact (close_len _ _ _ _ _ (li_r2w _ L) E). }
      destruct (match c_r2w (cli w c) with Some b => bw_close ks (w_r2w w) b | None => (ks, w_r2w w) end) as [ks' h']. cbn. auto. }
    destruct X as (X1 & X2 & X3).
    apply (LI_setc w); [exact L|destruct (e_lock e); auto|destruct (e_lock e); [exact X1|apply L]|destruct (e_lock e); [exact X2|apply L]|]. split; discriminate.
  - apply (LI_setc w); [exact L|reflexivity|apply L|apply L|]. unfold resume. destruct (c_pc (cli w c)); exact O.
Qed.

Lemma exec_fail w a b w1 x : 
  (let w := match b with Some h => let '(ks, bh) := bw_close (w_ks w) (w_r2w w) h in w <| w_ks := ks |> <| w_r2w := bh |> | None => w end in
   let w := match a with Some h => let '(ks, bh) := bw_close (w_ks w) (w_w2r w) h in w <| w_ks := ks |> <| w_w2r := bh |> | None => w end in
   Ok (w, None (A := option bwt * option bwt))) = Ok (w1, x) -> exec_all (fail_open a b) (shared w) = Ok (shared w1, tt) /\ x = None.
Proof.
  cbv zeta. unfold fail_open. rewrite exec_bind.
  set (w2 := match b with Some _ => _ | None => _ end).
  assert (E : exec_all (close_opt false b) (shared w) = Ok (shared w2, tt)).
  { unfold w2, close_opt. destruct b as [h|]; [|reflexivity]. rewrite exec_bw. unfold get_bk. cbn [shared sh_r2w sh_ks]. rewrite exec_close.
    destruct (bw_close (w_ks w) (w_r2w w) h) as [ks bh]. reflexivity. }
  rewrite E. cbn [obind]. clearbody w2. clear E. intros [= <- <-]. split; [|reflexivity].
  unfold close_opt. destruct a as [h|]; [|reflexivity]. rewrite exec_bw. unfold get_bk. cbn [shared sh_w2r sh_ks]. rewrite exec_close.
  destruct (bw_close (w_ks w2) (w_w2r w2) h) as [ks bh]. reflexivity.
Qed.
Lemma shared_cl w l : shared (w <| w_cl := l |>) = shared w. Proof. reflexivity. Qed.

Theorem open_exec e w flags pid w' o : LI w -> has flags SHR_RDONLY && has flags SHR_WRONLY = false -> do_open e w flags pid = Ok (w', o) ->
  exec_all (open_section e w flags pid) (shared w) = Ok (shared w', tt).
Proof.
  intros L X H. unfold do_open in H. unfold open_section.
  destruct (validate_flags flags) eqn:V; cbn [negb orb] in *; [|injection H as <- <-; reflexivity].
  destruct (e_lock e); cbn [negb orb] in *; [|injection H as <- <-; reflexivity].
  destruct (validate_ring (w_fsz w) true (w_ring w) <? 0); cbn [orb] in *; [injection H as <- <-; reflexivity|].
  destruct (has (r_gflags (w_ring w)) SHR_MLOCK && negb (e_alloc e)); [injection H as <- <-; reflexivity|].
  apply obind_ok in H. destruct H as ([w1 hs] & E & H).
  assert (w' = w1) as ->. { destruct hs as [[a b]|]; [|congruence]. destruct (init_cache _ _ _); [|congruence]. destruct (shr_sync _ _); congruence. }
  clear H. unfold open_blockwake in E. apply obind_ok in E. destruct E as ([w2 st] & E1 & E).
  destruct (has flags SHR_RDONLY) eqn:R; cbn [andb] in X.
  - rewrite X in E. assert (w1 = w2) as -> by (destruct st as [[a b]|]; congruence). clear E hs.
    rewrite exec_bind, exec_bw. unfold get_bk. cbn [shared sh_w2r sh_ks]. rewrite exec_open_wait by apply L.
    destruct (bw_open_wait e (w_ks w) (w_w2r w) pid (e_name e)) as [[ks h1] a]. cbn [obind]. rewrite put_bk_t. cbn [sh_ring sh_r2w].
    rewrite exec_bind, exec_bw. unfold get_bk. cbn [shared sh_r2w sh_ks sh_ring]. rewrite exec_open_wake by apply L.
    cbn [w_ks w_r2w set] in E1. destruct (bw_open_wake e ks (w_r2w w)) as [h2 b]. cbn [obind]. rewrite put_bk_f. cbn [sh_ring sh_w2r].
    destruct a as [x|]; [destruct b as [y|]|].
    + rewrite exec_bind, exec_bw. unfold get_bk. cbn [sh_w2r sh_ks]. rewrite exec_force.
      apply obind_ok in E1. destruct E1 as ([ks2 ok] & Ef & E1). cbn [w_ks w_ring set] in Ef. rewrite Ef. cbn [obind fst snd]. rewrite put_bk_t. cbn [sh_ring sh_w2r sh_r2w].
      destruct ok; [injection E1 as <- <-; reflexivity|].
      exact (proj1 (exec_fail (w <| w_ks := ks |> <| w_w2r := h1 |> <| w_r2w := h2 |> <| w_ks := ks2 |>) (Some x) (Some y) w2 st E1)).
    + exact (proj1 (exec_fail (w <| w_ks := ks |> <| w_w2r := h1 |> <| w_r2w := h2 |>) (Some x) None w2 st E1)).
    + exact (proj1 (exec_fail (w <| w_ks := ks |> <| w_w2r := h1 |> <| w_r2w := h2 |>) None b w2 st E1)).
  - injection E1 as <- <-. assert (Wf : has flags SHR_WRONLY = true) by (apply validate_flags_iff in V; destruct V as [V _]; rewrite R in V; exact V).
    rewrite Wf in E. clear X V. rewrite exec_bind, exec_bw. unfold get_bk. cbn [shared sh_w2r sh_ks]. rewrite exec_open_wake by apply L.
    destruct (bw_open_wake e (w_ks w) (w_w2r w)) as [h1 a]. cbn [obind]. rewrite put_bk_t. cbn [sh_ring sh_r2w].
    destruct a as [x|]; [|injection E as <- <-; reflexivity].
    cbn [w_ring w_ks w_r2w set] in E. destruct (negb (has flags SHR_NONBLOCK) && negb (r_drop (w_ring w))); [|injection E as <- <-; reflexivity].
    rewrite exec_bind, exec_bw. unfold get_bk. cbn [sh_w2r sh_r2w sh_ks shared]. rewrite exec_open_wait by apply L.
    destruct (bw_open_wait e (w_ks w) (w_r2w w) pid (e_name e)) as [[ks h2] b]. cbn [obind]. rewrite put_bk_f. cbn [sh_ring sh_w2r].
    destruct b as [y|]; [injection E as <- <-; reflexivity|].
    exact (proj1 (exec_fail (w <| w_w2r := h1 |> <| w_ks := ks |> <| w_r2w := h2 |>) (Some x) None w1 hs E)).
Qed.

Lemma LI0 r fsz : LI (world0 r fsz).
Proof. constructor; try reflexivity; intros c h; unfold cli; cbn; destruct c; discriminate. Qed.
Lemma kexec_LI P r fsz w evs : kexec P (world0 r fsz) w evs -> LI w.
Proof. induction 1; [apply LI0|eapply LI_step; eassumption|eapply LI_kill; eassumption|eapply LI_kill_open; eassumption]. Qed.

(** every critical section of an execution with kills, run to its end *)
Theorem k_section P r w evs c e w' ev : kreach P r w evs -> c_live (cli w c) = true -> step w (ARun c e) = Ok (w', ev) ->
  exec_all (section e (cli w c)) (shared w) = Ok (shared w', tt).
Proof. intros (fsz & _ & H & _) Hl S. cbn [step] in S. rewrite Hl in S. eapply section_exec; [eapply kexec_LI, H|exact S]. Qed.
Theorem k_opening P r w evs e flags pid w' ev : kreach P r w evs -> has flags SHR_RDONLY && has flags SHR_WRONLY = false ->
  step w (AOpen e flags pid) = Ok (w', ev) -> exec_all (open_section e w flags pid) (shared w) = Ok (shared w', tt).
Proof.
  intros (fsz & _ & H & _) X S. cbn [step] in S. apply obind_ok in S. destruct S as ([w1 o] & E & S).
  rewrite (open_exec _ _ _ _ _ _ (kexec_LI _ _ _ _ _ H) X E). destruct o; injection S as <- _; reflexivity.
Qed.
