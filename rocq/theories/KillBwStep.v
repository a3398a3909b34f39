(** * What steps and kills do to registrations and queued wake-ups when socket
    calls may fail. *)
From Verif Require Import MicroFacts KillExec.
From Verif Require Export KillBwInv.

Lemma grow_mono (W W' : nat -> Prop) h h' : (forall n, W n -> W' n) -> grow W' h h' -> grow W h h'.
Proof. intros H [A1 A2 A3]. constructor; auto. Qed.

(** what happened to the others when client [c] acted *)
Record SR (w w' : world) (c : nat) : Prop := mkSR {
  sr_bi : BI2 w';
  sr_other : forall b c' n s, c' <> c -> wt b w c' n s -> wt b w' c' n s /\ k_pend (sk (w_ks w) s) <= k_pend (sk (w_ks w') s) }.

(** the sockets of [ks'], some of them closed *)
Definition shut (ks ks' : socks) : Prop := length ks' = length ks /\ forall s, k_name (sk ks' s) = k_name (sk ks s) /\ k_pid (sk ks' s) = k_pid (sk ks s)
   /\ k_pend (sk ks' s) = k_pend (sk ks s) /\ k_cap (sk ks' s) = k_cap (sk ks s).
Lemma shut_trans a b c : shut a b -> shut b c -> shut a c.
Proof.
  intros [L1 S1] [L2 S2]. split; [congruence|]. intros s. destruct (S1 s) as (A1 & A2 & A3 & A4), (S2 s) as (B1 & B2 & B3 & B4). repeat split; congruence.
Qed.
Lemma shut_drop ks h : shut ks (drop_sock ks h).
Proof. destruct (drop_sock_fields ks h) as [L S]. split; [exact L|]. intros s. destruct (S s) as (A1 & A2 & A3 & A4 & _). auto. Qed.
Lemma sk_new n ks s : sk (close_new n ks) s = if (s <? n)%nat then sk ks s else if (s <? length ks)%nat then (sk ks s) <| k_open := false |> else sock_dead.
Proof.
  unfold sk, close_new. destruct (Nat.ltb_spec s n) as [L|L].
  - destruct (Nat.lt_ge_cases s (length ks)) as [L2|L2].
    + rewrite app_nth1 by (rewrite firstn_length; lia). rewrite <- (firstn_skipn n ks) at 2. rewrite app_nth1 by (rewrite firstn_length; lia). reflexivity.
    + rewrite firstn_all2, skipn_all2, app_nil_r by lia. reflexivity.
  - destruct (Nat.ltb_spec s (length ks)) as [L2|L2].
    + rewrite app_nth2 by (rewrite firstn_length; lia). rewrite firstn_length_le by lia.
      rewrite <- (firstn_skipn n ks) at 2. rewrite app_nth2 by (rewrite firstn_length; lia). rewrite firstn_length_le by lia.
      rewrite (nth_indep _ sock_dead (sock_dead <| k_open := false |>)) by (rewrite map_length, skipn_length; lia).
      apply (map_nth (fun k => k <| k_open := false |>)).
    + apply nth_overflow. rewrite app_length, map_length, firstn_length, skipn_length. lia.
Qed.
Lemma shut_new n ks : shut ks (close_new n ks).
Proof.
  split; [unfold close_new; rewrite app_length, map_length, firstn_length, skipn_length; lia|].
  intros s. rewrite sk_new. destruct (s <? n)%nat; [auto|]. destruct (Nat.ltb_spec s (length ks)); [cbn; auto|].
  unfold sk. rewrite nth_overflow by assumption. auto.
Qed.
Lemma shut_KI ks ks' : shut ks ks' -> KI ks -> KI ks'.
Proof. intros [L S]. apply fields_KI; [exact L|]. intros s. destruct (S s) as (A1 & A2 & A3 & A4). auto. Qed.

Lemma others_Wb b w c n : others b w c n -> Wb w c false b n.
Proof. intros (c' & s & N & H). exists c', s. auto. Qed.
Lemma slots_Wb b w c n : slots b w n -> Wb w c true b n.
Proof. intros (c' & s & H). exists c', s. auto. Qed.

(** the actor is dead, or dies *)
Lemma SR_dead w c m w' ks' : BI2 w -> Ish w c false m -> shut (sh_ks m) ks' -> w_ks w' = ks' -> (forall b, whd b w' = hd b m) ->
  (forall b c' n s, c' <> c -> wt b w c' n s -> k_open (sk ks' s) = k_open (sk (sh_ks m) s)) ->
  (forall c', c' <> c -> cli w' c' = cli w c') -> c_live (cli w' c) = false -> SR w w' c.
Proof.
  intros B [G KN] [SL SS] EK EH EO HC HD.
  assert (KL := kn_len _ _ _ _ KN).
  constructor.
  - apply (BI2_upd w w' c); [exact B|exact HC| | | | | | | |].
    + rewrite EK. apply (shut_KI (sh_ks m)); [split; assumption|apply KN].
    + rewrite EK. lia.
    + intros s L. rewrite EK. destruct (SS s) as (-> & -> & _). apply (kn_id _ _ _ _ KN s L).
    + intros b c' n s N H. rewrite EK, (EO b c' n s N H). apply (kn_open _ _ _ _ KN). exists b, c', n. auto.
    + intros b. rewrite EH. apply (grow_mono _ (Wb w c false b)); [apply others_Wb|apply G].
    + intros b n s p L. congruence.
    + intros b q cs L. congruence.
    + intros n n' s p p' L. congruence.
  - intros b c' n s N H. split; [apply (wt_same b w); [apply HC; exact N|exact H]|].
    rewrite EK. destruct (SS s) as (_ & _ & -> & _). apply (kn_pend _ _ _ _ KN). exists b, c', n. auto.
Qed.

Lemma kill_SR w c e line m : BI2 w -> honest_sockets (w_ks w) e -> new_names w (ARun c e) -> c_live (cli w c) = true ->
  dies_at (section e (cli w c)) (shared w) line m -> SR w (killed w c m) c.
Proof.
  intros B HE NN Hl D. cbn [new_names] in NN.
  assert (N1 : forall s, (s < length (w_ks w))%nat -> k_name (sk (w_ks w) s) <> e_name e) by (intros s L; apply NN, nth_In; exact L).
  pose proof (proj1 (safe_section w c false e B HE Hl N1 ltac:(discriminate) (shared w) (P0_shared w)) _ _ D) as HI.
  assert (O : forall b h b' c' n s, hnd b (cli w c) = h -> c' <> c -> wt b' w c' n s -> forall n1 p1, h <> Some (Wait n1 s p1)).
  { intros b h b' c' n s <- N H n1 p1 Q. destruct (b2_own _ B b' c' n s b c n1 H); [split; [exact Hl|eauto]|congruence]. }
  eapply (SR_dead w c m); [exact B|exact HI| |reflexivity|intros []; reflexivity| |intros c' N; apply cli_killed_other; exact N|].
  - eapply shut_trans; [|apply shut_drop]. eapply shut_trans; [apply shut_new|apply shut_drop].
  - intros b c' n s N H. unfold killed. cbn [w_ks setc set].
    destruct (drop_sock_fields (drop_sock (close_new (length (w_ks w)) (w_ks (with_shared w m))) (c_w2r (cli w c))) (c_r2w (cli w c))) as [_ S2].
    destruct (S2 s) as (_ & _ & _ & _ & ->); [|apply (O false _ b c' n s eq_refl N H)].
    destruct (drop_sock_fields (close_new (length (w_ks w)) (w_ks (with_shared w m))) (c_w2r (cli w c))) as [_ S1].
    destruct (S1 s) as (_ & _ & _ & _ & ->); [|apply (O true _ b c' n s eq_refl N H)].
    rewrite sk_new. destruct (b2_wt _ B _ _ _ _ H) as (_ & A2 & _). apply sk_open_lt in A2. apply Nat.ltb_lt in A2. rewrite A2. reflexivity.
  - rewrite cli_killed_same by (apply live_bound; exact Hl). reflexivity.
Qed.
Lemma dead_out w : c_live (cli w (length (w_cl w))) = false.
Proof. destruct (c_live (cli w (length (w_cl w)))) eqn:Q; [apply live_bound in Q; lia|reflexivity]. Qed.
Lemma kill_open_SR w e flags pid line m : BI2 w -> honest_sockets (w_ks w) e -> new_names w (AOpen e flags pid) ->
  dies_at (open_section e w flags pid) (shared w) line m -> SR w (killed_opening w m) (length (w_cl w)).
Proof.
  intros B HE NN D. cbn [new_names] in NN.
  assert (N1 : forall s, (s < length (w_ks w))%nat -> k_name (sk (w_ks w) s) <> e_name e) by (intros s L; apply NN, nth_In; exact L).
  pose proof (proj1 (safe_opening w (length (w_cl w)) e B HE N1 flags pid (shared w) (P0_shared w)) _ _ D) as HI.
  eapply (SR_dead w _ m); [exact B|exact HI|apply shut_new|reflexivity|intros []; reflexivity| |reflexivity|rewrite cli_opening; apply dead_out].
  intros b c' n s N H. rewrite sk_new. destruct (b2_wt _ B _ _ _ _ H) as (_ & A2 & _). apply sk_open_lt in A2. apply Nat.ltb_lt in A2. rewrite A2. reflexivity.
Qed.

(** the actor lives on *)
Lemma slots_back b w w' c i : (forall c', c' <> c -> cli w' c' = cli w c') -> (forall n s p, hnd b (cli w' c) <> Some (Wait n s p)) -> slots b w' i -> slots b w i.
Proof.
  intros HC HN (c2 & s2 & L & p & E). destruct (Nat.eq_dec c2 c) as [->|N]; [elim (HN _ _ _ E)|]. rewrite HC in L, E by exact N. exists c2, s2. split; [exact L|eauto].
Qed.
Lemma SR_live w w' c : BI2 w -> Ish w c true (shared w') -> (forall c', c' <> c -> cli w' c' = cli w c') ->
  (forall b n s p, c_live (cli w' c) = true -> hnd b (cli w' c) = Some (Wait n s p) ->
     wt b w c n s \/ (waits_at (w_ks w') (whd b w') n s /\ (length (w_ks w) <= s)%nat /\ h_seq (whd b w) < h_seq (whd b w'))) ->
  (forall b q cs, c_live (cli w' c) = true -> hnd b (cli w' c) = Some (Wake q cs) -> wk b w c q cs
     \/ exists ks1, wkr (whd b w) (Wb w c true b) q cs (mkbk (whd b w') ks1) /\ (length ks1 <= length (w_ks w'))%nat
        /\ forall s, (s < length ks1)%nat -> k_name (sk (w_ks w') s) = k_name (sk ks1 s)) ->
  (forall n n' s p p', c_live (cli w' c) = true -> c_w2r (cli w' c) = Some (Wait n s p) -> c_r2w (cli w' c) = Some (Wait n' s p') -> False) ->
  SR w w' c.
Proof.
  intros B [G KN] HC HWt HWk HX. cbn [shared sh_ks] in KN. assert (KL := kn_len _ _ _ _ KN).
  assert (G1 : forall b, grow (Wb w c true b) (whd b w) (whd b w')) by (intros b; specialize (G b); destruct b; exact G).
  constructor.
  - apply (BI2_upd w w' c); [exact B|exact HC|apply KN|exact KL|apply KN| | | | |exact HX].
    + intros b c' n s N H. apply (kn_open _ _ _ _ KN). exists b, c', n. auto.
    + intros b. apply (grow_mono _ (Wb w c true b)); [intros n (c' & s & N & H); exists c', s; auto|apply G1].
    + intros b n s p L E. destruct (HWt b n s p L E) as [Ho|(A1 & A2 & A3)]; [|auto]. split; [|left; exact Ho].
      destruct (b2_wt _ B _ _ _ _ Ho) as (A1 & A2 & A3 & A4). pose proof (sk_open_lt _ _ A2) as Ls. destruct (kn_id _ _ _ _ KN s Ls) as [E1 E2].
      split; [exact A1|]. split; [apply (kn_open _ _ _ _ KN); exists b, c, n; auto|]. rewrite E1, E2. split; [exact A3|].
      rewrite (gr_slot _ _ _ (G1 b) n); [exact A4|]. exists c, s. auto.
    + intros b q cs L E. assert (SB : forall i, slots b w' i -> Wb w c true b i).
      { intros i H. apply slots_Wb. apply (slots_back b w w' c); [exact HC|intros n s p; congruence|exact H]. }
      destruct (HWk b q cs L E) as [Ho|(ks1 & (V & Q & S) & L1 & N1)].
      * apply (wkr_move (Wb w c true b) _ (whd b w) _ (w_ks w)); [apply G1|auto|exact KL|intros s Ls; apply (kn_id _ _ _ _ KN s Ls)|].
        apply (wkr_move (slots b w) _ (whd b w) _ (w_ks w)); [apply grow_refl|intros i Hi; left; apply Wb_slots in Hi; exact Hi|lia|auto|]. apply (b2_wk _ B b c), Ho.
      * apply (wkr_move (Wb w c true b) _ (whd b w') _ ks1); [apply grow_refl|auto|exact L1|exact N1|].
        split; [exact V|]. split; [exact Q|]. intros Eq i Hi. apply (served_grow (Wb w c true b) (whd b w)); [apply G1|exact Hi|apply S; assumption].
  - intros b c' n s N H. split; [apply (wt_same b w); [apply HC; exact N|exact H]|].
    apply (kn_pend _ _ _ _ KN). exists b, c', n. auto.
Qed.
Lemma SR_quiet w w' c : BI2 w -> (forall c', c' <> c -> cli w' c' = cli w c') -> sim (w_ks w) (w_ks w') ->
  w_w2r w' = w_w2r w -> w_r2w w' = w_r2w w ->
  (c_live (cli w' c) = true -> c_live (cli w c) = true /\ bw_same (c_w2r (cli w c)) (c_w2r (cli w' c)) /\ bw_same (c_r2w (cli w c)) (c_r2w (cli w' c))) ->
  (forall s, k_pend (sk (w_ks w) s) <= k_pend (sk (w_ks w') s) \/ exists b n, wt b w c n s) -> SR w w' c.
Proof.
  intros B HC HS H1 H2 HL HP. constructor; [apply (BI2_quiet w w' c); assumption|].
  intros b c' n s N H. split; [apply (wt_same b w); [apply HC; exact N|exact H]|].
  destruct (HP s) as [P|(b1 & n1 & P)]; [exact P|]. destruct (b2_own _ B _ _ _ _ _ _ _ H P). congruence.
Qed.

(** bw_wake of a client *)
Lemma wake_comp w c b q cs e ks h hh ok : BI2 w -> honest_sockets (w_ks w) e -> c_live (cli w c) = true -> hnd b (cli w c) = Some (Wake q cs) ->
  bw_wake e (w_ks w) (whd b w) (Wake q cs) = Ok (ks, h, hh, ok) ->
  kin (Ks w c true) (Ls w c) (w_ks w) ks /\ exists q' cs', hh = Wake q' cs' /\ wkr (whd b w) (Wb w c true b) q' cs' (mkbk h ks)
  /\ (ok = true -> forall i, slots b w i -> rung (whd b w) (w_ks w) ks i).
Proof.
  intros B HE Hl Hh H.
  assert (LC : length cs = BW_WAITMAX) by (apply (b2_wk _ B b c q cs); split; assumption).
  pose proof (exec_wake e (w_ks w) (whd b w) (Wake q cs) (b2_len _ B b) LC) as X. rewrite H in X. cbn [obind] in X.
  destruct (safe_wake e (whd b w) (w_ks w) (Wb w c true b) (Ks w c true) (Ls w c) (b2_len _ B b) (Wb_ok w c true e B HE b) (hs_send _ _ HE) q cs
     (mkbk (whd b w) (w_ks w))) as [_ S].
  - split; [|apply (wkr_mine w c true B Hl b q cs Hh)]. pose proof (Ish0 w c true B) as I0. apply (Ish_get w c true b) in I0. destruct b; exact I0.
  - destruct (S _ _ X) as ([_ KN] & q' & cs' & Ew & WK & HR). cbn [fst snd b_ks] in *. split; [exact KN|]. exists q', cs'. split; [exact Ew|]. split; [exact WK|].
    intros E i Hi. apply HR; [exact E|apply slots_Wb, Hi].
Qed.

(** shr_open *)
Lemma Ish_me w c m : c_live (cli w c) = false -> Ish w c false m -> Ish w c true m.
Proof.
  intros D [G [A1 A2 A3 A4 A5]]. split; [|constructor; [exact A1|exact A2|exact A3| |exact A5]].
  - intros b. apply (grow_mono _ (Wb w c false b)); [|apply G]. intros n (c' & s & _ & H). exists c', s. split; [left; intros ->; destruct H; congruence|exact H].
  - intros s (b & c' & n & _ & H). apply A4. exists b, c', n. split; [left; intros ->; destruct H; congruence|exact H].
Qed.
Section Open.
Variables (w : world) (e : env).
Hypothesis B : BI2 w.
Hypothesis HE : honest_sockets (w_ks w) e.
Hypothesis N1 : forall s, (s < length (w_ks w))%nat -> k_name (sk (w_ks w) s) <> e_name e.
Let c := length (w_cl w).
Lemma Io0 : kin (Ks w c true) (Ls w c) (w_ks w) (w_ks w).
Proof. apply (Ish0 w c true B). Qed.
Lemma open_wait_comp b pid ks h o : pid <> 0 -> bw_open_wait e (w_ks w) (whd b w) pid (e_name e) = (ks, h, o) ->
  kin (Ks w c true) (Ls w c) (w_ks w) ks /\ (exists l, ks = w_ks w ++ l) /\ forall x, o = Some x -> exists n, x = Wait n (length (w_ks w)) []
   /\ waits_at ks h n (length (w_ks w)) /\ h_seq (whd b w) < h_seq h.
Proof.
  intros HP H. pose proof (exec_open_wait e (w_ks w) (whd b w) pid (e_name e) (b2_len _ B b)) as X. rewrite H in X.
  destruct (safe_open_wait e (whd b w) (w_ks w) (Wb w c true b) (Ks w c true) (Ls w c) (b2_len _ B b) (Wb_ok w c true e B HE b) (Ks_lt w c true B) (Ls_lt w c B)
     pid (e_name e) N1 (mkbk (whd b w) (w_ks w))) as [_ S].
  - split; [|reflexivity]. pose proof (Ish_get w c true b _ (Ish0 w c true B)) as I0. destruct b; exact I0.
  - destruct (S _ _ X) as ([_ KN] & EX & OP). cbn [b_ks] in *. split; [exact KN|]. split; [exact EX|].
    intros x Ex. destruct (OP x Ex) as (n & A1 & A2 & A3 & A4 & A5 & A6). cbn [b_h b_ks] in *. exists n. split; [exact A1|]. split; [|exact A4].
    unfold BwMicro.slot in A5. cbn [b_h] in A5. split; [exact A2|]. rewrite A6. unfold sk. rewrite app_nth2, Nat.sub_diag by lia. cbn. auto.
Qed.
Lemma open_wake_comp b ks h o : kin (Ks w c true) (Ls w c) (w_ks w) ks -> bw_open_wake e ks (whd b w) = (h, o) ->
  forall x, o = Some x -> exists q cs, x = Wake q cs /\ wkr (whd b w) (Wb w c true b) q cs (mkbk h ks).
Proof.
  intros KN H. pose proof (exec_open_wake e ks (whd b w) (b2_len _ B b)) as X. rewrite H in X.
  destruct (safe_open_wake e (whd b w) (w_ks w) (Wb w c true b) (Ks w c true) (Ls w c) (b2_len _ B b) (Wb_ok w c true e B HE b) ks (b2_seq _ B b)
     (mkbk (whd b w) ks)) as [_ S].
  - split; [|reflexivity]. split; [apply grow_refl|exact KN].
  - destruct (S _ _ X) as (_ & _ & OP). exact OP.
Qed.

Lemma open_handles flags pid w1 hs : pid <> 0 -> has flags SHR_RDONLY = negb (has flags SHR_WRONLY) -> open_blockwake e w flags pid = Ok (w1, hs) ->
  w_cl w1 = w_cl w /\ forall x y, hs = Some (x, y) -> forall b : bool,
   (forall n s p, (if b then x else y) = Some (Wait n s p) ->
      waits_at (w_ks w1) (whd b w1) n s /\ (length (w_ks w) <= s)%nat /\ h_seq (whd b w) < h_seq (whd b w1) /\ forall n' s' p', (if b then y else x) <> Some (Wait n' s' p'))
   /\ (forall q cs, (if b then x else y) = Some (Wake q cs) -> exists ks1, wkr (whd b w) (Wb w c true b) q cs (mkbk (whd b w1) ks1) /\ (length ks1 <= length (w_ks w1))%nat
        /\ forall s, (s < length ks1)%nat -> k_name (sk (w_ks w1) s) = k_name (sk ks1 s)).
Proof.
  intros HP HX H. unfold open_blockwake in H. rewrite HX in H. destruct (has flags SHR_WRONLY); cbn [negb] in H.
  - cbn [obind] in H. destruct (bw_open_wake e (w_ks w) (w_w2r w)) as [h1 a] eqn:Ea.
    destruct a as [x|]; [|injection H as <- <-; split; [reflexivity|discriminate]].
    destruct (open_wake_comp true _ _ _ Io0 Ea x eq_refl) as (q & cs & -> & WK).
    cbn [w_ring w_ks w_r2w set] in H. destruct (negb (has flags SHR_NONBLOCK) && negb (r_drop (w_ring w))).
    + destruct (bw_open_wait e (w_ks w) (w_r2w w) pid (e_name e)) as [[ks h2] b'] eqn:Eo.
      destruct (open_wait_comp false _ _ _ _ HP Eo) as (KN & [l ->] & OP).
      destruct b' as [y|]; [|injection H as <- <-; split; [reflexivity|discriminate]]. injection H as <- <-. split; [reflexivity|].
      intros x0 y0 E. injection E as <- <-. destruct (OP y eq_refl) as (n & -> & A2 & A3).
      intros []; cbn [whd w_w2r w_r2w w_ks set]; split; try discriminate.
      * intros q0 cs0 E. injection E as <- <-. exists (w_ks w). split; [exact WK|]. split; [rewrite app_length; lia|intros s L; rewrite sk_app1 by exact L; reflexivity].
      * intros n0 s0 p0 E. injection E as <- <- <-. split; [exact A2|]. split; [lia|]. split; [exact A3|discriminate].
    + injection H as <- <-. split; [reflexivity|]. intros x0 y0 E. injection E as <- <-.
      intros []; cbn [whd w_w2r w_r2w w_ks set]; split; try discriminate.
      intros q0 cs0 E. injection E as <- <-. exists (w_ks w). auto.
  - destruct (bw_open_wait e (w_ks w) (w_w2r w) pid (e_name e)) as [[ks h1] a] eqn:Eo.
    destruct (open_wait_comp true _ _ _ _ HP Eo) as (KN & EX & OP).
    cbn [w_ks w_r2w set] in H. destruct (bw_open_wake e ks (w_r2w w)) as [h2 b] eqn:Ea.
    pose proof (open_wake_comp false _ _ _ KN Ea) as OK.
    assert (FAIL : forall (w2 : world) (x y : option bwt) (z : world * option (option bwt * option bwt)),
      (do x1 <- (Ok (match x with Some h => let '(ks, bh) := bw_close (w_ks match y with Some h => let '(ks, bh) := bw_close (w_ks w2) (w_r2w w2) h in w2 <| w_ks := ks |> <| w_r2w := bh |> | None => w2 end)
           (w_w2r match y with Some h => let '(ks, bh) := bw_close (w_ks w2) (w_r2w w2) h in w2 <| w_ks := ks |> <| w_r2w := bh |> | None => w2 end) h in
         (match y with Some h => let '(ks, bh) := bw_close (w_ks w2) (w_r2w w2) h in w2 <| w_ks := ks |> <| w_r2w := bh |> | None => w2 end) <| w_ks := ks |> <| w_w2r := bh |>
         | None => match y with Some h => let '(ks, bh) := bw_close (w_ks w2) (w_r2w w2) h in w2 <| w_ks := ks |> <| w_r2w := bh |> | None => w2 end end, @None (option bwt * option bwt)));
        (let '(w, st) := x1 in match st with None => Ok (w, None) | Some (a, b) => Ok (w, Some (a, b)) end)) = Ok z -> w_cl (fst z) = w_cl w2 /\ snd z = None).
    { intros w2 x y z. destruct y as [[|]|], x as [[|]|]; cbn [bw_close obind]; intros E; injection E as <-; split; reflexivity. }
    assert (DONE : w_cl w1 = w_cl w /\ hs = None -> w_cl w1 = w_cl w /\ forall x y, hs = Some (x, y) -> forall b : bool,
       (forall n s p, (if b then x else y) = Some (Wait n s p) ->
          waits_at (w_ks w1) (whd b w1) n s /\ (length (w_ks w) <= s)%nat /\ h_seq (whd b w) < h_seq (whd b w1) /\ forall n' s' p', (if b then y else x) <> Some (Wait n' s' p'))
       /\ (forall q cs, (if b then x else y) = Some (Wake q cs) -> exists ks1, wkr (whd b w) (Wb w c true b) q cs (mkbk (whd b w1) ks1) /\ (length ks1 <= length (w_ks w1))%nat
            /\ forall s, (s < length ks1)%nat -> k_name (sk (w_ks w1) s) = k_name (sk ks1 s))).
    { intros [E1 ->]. split; [exact E1|discriminate]. }
    destruct a as [x|]; [destruct b as [y|]|].
    + destruct (OP x eq_refl) as (n & -> & A2 & A3). destruct (OK y eq_refl) as (q & cs & -> & WK). cbn [w_ring w_ks set] in H.
      destruct (bw_force e ks (Wait n (length (w_ks w)) []) (negb (r_u (w_ring w) =? 0))) as [[ks2 ok]| | |] eqn:Ef; cbn [obind] in H; try discriminate H.
      assert (SM : sim ks ks2).
      { cbn [bw_force] in Ef. destruct (negb (e_force e)); [injection Ef as <- <-; apply sim_refl, KN|].
        pose proof (ki_pend _ (kn_ki _ _ _ _ KN) (length (w_ks w))) as P0.
        destruct (negb (negb (r_u (w_ring w) =? 0)) && _); [injection Ef as <- <-; apply sim_upd; [apply KN|lia]|].
        destruct (negb (r_u (w_ring w) =? 0) && _); injection Ef as <- <-; [|apply sim_refl, KN].
        rewrite (sk_upd_ext _ _ _ (fun y => y <| k_pend := k_pend (sk ks (length (w_ks w))) + 1 |>)) by reflexivity. apply sim_upd; [apply KN|lia]. }
      destruct ok.
      2: { apply DONE. exact (FAIL _ (Some (Wait n (length (w_ks w)) [])) (Some (Wake q cs)) _ H). }
      cbn [obind] in H. injection H as <- <-. split; [reflexivity|]. intros x0 y0 E. injection E as <- <-. destruct SM as [SL SS].
      intros []; cbn [whd w_w2r w_r2w w_ks set]; split; try discriminate.
      * intros n0 s0 p0 E. injection E as <- <- <-. split; [|split; [lia|split; [exact A3|discriminate]]].
        destruct A2 as (D1 & D2 & D3 & D4). unfold waits_at. destruct (SS (length (w_ks w))) as (-> & -> & -> & _). auto.
      * intros q0 cs0 E. injection E as <- <-. exists ks. split; [exact WK|]. split; [lia|]. intros s _. apply SS.
    + apply DONE. exact (FAIL _ (Some x) None _ H).
    + apply DONE. exact (FAIL _ None b _ H).
Qed.
End Open.

Lemma force_gen e ks h want ks' ok : KI ks -> bw_force e ks h want = Ok (ks', ok) ->
  exists n s p, h = Wait n s p /\ sim ks ks' /\ (forall s', s' <> s -> sk ks' s' = sk ks s').
Proof.
  intros K H. destruct h as [|n s p]; [discriminate|]. exists n, s, p. split; [reflexivity|].
  destruct (e_force e) eqn:F; [|cbn [bw_force] in H; rewrite F in H; cbn [negb] in H; injection H as <- <-; split; [apply sim_refl, K|reflexivity]].
  destruct (force_spec _ _ _ _ _ _ K F H) as (n1 & s1 & p1 & E & _ & S & O & _). injection E as <- <- <-. auto.
Qed.
Lemma good_honest ks e : good_sockets ks e -> honest_sockets ks e.
Proof. intros G. constructor; apply G. Qed.
Lemma wake_ok ks e h q cs ks' h' hh ok : good_sockets ks e -> length cs = length (h_wr h) -> bw_wake e ks h (Wake q cs) = Ok (ks', h', hh, ok) -> ok = true.
Proof.
  intros G L H. cbn [bw_wake] in H. destruct (bw_sync e ks h q cs) as [[[h1 q1] cs1] ok1] eqn:E. unfold bw_sync in E.
  assert (GE : genv ks h (fun _ => False) e).
  { constructor; try apply G; [contradiction|]. intros pid name Hn. rewrite <- (app_nil_r ks) in Hn. apply (good_gone ks []); assumption. }
  destruct (q =? h_seq h).
  - injection E as <- <- <- <-. destruct (wake_slots _ _ _ _ _) as [[[wr2 cs2] ks2] inc]. injection H as <- <- <- <-. reflexivity.
  - destruct (sync_slots e ks 0 (h_wr h) cs) as [[[wr' cs'] ok'] inc] eqn:E2. destruct (sync_slots_spec _ _ _ _ GE _ _ _ _ _ _ _ L E2) as (-> & _).
    injection E as <- <- <- <-. destruct (wake_slots _ _ _ _ _) as [[[wr2 cs2] ks2] inc2]. injection H as <- <- <- <-. reflexivity.
Qed.
Lemma wake_is e ks h x ks' h' hh ok : bw_wake e ks h x = Ok (ks', h', hh, ok) -> exists q cs, x = Wake q cs.
Proof. destruct x; [eauto|discriminate]. Qed.
Lemma end_write_loss cl k iov cl' rs : end_write cl k iov (-1) = Ok (cl', rs) -> forall x, In x rs -> ~ success x.
Proof. destruct k; cbn; intros H; injection H as <- <-; intros x [<-|[]] || intros x []; cbn; lia. Qed.
Lemma kin_sim w c me ks ks' s : BI2 w -> kin (Ks w c me) (Ls w c) (w_ks w) ks -> ~ Ls w c s -> sim ks ks' -> (forall s', s' <> s -> sk ks' s' = sk ks s') ->
  kin (Ks w c me) (Ls w c) (w_ks w) ks'.
Proof.
  intros B [A1 A2 A3 A4 A5] NL [SL SS] O. constructor.
  - apply (sim_KI ks); [split; assumption|exact A1].
  - lia.
  - intros t L. destruct (SS t) as (-> & -> & _). apply A3, L.
  - intros t Ht. destruct (SS t) as (_ & _ & -> & _). apply A4, Ht.
  - intros t Ht. rewrite O by (intros ->; contradiction). apply A5, Ht.
Qed.

Record ST (w w' : world) (a : action) (ev : list event) (c : nat) : Prop := mkST {
  st_sr : SR w w' c;
  st_commit : forall c0 ms, In (ECommit c0 ms) ev -> good_env w a \/ (exists x, In (ERet c0 x) ev /\ success x) ->
     forall c n s, wt true w' c n s -> 0 < k_pend (sk (w_ks w') s);
  st_read : (exists c v buf iov, In (ERet c (RetRead v buf iov)) ev /\ 0 < v) -> good_env w a ->
     forall c n s, wt false w' c n s -> 0 < k_pend (sk (w_ks w') s) }.
Lemma ST_calm w w' a ev c : SR w w' c -> Forall calmev ev -> ST w w' a ev c.
Proof.
  intros S F. constructor; [exact S| |].
  - intros c0 ms H. elim (calm_no _ F). left. eauto.
  - intros H. elim (calm_no _ F). right. exact H.
Qed.

Lemma step_ST w0 w evs a w' ev : WI w0 w evs -> LI w -> PIDS w -> BI2 w -> flaky w a -> step w a = Ok (w', ev) ->
  exists c, (actor a = Some c \/ actor a = None /\ c = length (w_cl w)) /\ ST w w' a ev c.
Proof.
  intros W LL HPID B (HC & HG & HN) HS. pose proof (wi_ring _ _ _ W) as I.
  assert (SQ : forall w1 c1 cl1, w_cl w1 = w_cl w -> forall c', c' <> c1 -> cli (setc w1 c1 cl1) c' = cli w c').
  { intros w1 c1 cl1 E c' N. rewrite cli_setc_other by exact N. unfold cli. rewrite E. reflexivity. }
  pose proof HS as HS0. apply step_inv in HS.
  destruct HS as
   [ a
   | e flags pid w' E
   | e flags pid w' cl E
   | c1 x cl' rs Hl Hpc E
   | c1 e k iov len nb v cl' rs Hl Hpc Hv E
   | c1 e k iov len n s p Hl Hpc He E Er
   | c1 e k iov len nb r1 hw ks bh hw' wok r2 rv cl' rs Hl Hpc He E Ew Eb E2 Ev Ee
   | c1 e buf niov Hl Hpc He
   | c1 e buf niov q md h ks ok Hl Hpc He Hnb E Eh Ef
   | c1 e buf niov q md n s p Hl Hpc He Hnb E Eh
   | c1 e buf niov q md x cur' hr r2w' ks1 bh1 ks2 ok h Hl Hpc He E Eh Er Hn0 Hn1 Ef
   | c1 e w' Hl Hpc Hw'
   | c1 e ks h b cl' rs Hl Hpc He E Ee
   | c1 e Hl Hpc
   | c1 e reset r x Hl Hpc E
   | c1 e get st sz r x Hl Hpc E
   | c1 sid polls Hs Hp
   | a c1 sc k iov len nb cl' rs Ha Hpc E
   | a c1 sc buf niov Ha Hpc
   | c1 Hl ].
  all: try (pose proof (live_bound _ _ Hl) as LB; destruct (wi_cl _ _ _ W c1 Hl) as [ms C]; pose proof (ci_pc _ _ _ _ C) as P; unfold pc_ok in P; rewrite ?Hpc in P).
  all: try (assert (LB : (c1 < length (w_cl w))%nat) by (apply pc_bound; rewrite Hpc; discriminate)).
  - assert (S : forall c, SR w w c) by (intros c; constructor; [exact B|intros b c' n s _ H; split; [exact H|lia]]).
    destruct (actor a) as [c|] eqn:Ea; [exists c|exists (length (w_cl w))]; (split; [auto|apply ST_calm; [apply S|constructor]]).
  - (* open fails *)
    cbn [new_names] in HN. pose proof HC as (_ & HP0 & Hex).
    assert (N1 : forall s, (s < length (w_ks w))%nat -> k_name (sk (w_ks w) s) <> e_name e) by (intros s L; apply HN, nth_In; exact L).
    exists (length (w_cl w)). split; [right; auto|]. apply ST_calm; [|repeat constructor].
    pose proof (open_exec _ _ _ _ _ _ LL Hex E) as X.
    pose proof (proj2 (safe_opening w (length (w_cl w)) e B HG N1 flags pid (shared w) (P0_shared w)) _ _ X) as HI.
    assert (CL : w_cl w' = w_cl w) by (apply (open_LI _ _ _ _ _ _ LL E)).
    eapply (SR_dead w _ (shared w')); [exact B|exact HI| |reflexivity|intros []; reflexivity|reflexivity| |].
    + split; [reflexivity|auto].
    + intros c' _. unfold cli. rewrite CL. reflexivity.
    + unfold cli. rewrite CL. apply dead_out.
  - (* open *)
    cbn [new_names] in HN. pose proof HC as (_ & HP0 & Hex). assert (Hp0 : pid <> 0) by lia.
    assert (N1 : forall s, (s < length (w_ks w))%nat -> k_name (sk (w_ks w) s) <> e_name e) by (intros s L; apply HN, nth_In; exact L).
    set (c0 := length (w_cl w)). exists c0. split; [right; auto|]. apply ST_calm; [|repeat constructor].
    pose proof (open_exec _ _ _ _ _ _ LL Hex E) as X.
    pose proof (proj2 (safe_opening w c0 e B HG N1 flags pid (shared w) (P0_shared w)) _ _ X) as HI.
    apply Ish_me in HI; [|apply dead_out].
    destruct (do_open_split _ _ _ _ _ _ E) as [[_ Q]|(El & Hv & hs & Eo & Hcl)]; [discriminate Q|].
    destruct (Hcl _ eq_refl) as (ha & hb & ca & Eh & _ & Ecl).
    destruct (open_handles w e B HG N1 flags pid w' hs Hp0 (roles_excl _ Hv Hex) Eo) as [O1 O2]. specialize (O2 _ _ Eh).
    assert (CL : forall c, c <> c0 -> cli (w' <| w_cl := w_cl w' ++ [cl] |>) c = cli w c).
    { intros c N. unfold cli. cbn [w_cl set]. rewrite O1. destruct (Nat.lt_ge_cases c c0) as [L|L]; [apply app_nth1; exact L|].
      rewrite !nth_overflow; [reflexivity|unfold c0 in L; lia|rewrite app_length; cbn; unfold c0 in *; lia]. }
    assert (ME : cli (w' <| w_cl := w_cl w' ++ [cl] |>) c0 = cl).
    { unfold cli. cbn [w_cl set]. rewrite O1. unfold c0. rewrite app_nth2, Nat.sub_diag by lia. reflexivity. }
    assert (HD : forall b : bool, hnd b cl = if b then ha else hb) by (intros b; rewrite Ecl; destruct b; reflexivity).
    assert (WHD : forall b, whd b (w' <| w_cl := w_cl w' ++ [cl] |>) = whd b w') by (intros []; reflexivity).
    apply SR_live; [exact B|exact HI|exact CL| | |].
    + intros b n s p _ Q. rewrite ME, HD in Q. right. rewrite WHD. cbn [w_ks set]. destruct (O2 b) as [O3 _]. destruct (O3 _ _ _ Q) as (A1 & A2 & A3 & _). auto.
    + intros b q cs _ Q. rewrite ME, HD in Q. right. rewrite WHD. cbn [w_ks set]. destruct (O2 b) as [_ O4]. apply (O4 _ _ Q).
    + intros n n' s p p' _. rewrite ME. intros Q1 Q2. destruct (O2 true) as [O3 _].
      rewrite Ecl in Q1, Q2. destruct (O3 _ _ _ Q1) as (_ & _ & _ & A4). apply (A4 _ _ _ Q2).
  - (* call *) destruct (start_call_id _ _ _ _ E) as [ID _]. exists c1. split; [left; reflexivity|].
    apply ST_calm; [|constructor; [exact Logic.I|]; apply calm_rets, (start_call_calm _ _ _ _ E)].
    apply (SR_quiet _ _ c1); [exact B|apply SQ; reflexivity|apply sim_refl, B|reflexivity|reflexivity| |intros s; left; cbn [w_ks setc set]; lia].
    rewrite cli_setc_same by exact LB. intros L. rewrite (id_live _ _ ID) in L. destruct ID. auto.
  - destruct (end_write_id _ _ _ _ _ _ E) as [ID _]. exists c1. split; [left; reflexivity|].
    apply ST_calm; [|apply calm_rets, (end_write_calm _ _ _ _ _ _ E)].
    apply (SR_quiet _ _ c1); [exact B|apply SQ; reflexivity|apply sim_refl, B|reflexivity|reflexivity| |intros s; left; cbn [w_ks setc set]; lia].
    rewrite cli_setc_same by exact LB. intros L. destruct ID. auto.
  - exists c1. split; [left; reflexivity|]. apply ST_calm; [|constructor].
    apply (SR_quiet _ _ c1); [exact B|apply SQ; reflexivity|apply sim_refl, B|reflexivity|reflexivity| |intros s0; left; cbn [w_ks setc set]; lia].
    rewrite cli_setc_same by exact LB. cbn [c_live c_w2r c_r2w set]. intros L. split; [exact L|]. split; apply bw_same_refl.
  - (* commit *)
    exists c1. split; [left; reflexivity|]. cbn [new_names] in HN.
    assert (N1 : forall s, (s < length (w_ks w))%nat -> k_name (sk (w_ks w) s) <> e_name e) by (intros s L; apply HN, nth_In; exact L).
    destruct P as (Hw & Hi & Hlen & _). destruct (ci_wr _ _ _ _ C Hw) as ((qw & csw & Eqw) & _). rewrite Ew in Eqw. injection Eqw as ->.
    assert (X : exec_all (section e (cli w c1)) (shared w) = Ok (shared (setc (w <| w_ks := ks |> <| w_w2r := bh |> <| w_ring := r2 |>) c1 cl'), tt)).
    { cbn [step] in HS0. rewrite Hl in HS0. eapply section_exec; [exact LL|exact HS0]. }
    pose proof (proj2 (safe_section w c1 true e B HG Hl N1 ltac:(rewrite Hpc; discriminate) (shared w) (P0_shared w)) _ _ X) as HI.
    destruct (wake_comp w c1 true qw csw e ks bh hw' wok B HG Hl Ew Eb) as (KN & q' & cs' & -> & WK & HR).
    destruct (end_write_id _ _ _ _ _ _ Ee) as [ID _].
    set (w1 := w <| w_ks := ks |> <| w_w2r := bh |> <| w_ring := r2 |>) in *.
    assert (ME : cli (setc w1 c1 cl') c1 = cl') by (apply cli_setc_same; exact LB).
    assert (HT : c_w2r cl' = Some (Wake q' cs')) by (pose proof (id_w2r _ _ ID) as Q; cbn [c_w2r set] in Q; destruct (c_w2r cl') as [[|]|]; cbn in Q; congruence).
    assert (HF : bw_same (c_r2w (cli w c1)) (c_r2w cl')) by (apply (id_r2w _ _ ID)).
    assert (HWT : forall c n s, wt true (setc w1 c1 cl') c n s -> wt true w c n s /\ c <> c1).
    { intros c n s H. destruct (Nat.eq_dec c c1) as [->|N].
      - destruct H as [_ [p Q]]. rewrite ME in Q. cbn [hnd] in Q. congruence.
      - split; [|exact N]. destruct H as [L Q]. rewrite (SQ w1 c1 cl' eq_refl c N) in L, Q. split; assumption. }
    constructor.
    + apply SR_live; [exact B|exact HI|apply SQ; reflexivity| | |].
      * intros b n s p L Q. rewrite ME in Q. destruct b; cbn [hnd] in Q; [congruence|]. left. split; [exact Hl|]. cbn [hnd]. apply (bw_same_wait _ n s p). rewrite <- Q. exact HF.
      * intros b q cs L Q. rewrite ME in Q. destruct b; cbn [hnd] in Q.
        -- rewrite HT in Q. injection Q as <- <-. right. exists ks. split; [exact WK|]. split; [cbn; lia|reflexivity].
        -- left. split; [exact Hl|]. cbn [hnd]. apply bw_same_wake. rewrite <- Q. exact HF.
      * intros n n' s p p' _. rewrite ME, HT. discriminate.
    + intros c0 ms0 _ HOK c n s H. destruct (HWT _ _ _ H) as [H0 _]. destruct (b2_wt _ B _ _ _ _ H0) as (A1 & A2 & A3 & A4).
      assert (OK : wok = true).
      { destruct HOK as [G|(x & Hx & SX)].
        - eapply wake_ok; [exact G| |exact Eb]. destruct (b2_wk _ B true c1 qw csw) as ((V1 & _) & _); [split; assumption|]. rewrite V1. symmetry. apply (b2_len _ B true).
        - destruct wok; [reflexivity|]. cbn [andb] in Ev. subst rv. destruct Hx as [Hx|Hx]; [discriminate|]. apply in_rets in Hx. destruct Hx as [_ Hx].
          elim (end_write_loss _ _ _ _ _ Ee x Hx SX). }
      apply (HR OK n); [exists c, s; exact H0|]. split; [apply sk_open_lt, A2|exact A4].
    + intros X0. exfalso. destruct X0 as (c & v & buf & iov0 & [Q|Q] & Hv); [discriminate|]. apply in_rets in Q. destruct Q as [_ Q].
      pose proof (end_write_calm _ _ _ _ _ _ Ee) as F. rewrite Forall_forall in F. apply F in Q. cbn in Q. lia.
  - exists c1. split; [left; reflexivity|]. apply ST_calm; [|repeat constructor; cbn; lia].
    apply (SR_quiet _ _ c1); [exact B|apply SQ; reflexivity|apply sim_refl, B|reflexivity|reflexivity| |intros s; left; cbn [w_ks setc set]; lia].
    rewrite cli_setc_same by exact LB. cbn [c_live c_w2r c_r2w set]. intros L. split; [exact L|]. split; apply bw_same_refl.
  - exists c1. split; [left; reflexivity|]. apply ST_calm; [|repeat constructor; cbn; lia].
    destruct (force_gen _ _ _ _ _ _ (b2_k _ B) Ef) as (n & s & p & -> & S & F2).
    apply (SR_quiet _ _ c1); [exact B|apply SQ; reflexivity|exact S|reflexivity|reflexivity| |].
    + rewrite cli_setc_same by exact LB. cbn [c_live c_w2r c_r2w set]. intros L. split; [exact L|]. split; apply bw_same_refl.
    + intros s'. cbn [w_ks setc set]. destruct (Nat.eq_dec s' s) as [->|N]; [|left; rewrite F2 by exact N; lia].
      right. exists true, n. split; [exact Hl|exists p; exact Eh].
  - exists c1. split; [left; reflexivity|]. apply ST_calm; [|constructor].
    apply (SR_quiet _ _ c1); [exact B|apply SQ; reflexivity|apply sim_refl, B|reflexivity|reflexivity| |intros s0; left; cbn [w_ks setc set]; lia].
    rewrite cli_setc_same by exact LB. cbn [c_live c_w2r c_r2w set]. intros L. split; [exact L|]. split; apply bw_same_refl.
  - (* read *)
    exists c1. split; [left; reflexivity|]. cbn [new_names] in HN.
    assert (N1 : forall s, (s < length (w_ks w))%nat -> k_name (sk (w_ks w) s) <> e_name e) by (intros s L; apply HN, nth_In; exact L).
    set (w1 := w <| w_ring := rd_ring x |> <| w_r2w := bh1 |> <| w_ks := ks2 |>) in *.
    set (cl' := (cli w c1) <| c_q := q |> <| c_md := md |> <| c_r2w := r2w' |> <| c_pc := Idle |>) in *.
    assert (X : exec_all (section e (cli w c1)) (shared w) = Ok (shared (setc w1 c1 cl'), tt)).
    { cbn [step] in HS0. rewrite Hl in HS0. eapply section_exec; [exact LL|exact HS0]. }
    pose proof (proj2 (safe_section w c1 true e B HG Hl N1 ltac:(rewrite Hpc; discriminate) (shared w) (P0_shared w)) _ _ X) as HI.
    assert (Hr : has (c_flags (cli w c1)) SHR_RDONLY = true) by apply P.
    destruct (ci_rd _ _ _ _ C Hr) as (_ & (qr & csr & Er0)). rewrite Er0 in Er. subst hr.
    assert (KK : kin (Ks w c1 true) (Ls w c1) (w_ks w) ks1 /\ exists q' cs', r2w' = Some (Wake q' cs')
       /\ (wk false w c1 q' cs' \/ wkr (whd false w) (Wb w c1 true false) q' cs' (mkbk bh1 ks1))
       /\ (rd_nr x >? 0 = true -> good_sockets (w_ks w) e -> forall i, slots false w i -> rung (whd false w) (w_ks w) ks1 i)).
    { destruct (rd_nr x >? 0) eqn:En.
      - destruct (Hn1 eq_refl) as (hh & hh' & wok & Q1 & -> & Q2). injection Q1 as <-.
        destruct (wake_comp w c1 false qr csr e ks1 bh1 hh' wok B HG Hl Er0 Q2) as (KN & q' & cs' & -> & WK & HR). split; [exact KN|]. exists q', cs'.
        split; [reflexivity|]. split; [right; exact WK|]. intros _ G. apply HR. eapply wake_ok; [exact G| |exact Q2].
        destruct (b2_wk _ B false c1 qr csr) as ((V1 & _) & _); [split; assumption|]. rewrite V1. symmetry. apply (b2_len _ B false).
      - destruct (Hn0 eq_refl) as (-> & -> & ->). split; [apply (Ish0 w c1 true B)|]. exists qr, csr. split; [reflexivity|]. split; [left; split; assumption|discriminate]. }
    destruct KK as (KN & q' & cs' & -> & WK & HR).
    destruct (force_gen _ _ _ _ _ _ (kn_ki _ _ _ _ KN) Ef) as (n & s & p & -> & S & F2).
    assert (MEW : wt true w c1 n s) by (split; [exact Hl|exists p; exact Eh]).
    assert (ME : cli (setc w1 c1 cl') c1 = cl') by (apply cli_setc_same; exact LB).
    constructor.
    + apply SR_live; [exact B|exact HI|apply SQ; reflexivity| | |].
      * intros b n1 s1 p1 L Q. rewrite ME in Q. destruct b; cbn [hnd cl' c_w2r c_r2w set] in Q; [|discriminate]. left. split; [exact Hl|]. exists p1. exact Q.
      * intros b q0 cs0 L Q. rewrite ME in Q. destruct b; cbn [hnd cl' c_w2r c_r2w set] in Q; [congruence|]. injection Q as <- <-.
        destruct WK as [WK|WK]; [left; exact WK|]. right. exists ks1. split; [exact WK|]. cbn [w_ks setc set w1]. destruct S as [SL SS]. split; [lia|]. intros t _. apply SS.
      * intros n1 n2 s1 p1 p2 _. rewrite ME. cbn [cl' c_w2r c_r2w set]. discriminate.
    + intros c0 ms0 [Q|[]]. discriminate.
    + intros (c & v & b0 & i0 & [Q|[]] & Hv) G c2 n2 s2 H. injection Q as <- <- _ _.
      assert (NR : rd_nr x >? 0 = true) by (destruct (zlen (rd_iov x) >? 0); [apply Z.gtb_lt; exact Hv|lia]).
      assert (N : c2 <> c1). { intros ->. destruct H as [_ [p2 Q]]. rewrite ME in Q. cbn [hnd cl' c_r2w set] in Q. discriminate. }
      assert (H0 : wt false w c2 n2 s2) by (destruct H as [L Q]; rewrite (SQ w1 c1 cl' eq_refl c2 N) in L, Q; split; assumption).
      destruct (b2_wt _ B _ _ _ _ H0) as (A1 & A2 & A3 & A4). cbn [w_ks setc set w1].
      rewrite F2 by (intros ->; destruct (b2_own _ B _ _ _ _ _ _ _ H0 MEW); discriminate).
      apply (HR NR G n2); [exists c2, s2; exact H0|]. split; [apply sk_open_lt, A2|exact A4].
  - (* r2w fails *)
    exists c1. split; [left; reflexivity|]. apply ST_calm; [|repeat constructor]. cbn [new_names] in HN. pose proof (HPID _ Hl) as HP0. assert (Hp0 : c_pid (cli w c1) <> 0) by lia.
    assert (N1 : forall s, (s < length (w_ks w))%nat -> k_name (sk (w_ks w) s) <> e_name e) by (intros s L; apply HN, nth_In; exact L).
    set (cl' := (cli w c1) <| c_pc := Idle |>) in *.
    assert (X : exec_all (section e (cli w c1)) (shared w) = Ok (shared (setc w' c1 cl'), tt)).
    { cbn [step] in HS0. rewrite Hl in HS0. eapply section_exec; [exact LL|exact HS0]. }
    pose proof (proj2 (safe_section w c1 true e B HG Hl N1 ltac:(rewrite Hpc; discriminate) (shared w) (P0_shared w)) _ _ X) as HI.
    assert (EC : w_cl w' = w_cl w) by (destruct Hw' as [->|(ks & h & _ & _ & ->)]; reflexivity).
    assert (ME : cli (setc w' c1 cl') c1 = cl') by (apply cli_setc_same; rewrite EC; exact LB).
    apply SR_live; [exact B|exact HI|apply SQ; exact EC| | |].
    + intros b n s p L Q. rewrite ME in Q. left. split; [exact Hl|exists p; destruct b; exact Q].
    + intros b q cs L Q. rewrite ME in Q. left. split; [exact Hl|destruct b; exact Q].
    + intros n n' s p p' _. rewrite ME. intros Q1 Q2. destruct (b2_own _ B true c1 n s false c1 n'); [split; [exact Hl|exists p; exact Q1]|split; [exact Hl|exists p'; exact Q2]|discriminate].
  - (* r2w *)
    destruct P as (Hw & Hne & Hr0).
    exists c1. split; [left; reflexivity|]. apply ST_calm; [|apply calm_rets, (flush_write_calm _ _ _ _ _ Ee)].
    cbn [new_names] in HN. pose proof (HPID _ Hl) as HP0. assert (Hp0 : c_pid (cli w c1) <> 0) by lia.
    assert (N1 : forall s, (s < length (w_ks w))%nat -> k_name (sk (w_ks w) s) <> e_name e) by (intros s L; apply HN, nth_In; exact L).
    assert (X : exec_all (section e (cli w c1)) (shared w) = Ok (shared (setc (w <| w_ks := ks |> <| w_r2w := h |>) c1 cl'), tt)).
    { cbn [step] in HS0. rewrite Hl in HS0. eapply section_exec; [exact LL|exact HS0]. }
    pose proof (proj2 (safe_section w c1 true e B HG Hl N1 ltac:(rewrite Hpc; discriminate) (shared w) (P0_shared w)) _ _ X) as HI.
    destruct (open_wait_comp w e B HG N1 false _ _ _ _ Hp0 E) as (KN & EX & OP). destruct (OP b eq_refl) as (n0 & -> & WA & SQ0).
    destruct (flush_write_h _ _ _ _ _ Ee) as [SH1 SH2]. cbn [c_w2r c_r2w set] in SH1, SH2.
    set (w1 := w <| w_ks := ks |> <| w_r2w := h |>) in *.
    assert (ME : cli (setc w1 c1 cl') c1 = cl') by (apply cli_setc_same; exact LB).
    destruct (ci_wr _ _ _ _ C Hw) as ((qw & csw & Eqw) & _).
    apply SR_live; [exact B|exact HI|apply SQ; reflexivity| | |].
    + intros b n s p L Q. rewrite ME in Q. destruct b; cbn [hnd] in Q; [congruence|]. rewrite SH2 in Q. injection Q as <- <- <-. right. split; [exact WA|]. split; [lia|exact SQ0].
    + intros b q cs L Q. rewrite ME in Q. destruct b; cbn [hnd] in Q; [|congruence]. left. split; [exact Hl|]. cbn [hnd]. rewrite <- SH1. exact Q.
    + intros n n' s p p' _. rewrite ME. congruence.
  - (* close *)
    exists c1. split; [left; reflexivity|]. apply ST_calm; [|repeat constructor]. cbn [new_names] in HN.
    assert (N1 : forall s, (s < length (w_ks w))%nat -> k_name (sk (w_ks w) s) <> e_name e) by (intros s L; apply HN, nth_In; exact L).
    set (cl' := (cli w c1) <| c_live := false |> <| c_w2r := None |> <| c_r2w := None |> <| c_cache := cache0 |> <| c_pc := Idle |>) in *.
    set (w1 := if e_lock e then close_handles w (cli w c1) else w) in *.
    assert (X : exec_all (section e (cli w c1)) (shared w) = Ok (shared (setc w1 c1 cl'), tt)).
    { cbn [step] in HS0. rewrite Hl in HS0. eapply section_exec; [exact LL|exact HS0]. }
    pose proof (proj2 (safe_section w c1 false e B HG Hl N1 ltac:(discriminate) (shared w) (P0_shared w)) _ _ X) as HI.
    assert (EC : w_cl w1 = w_cl w) by (unfold w1; destruct (e_lock e); [apply close_handles_cl|reflexivity]).
    eapply (SR_dead w _ (shared (setc w1 c1 cl'))); [exact B|exact HI| |reflexivity|intros []; reflexivity|reflexivity|apply SQ; exact EC|].
    + split; [reflexivity|auto].
    + rewrite cli_setc_same by (rewrite EC; exact LB). reflexivity.
  - exists c1. split; [left; reflexivity|]. apply ST_calm; [|repeat constructor; apply (do_stat_calm _ _ _ _ _ _ E)].
    apply (SR_quiet _ _ c1); [exact B|apply SQ; reflexivity|apply sim_refl, B|reflexivity|reflexivity| |intros s0; left; cbn [w_ks setc set]; lia].
    rewrite cli_setc_same by exact LB. cbn [c_live c_w2r c_r2w set]. intros L. split; [exact L|]. split; apply bw_same_refl.
  - exists c1. split; [left; reflexivity|]. apply ST_calm; [|repeat constructor; apply (do_app_calm _ _ _ _ _ _ _ E)].
    apply (SR_quiet _ _ c1); [exact B|apply SQ; reflexivity|apply sim_refl, B|reflexivity|reflexivity| |intros s0; left; cbn [w_ks setc set]; lia].
    rewrite cli_setc_same by exact LB. cbn [c_live c_w2r c_r2w set]. intros L. split; [exact L|]. split; apply bw_same_refl.
  - (* wake *)
    assert (NI : c_pc (cli w c1) <> Idle) by (intros Q; unfold wait_sid in Hs; rewrite Q in Hs; discriminate).
    assert (Hl : c_live (cli w c1) = true) by (destruct (c_live (cli w c1)) eqn:Q; [reflexivity|apply (wi_dead _ _ _ W) in Q; contradiction]).
    pose proof (live_bound _ _ Hl) as LB.
    assert (SD : exists b n, wt b w c1 n sid).
    { unfold wait_sid in Hs. destruct (c_pc (cli w c1)); try discriminate.
      - exists false. destruct (c_r2w (cli w c1)) as [[|n s p]|] eqn:Q; try discriminate. injection Hs as <- <-. exists n. split; [exact Hl|exists p; exact Q].
      - exists true. destruct (c_w2r (cli w c1)) as [[|n s p]|] eqn:Q; try discriminate. injection Hs as <- <-. exists n. split; [exact Hl|exists p; exact Q]. }
    exists c1. split; [left; reflexivity|]. apply ST_calm; [|constructor].
    apply (SR_quiet _ _ c1); [exact B|apply SQ; reflexivity| |reflexivity|reflexivity| |].
    + cbn [w_ks setc set]. unfold bw_recv. rewrite (sk_upd_ext _ _ _ (fun x => x <| k_pend := Z.max 0 (k_pend (sk (w_ks w) sid) - 1) |>)) by reflexivity.
      apply sim_upd; [apply B|lia].
    + rewrite cli_setc_same by exact LB. intros _. split; [exact Hl|].
      unfold resume. destruct (c_pc (cli w c1)) as [ | | | | | | | |g0 s0 z0]; cbn [c_w2r c_r2w set]; split; apply bw_same_refl.
    + intros s. cbn [w_ks setc set]. destruct (Nat.eq_dec s sid) as [->|N]; [right; exact SD|]. left. unfold bw_recv. rewrite sk_upd_other by exact N. lia.
  - assert (HA : actor a = Some c1) by (destruct Ha as [[-> _]|[[fd ->] _]]; reflexivity).
    destruct (end_write_id _ _ _ _ _ _ E) as [ID _]. exists c1. split; [left; exact HA|]. apply ST_calm; [|apply calm_rets, (end_write_calm _ _ _ _ _ _ E)].
    apply (SR_quiet _ _ c1); [exact B|apply SQ; reflexivity|apply sim_refl, B|reflexivity|reflexivity| |intros s; left; cbn [w_ks setc set]; lia].
    rewrite cli_setc_same by exact LB. intros L. rewrite (id_live _ _ ID) in L. destruct ID. auto.
  - assert (HA : actor a = Some c1) by (destruct Ha as [[-> _]|[[fd ->] _]]; reflexivity).
    exists c1. split; [left; exact HA|]. apply ST_calm; [|repeat constructor; cbn; destruct Ha as [[_ ->]|[_ ->]]; lia].
    apply (SR_quiet _ _ c1); [exact B|apply SQ; reflexivity|apply sim_refl, B|reflexivity|reflexivity| |intros s; left; cbn [w_ks setc set]; lia].
    rewrite cli_setc_same by exact LB. cbn [c_live c_w2r c_r2w set]. intros L. split; [exact L|]. split; apply bw_same_refl.
  - (* crash *)
    exists c1. split; [left; reflexivity|]. apply ST_calm; [|repeat constructor].
    assert (O : forall b h b' c' n s, hnd b (cli w c1) = h -> c' <> c1 -> wt b' w c' n s -> forall n1 p1, h <> Some (Wait n1 s p1)).
    { intros b h b' c' n s <- N H n1 p1 Q. destruct (b2_own _ B b' c' n s b c1 n1 H); [split; [exact Hl|eauto]|congruence]. }
    eapply (SR_dead w c1 (shared w) _ (drop_sock (drop_sock (w_ks w) (c_w2r (cli w c1))) (c_r2w (cli w c1)))); [exact B|apply (Ish0 w c1 false B)|eapply shut_trans; apply shut_drop|reflexivity|intros []; reflexivity| |apply SQ; reflexivity|].
    + intros b c' n s N H. destruct (drop_sock_fields (drop_sock (w_ks w) (c_w2r (cli w c1))) (c_r2w (cli w c1))) as [_ S2].
      destruct (S2 s) as (_ & _ & _ & _ & ->); [|apply (O false _ b c' n s eq_refl N H)].
      destruct (drop_sock_fields (w_ks w) (c_w2r (cli w c1))) as [_ S1].
      destruct (S1 s) as (_ & _ & _ & _ & ->); [reflexivity|apply (O true _ b c' n s eq_refl N H)].
    + rewrite cli_setc_same by exact LB. reflexivity.
Qed.
