(** * Registrations and wake-ups in executions with killed processes and
    failing socket calls. *)
From Verif Require Import MicroFacts KillExec.
From Verif Require Export KillBw KillSpec.

Record BI2 (w : world) : Prop := mkB2 {
  b2_k : KI (w_ks w);
  b2_len : forall b, length (h_wr (whd b w)) = BW_WAITMAX;
  b2_seq : forall b, 0 <= h_seq (whd b w);
  b2_wt : forall b c n s, wt b w c n s -> waits_at (w_ks w) (whd b w) n s;
  b2_wk : forall b c q cs, wk b w c q cs -> wkr (whd b w) (slots b w) q cs (mkbk (whd b w) (w_ks w));
  b2_own : forall b c n s b' c' n', wt b w c n s -> wt b' w c' n' s -> b = b' /\ c = c' }.

Lemma slot_owner2 w b c n s c' s' : BI2 w -> wt b w c n s -> wt b w c' n s' -> c = c' /\ s = s'.
Proof.
  intros B H H'. destruct (b2_wt _ B _ _ _ _ H) as (_ & O1 & _ & E1). destruct (b2_wt _ B _ _ _ _ H') as (_ & O2 & _ & E2).
  assert (s = s'); [|subst s'; split; [apply (b2_own _ B _ _ _ _ _ _ _ H H')|reflexivity]].
  apply (ki_names _ (b2_k _ B)); [apply sk_open_lt; exact O1|apply sk_open_lt; exact O2|]. rewrite E1 in E2. congruence.
Qed.

Lemma served_grow (W : nat -> Prop) h h' cs i : grow W h h' -> W i -> served h cs i -> served h' cs i.
Proof. intros [_ _ G] Hw (k & E1 & E2). exists k. rewrite (G i Hw). auto. Qed.
Lemma wkr_move (W W' : nat -> Prop) h h' ks ks' q cs : grow W h h' -> (forall i, W' i -> W i \/ h_seq h < h_seq h') ->
  (length ks <= length ks')%nat -> (forall s, (s < length ks)%nat -> k_name (sk ks' s) = k_name (sk ks s)) ->
  wkr h W q cs (mkbk h ks) -> wkr h' W' q cs (mkbk h' ks').
Proof.
  intros G HW L N ((V1 & V2) & Q & S). cbn [b_ks b_h] in *. pose proof (gr_seq _ _ _ G). split; [split; [exact V1|]|split].
  - intros i k Hk. destruct (V2 i k Hk) as [A B]. cbn [b_ks]. split; [lia|rewrite N by exact A; exact B].
  - cbn [b_h]. lia.
  - cbn [b_h]. intros E i Hi. destruct (HW i Hi) as [Hi'|Hlt]; [|lia]. apply (served_grow W h h'); [exact G|exact Hi'|]. apply S; [lia|exact Hi'].
Qed.

(** client [c] (alone) has changed *)
Lemma BI2_upd w w' c : BI2 w -> (forall c', c' <> c -> cli w' c' = cli w c') -> KI (w_ks w') ->
  (length (w_ks w) <= length (w_ks w'))%nat ->
  (forall s, (s < length (w_ks w))%nat -> k_name (sk (w_ks w') s) = k_name (sk (w_ks w) s) /\ k_pid (sk (w_ks w') s) = k_pid (sk (w_ks w) s)) ->
  (forall b c' n s, c' <> c -> wt b w c' n s -> k_open (sk (w_ks w') s) = true) ->
  (forall b, grow (others b w c) (whd b w) (whd b w')) ->
  (forall b n s p, c_live (cli w' c) = true -> hnd b (cli w' c) = Some (Wait n s p) ->
     waits_at (w_ks w') (whd b w') n s /\ (wt b w c n s \/ (length (w_ks w) <= s)%nat /\ h_seq (whd b w) < h_seq (whd b w'))) ->
  (forall b q cs, c_live (cli w' c) = true -> hnd b (cli w' c) = Some (Wake q cs) -> wkr (whd b w') (slots b w') q cs (mkbk (whd b w') (w_ks w'))) ->
  (forall n n' s p p', c_live (cli w' c) = true -> c_w2r (cli w' c) = Some (Wait n s p) -> c_r2w (cli w' c) = Some (Wait n' s p') -> False) ->
  BI2 w'.
Proof.
  intros B HC HK HL HN HO HH HWt HWk HX.
  assert (OLD : forall b c' n s, c' <> c -> wt b w' c' n s -> wt b w c' n s).
  { intros b c' n s N [H1 H2]. rewrite HC in H1, H2 by exact N. split; assumption. }
  assert (WT : forall b c' n s, wt b w' c' n s -> waits_at (w_ks w') (whd b w') n s).
  { intros b c' n s H. destruct (Nat.eq_dec c' c) as [->|N].
    + destruct H as [H1 [p H2]]. apply (HWt b n s p H1 H2).
    + apply OLD in H; [|exact N]. destruct (b2_wt _ B _ _ _ _ H) as (A1 & A2 & A3 & A4).
      pose proof (sk_open_lt _ _ A2) as Ls. destruct (HN s Ls) as [E1 E2]. split; [exact A1|]. split; [apply (HO b c' n s N H)|].
      rewrite E1, E2. split; [exact A3|]. rewrite (gr_slot _ _ _ (HH b) n); [exact A4|]. exists c', s. auto. }
  constructor; [exact HK| | |exact WT| |].
  - intros b. rewrite (gr_len _ _ _ (HH b)). apply (b2_len _ B).
  - intros b. pose proof (gr_seq _ _ _ (HH b)). pose proof (b2_seq _ B b). lia.
  - intros b c' q cs [H1 H2]. destruct (Nat.eq_dec c' c) as [->|N]; [apply HWk; assumption|].
    rewrite HC in H1, H2 by exact N.
    destruct (b2_wk _ B b c' q cs (conj H1 H2)) as ((V1 & V2) & Q & S). cbn [b_ks b_h] in *. pose proof (gr_seq _ _ _ (HH b)) as GS.
    split; [split; [exact V1|]|split]; cbn [b_ks b_h].
    + intros i k Hk. destruct (V2 i k Hk) as [E1 E2]. split; [lia|]. destruct (HN k E1) as [-> _]. exact E2.
    + lia.
    + intros E i (c2 & s2 & S2). assert (Eq : q = h_seq (whd b w)) by lia.
      assert (SAME : forall c3, wt b w c3 i s2 -> ws_name (nth i (h_wr (whd b w')) ws_free) = ws_name (nth i (h_wr (whd b w)) ws_free)).
      { intros c3 S3. destruct (WT _ _ _ _ S2) as (_ & _ & _ & E2). destruct (b2_wt _ B _ _ _ _ S3) as (_ & O1 & _ & E1).
        rewrite E1, E2. cbn [ws_name]. apply (HN s2 (sk_open_lt _ _ O1)). }
      assert (S3 : exists c3, wt b w c3 i s2).
      { destruct (Nat.eq_dec c2 c) as [->|N2]; [|exists c2; apply OLD; assumption]. pose proof S2 as [L2 [p2 P2]].
        destruct (HWt b i s2 p2 L2 P2) as [_ [Q0|[_ Q2]]]; [eauto|lia]. }
      destruct S3 as [c3 S3]. destruct (S Eq i) as (k & E1 & E2); [exists c3, s2; exact S3|]. exists k. split; [exact E1|]. rewrite (SAME c3 S3). exact E2.
  - assert (ME : forall b b' n s c' n', wt b w' c n s -> c' <> c -> wt b' w' c' n' s -> False).
    { intros b b' n s c' n' [H1 [p H2]] N H'. apply OLD in H'; [|exact N]. destruct (HWt b n s p H1 H2) as [_ [H|[H _]]].
      - destruct (b2_own _ B _ _ _ _ _ _ _ H H') as [_ E]. congruence.
      - destruct (b2_wt _ B _ _ _ _ H') as (_ & A2 & _). apply sk_open_lt in A2. lia. }
    intros b c1 n s b' c2 n' H1 H2. destruct (Nat.eq_dec c1 c) as [->|N1], (Nat.eq_dec c2 c) as [->|N2].
    + destruct H1 as [L1 [p1 P1]], H2 as [L2 [p2 P2]]. split; [|reflexivity].
      destruct b, b'; try reflexivity; exfalso; cbn [hnd] in P1, P2; first [exact (HX _ _ _ _ _ L1 P1 P2)|exact (HX _ _ _ _ _ L1 P2 P1)].
    + elim (ME _ _ _ _ _ _ H1 N2 H2).
    + elim (ME _ _ _ _ _ _ H2 N1 H1).
    + apply (b2_own _ B _ _ _ _ _ _ _ (OLD _ _ _ _ N1 H1) (OLD _ _ _ _ N2 H2)).
Qed.

(** nothing of this kind has changed, except the datagrams queued *)
Lemma BI2_quiet w w' c : BI2 w -> (forall c', c' <> c -> cli w' c' = cli w c') -> sim (w_ks w) (w_ks w') ->
  w_w2r w' = w_w2r w -> w_r2w w' = w_r2w w ->
  (c_live (cli w' c) = true -> c_live (cli w c) = true /\ bw_same (c_w2r (cli w c)) (c_w2r (cli w' c)) /\ bw_same (c_r2w (cli w c)) (c_r2w (cli w' c))) ->
  BI2 w'.
Proof.
  intros B HC [SL S] H1 H2 HS. assert (HB : forall b, whd b w' = whd b w) by (intros []; assumption).
  assert (HW : forall b n s p, c_live (cli w' c) = true -> hnd b (cli w' c) = Some (Wait n s p) -> wt b w c n s).
  { intros b n s p L E. destruct (HS L) as (L0 & E1 & E2). split; [exact L0|]. destruct b; cbn [hnd] in *; eapply bw_same_wait; rewrite <- E; assumption. }
  assert (HW' : forall b i, slots b w' i -> slots b w i).
  { intros b i (c1 & s1 & [L [p P]]). destruct (Nat.eq_dec c1 c) as [->|N]; [exists c, s1; apply (HW b i s1 p L P)|].
    rewrite HC in L, P by exact N. exists c1, s1. split; [exact L|eauto]. }
  apply (BI2_upd w w' c B HC).
  - apply (sim_KI (w_ks w)); [split; assumption|apply B].
  - lia.
  - intros s _. destruct (S s) as (A1 & A2 & _). auto.
  - intros b c' n s _ H. destruct (S s) as (_ & _ & -> & _). apply (b2_wt _ B _ _ _ _ H).
  - intros b. rewrite HB. apply grow_refl.
  - intros b n s p L E. pose proof (HW b n s p L E) as Ho. split; [|left; exact Ho].
    destruct (b2_wt _ B _ _ _ _ Ho) as (A1 & A2 & A3 & A4). unfold waits_at. rewrite HB. destruct (S s) as (-> & -> & -> & _). auto.
  - intros b q cs L E. rewrite HB. apply (wkr_move (slots b w) _ (whd b w) _ (w_ks w)); [apply grow_refl|intros i Hi; left; apply HW', Hi|lia|intros s _; apply S|].
    apply (b2_wk _ B b c). destruct (HS L) as (L0 & E1 & E2). split; [exact L0|]. destruct b; cbn [hnd] in *; apply bw_same_wake; rewrite <- E; assumption.
  - intros n n' s p p' L E1 E2. destruct (b2_own _ B _ _ _ _ _ _ _ (HW true _ _ _ L E1) (HW false _ _ _ L E2)). discriminate.
Qed.

(** ** sections on the shared memory *)
Definition hd (b : bool) (m : shm) : bwh := if b then sh_w2r m else sh_r2w m.
Section Shm.
Variables (w : world) (c : nat) (me : bool) (e : env).
(** the slots and sockets of the other clients, or ([me]) of all *)
Definition Wb (b : bool) (n : nat) : Prop := exists c' s, (c' <> c \/ me = true) /\ wt b w c' n s.
Definition Ks (s : nat) : Prop := exists b c' n, (c' <> c \/ me = true) /\ wt b w c' n s.
Definition Ls (s : nat) : Prop := exists b c' n, c' <> c /\ wt b w c' n s.
Definition Ish (m : shm) : Prop := (forall b, grow (Wb b) (whd b w) (hd b m)) /\ kin Ks Ls (w_ks w) (sh_ks m).
Definition IB (b : bool) : bks -> Prop := Ib (whd b w) (w_ks w) (Wb b) Ks Ls.
Hypothesis B : BI2 w.
Hypothesis HE : honest_sockets (w_ks w) e.

Lemma Wb_slots b n : Wb b n -> slots b w n.
Proof. intros (c' & s & _ & H). exists c', s. exact H. Qed.
Lemma Wb_ok b n : Wb b n -> (n < BW_WAITMAX)%nat /\ exists s, reg (whd b w) (w_ks w) n s /\ Ks s /\ k_pid (sk (w_ks w) s) <> 0
  /\ e_probe e (k_pid (sk (w_ks w) s)) (k_name (sk (w_ks w) s)) <> 0.
Proof.
  intros (c' & s & N & H). destruct (b2_wt _ B _ _ _ _ H) as (A1 & A2 & A3 & A4). pose proof (sk_open_lt _ _ A2) as Lt. split; [exact A1|].
  exists s. split; [split; [exact Lt|exact A4]|]. split; [exists b, c', n; auto|]. split; [exact A3|].
  intros E. apply (hs_probe _ _ HE) in E. apply E. exists (sk (w_ks w) s). split; [apply nth_In; exact Lt|auto].
Qed.
Lemma Ks_lt s : Ks s -> (s < length (w_ks w))%nat.
Proof. intros (b & c' & n & _ & H). destruct (b2_wt _ B _ _ _ _ H) as (_ & A2 & _). apply sk_open_lt, A2. Qed.
Lemma Ls_lt s : Ls s -> (s < length (w_ks w))%nat.
Proof. intros (b & c' & n & _ & H). destruct (b2_wt _ B _ _ _ _ H) as (_ & A2 & _). apply sk_open_lt, A2. Qed.
Lemma Ish0 : Ish (shared w).
Proof.
  split; [intros []; apply grow_refl|]. apply kin_refl; [apply B|]. intros s (b & c' & n & _ & H). apply (b2_wt _ B _ _ _ _ H).
Qed.
Lemma Ish_get b m : Ish m -> IB b (get_bk b m).
Proof. intros [H1 H2]. split; [exact (H1 b)|exact H2]. Qed.

Lemma safe_on {A} b (P : bks -> Prop) (Q : A -> bks -> Prop) (p : prog bks A) : safe P (IB b) Q p ->
  safe (fun m => P (get_bk b m) /\ Ish m) Ish (fun x m => Q x (get_bk b m) /\ (IB b (get_bk b m) -> Ish m)) (on_bw b p).
Proof.
  intros H m [Hp [G KN]]. destruct (H _ Hp) as [H1 H2].
  assert (F : forall s, IB b s -> Ish (put_bk b m s)).
  { intros s [F1 F2]. split; [|destruct b; exact F2]. intros b'. specialize (G b'). destruct b, b'; cbn [hd put_bk] in *; try exact F1; exact G. }
  split.
  - intros l m' D. apply dies_bw in D. destruct D as (s & D & ->). apply F, (H1 _ _ D).
  - intros m' x E. rewrite exec_bw in E. apply obind_ok in E. destruct E as ([s y] & E & E2). apply ok_pair in E2. destruct E2 as [<- <-].
    rewrite bk_gp. split; [apply (H2 _ _ E)|apply F].
Qed.
Lemma safe_ring {A} (p : prog ring A) : safe Ish Ish (fun _ => Ish) (on_ring p).
Proof.
  intros m H. split.
  - intros l m' D. apply dies_ring in D. destruct D as (r & _ & ->). exact H.
  - intros m' x E. rewrite exec_ring in E. apply obind_ok in E. destruct E as ([r y] & _ & E2). apply ok_pair in E2. destruct E2 as [<- _]. exact H.
Qed.
Lemma safe_stop {A} (P : shm -> Prop) (Q : A -> shm -> Prop) l f : (forall m, P m -> Ish m) -> (forall m, f m = UB \/ f m = Abort) -> safe P Ish Q (At l f).
Proof. intros H1 H2. apply safe_at; [exact H1|]. intros m m' p' _ E. destruct (H2 m) as [Q1|Q1]; rewrite Q1 in E; discriminate. Qed.

Definition P0 (m : shm) : Prop := (forall b, hd b m = whd b w) /\ sh_ks m = w_ks w.
Lemma P0_Ish m : P0 m -> Ish m.
Proof. intros [H1 H2]. destruct Ish0 as [G1 G2]. split; [intros b; rewrite H1; exact (G1 b)|rewrite H2; exact G2]. Qed.
Lemma P0_get b m : P0 m -> get_bk b m = mkbk (whd b w) (w_ks w).
Proof. intros [H1 H2]. unfold get_bk. specialize (H1 b). destruct b; cbn [hd] in H1; rewrite H1, H2; reflexivity. Qed.
Lemma safe_ring0 {A} (p : prog ring A) : safe P0 Ish (fun _ => P0) (on_ring p).
Proof.
  intros m H. split.
  - intros l m' D. apply dies_ring in D. destruct D as (r & _ & ->). apply P0_Ish in H. exact H.
  - intros m' x E. rewrite exec_ring in E. apply obind_ok in E. destruct E as ([r y] & _ & E2). apply ok_pair in E2. destruct E2 as [<- _]. exact H.
Qed.
Lemma safe_bw {A} b (Q : A -> bks -> Prop) (p : prog bks A) : safe (IB b) (IB b) (fun x s => IB b s /\ Q x s) p -> safe Ish Ish (fun x m => Ish m /\ Q x (get_bk b m)) (on_bw b p).
Proof.
  intros H. eapply safe_pre; [| |apply (safe_on b _ _ _ H)].
  - intros m Hm. split; [apply Ish_get; exact Hm|exact Hm].
  - intros x m [[H1 H2] H3]. auto.
Qed.
Lemma safe_bw0 {A} b (P : bks -> Prop) (Q : A -> bks -> Prop) (p : prog bks A) : P (mkbk (whd b w) (w_ks w)) ->
  safe P (IB b) (fun x s => IB b s /\ Q x s) p -> safe P0 Ish (fun x m => Ish m /\ Q x (get_bk b m)) (on_bw b p).
Proof.
  intros H0 H. eapply safe_pre; [| |apply (safe_on b _ _ _ H)].
  - intros m Hm. split; [rewrite (P0_get b m Hm); exact H0|apply P0_Ish; exact Hm].
  - intros x m [[H1 H2] H3]. auto.
Qed.
Lemma safe_drop {A} (P : shm -> Prop) (Q : A -> shm -> Prop) (p : prog shm A) : safe P Ish (fun x m => Ish m /\ Q x m) p ->
  safe P Ish (fun _ => Ish) (run! _ <- p; Ret tt).
Proof. intros H. eapply safe_bind; [exact H|]. intros x. apply safe_ret. intros m [Hm _]. exact Hm. Qed.

Hypothesis HC : c_live (cli w c) = true.
Lemma wkr_mine b q cs : hnd b (cli w c) = Some (Wake q cs) -> wkr (whd b w) (Wb b) q cs (mkbk (whd b w) (w_ks w)).
Proof.
  intros E. apply (wkr_move (slots b w) _ (whd b w) _ (w_ks w)); [apply grow_refl|intros i Hi; left; apply Wb_slots, Hi|lia|auto|].
  apply (b2_wk _ B b c). split; assumption.
Qed.
Definition woken (b : bool) (x : bwt * bool) (s : bks) : Prop := exists q cs, fst x = Wake q cs /\ wkr (whd b w) (Wb b) q cs s
  /\ (snd x = true -> forall i, Wb b i -> rung (whd b w) (w_ks w) (b_ks s) i).
Lemma my_wake b h : hnd b (cli w c) = Some h -> safe P0 Ish (fun x m => Ish m /\ woken b x (get_bk b m)) (on_bw b (bw_wake_p e h)).
Proof.
  intros Hh. destruct h as [q cs|n s p].
  - apply (safe_bw0 b (fun s => IB b s /\ wkr (whd b w) (Wb b) q cs s) (woken b)).
    + split; [|apply wkr_mine, Hh]. rewrite <- (P0_get b (shared w)); [apply Ish_get, Ish0|]. split; [intros []; reflexivity|reflexivity].
    + apply safe_wake; first [apply (b2_len _ B)|apply Wb_ok|apply HE].
  - cbn [bw_wake_p]. unfold on_bw. cbn [liftp]. apply safe_stop; [apply P0_Ish|auto].
Qed.
Lemma not_Ls b n s p : hnd b (cli w c) = Some (Wait n s p) -> ~ Ls s.
Proof. intros E (b' & c' & n' & N & H). assert (M : wt b w c n s) by (split; [exact HC|eauto]). destruct (b2_own _ B _ _ _ _ _ _ _ M H). congruence. Qed.
Lemma my_force b h want : hnd b (cli w c) = Some h -> safe Ish Ish (fun _ => Ish) (run! _ <- on_bw b (bw_force_p e h want); Ret tt).
Proof.
  intros Hh. destruct h as [q cs|n s p].
  - cbn [bw_force_p]. unfold on_bw. cbn [liftp bindp]. apply safe_stop; [auto|auto].
  - apply (safe_drop _ (fun _ _ => True)). apply (safe_bw b (fun _ _ => True)). eapply safe_pre; [intros t Ht; exact Ht| |apply (safe_force e _ _ _ _ _ (b2_len _ B b) n s p want)].
    + intros x t Ht. split; [exact Ht|exact I].
    + apply (not_Ls b n s p Hh).
Qed.
Lemma my_close b h : me = false -> hnd b (cli w c) = Some h -> safe Ish Ish (fun _ => Ish) (on_bw b (bw_close_p h)).
Proof.
  intros Hm Hh. destruct h as [q cs|n s p].
  - cbn [bw_close_p]. unfold on_bw. cbn [liftp]. apply safe_ret. auto.
  - assert (M : wt b w c n s) by (split; [exact HC|eauto]).
    eapply safe_pre; [intros t Ht; exact Ht| |apply (safe_bw b (fun _ _ => True))].
    + intros x t [Ht _]. exact Ht.
    + eapply safe_pre; [intros t Ht; exact Ht| |apply (safe_close _ _ _ _ _ (b2_len _ B b) n s p)].
      * intros x t Ht. split; [exact Ht|exact I].
      * intros (c' & s' & [N|N] & H); [|congruence]. destruct (slot_owner2 _ _ _ _ _ _ _ B M H). congruence.
      * intros (b' & c' & n' & [N|N] & H); [|congruence]. destruct (b2_own _ B _ _ _ _ _ _ _ M H). congruence.
Qed.
Hypothesis HN : forall s, (s < length (w_ks w))%nat -> k_name (sk (w_ks w) s) <> e_name e.
Lemma my_open b pid : safe P0 Ish (fun o m => Ish m /\ (exists l, sh_ks m = w_ks w ++ l) /\ opened e (whd b w) (w_ks w) (Wb b) pid (e_name e) o (get_bk b m)) (on_bw b (bw_open_wait_p e pid (e_name e))).
Proof.
  apply (safe_bw0 b (fun s => IB b s /\ b_ks s = w_ks w) (fun o s => (exists l, b_ks s = w_ks w ++ l) /\ opened e (whd b w) (w_ks w) (Wb b) pid (e_name e) o s)).
  - split; [|reflexivity]. rewrite <- (P0_get b (shared w)); [apply Ish_get, Ish0|]. split; [intros []; reflexivity|reflexivity].
  - apply safe_open_wait; [apply (b2_len _ B)|apply Wb_ok|apply Ks_lt|apply Ls_lt|exact HN].
Qed.

Lemma P0_shared : P0 (shared w).
Proof. split; [intros []; reflexivity|reflexivity]. Qed.
Theorem safe_section : (me = true -> c_pc (cli w c) <> RunClose) -> safe P0 Ish (fun _ => Ish) (section e (cli w c)).
Proof.
  intros Hme. unfold section. destruct (e_lock e); cbn [negb]; [|apply safe_ret; apply P0_Ish].
  assert (DONE : safe Ish Ish (fun _ => Ish) (Ret tt)) by (apply safe_ret; auto).
  assert (DONE0 : safe P0 Ish (fun _ => Ish) (Ret tt)) by (apply safe_ret; apply P0_Ish).
  destruct (c_pc (cli w c)) as [ |k iov len nb|k iov len nb|buf niov|buf niov| | |reset|get st sz] eqn:Ep; try exact DONE0.
  - eapply safe_bind; [apply safe_ring0|]. intros stored. cbv beta. destruct stored; [|exact DONE0].
    destruct (c_w2r (cli w c)) as [h|] eqn:Eh; [|apply safe_stop; [apply P0_Ish|auto]].
    eapply safe_bind; [apply (my_wake true); exact Eh|]. intros x. cbv beta. eapply safe_pre; [intros m [Hm _]; exact Hm|intros y m Hm; exact Hm|].
    destruct (snd x); [apply safe_ring|exact DONE].
  - eapply safe_bind; [apply safe_ring0|]. intros x. cbv beta.
    destruct (c_w2r (cli w c)) as [h|] eqn:Eh.
    2: { destruct (snd x) as [[]|]; (apply safe_stop; [apply P0_Ish|auto]). }
    destruct (snd x) as [[l cur']|].
    2: { eapply safe_pre; [intros m Hm; apply P0_Ish; exact Hm|intros y m Hm; exact Hm|]. destruct (has _ _); [apply (my_force true); exact Eh|exact DONE]. }
    eapply safe_bind with (R := fun _ => Ish); [|intros u; cbv beta; apply (my_force true); exact Eh].
    destruct (rl_nr l >? 0); [|exact DONE0]. destruct (c_r2w (cli w c)) as [h2|] eqn:Eh2; [|apply safe_stop; [apply P0_Ish|auto]].
    apply (safe_drop _ (fun y m => woken false y (get_bk false m))). apply (my_wake false). exact Eh2.
  - apply (safe_drop _ (fun o m => (exists l, sh_ks m = w_ks w ++ l) /\ opened e (whd false w) (w_ks w) (Wb false) (c_pid (cli w c)) (e_name e) o (get_bk false m))). apply my_open.
  - assert (Hm : me = false) by (destruct me; [elim (Hme eq_refl eq_refl)|reflexivity]).
    eapply safe_pre; [intros m Hm0; apply P0_Ish; exact Hm0|intros y m Hm0; exact Hm0|].
    eapply safe_bind with (R := fun _ => Ish).
    + destruct (c_w2r (cli w c)) as [h|] eqn:Eh; [apply (my_close true); assumption|exact DONE].
    + intros u. cbv beta. destruct (c_r2w (cli w c)) as [h|] eqn:Eh; [apply (my_close false); assumption|exact DONE].
  - destruct reset; [|exact DONE0]. eapply safe_pre; [intros m Hm; apply P0_Ish; exact Hm|intros y m Hm; exact Hm|apply safe_ring].
  - eapply safe_pre; [intros m Hm; apply P0_Ish; exact Hm|intros y m Hm; exact Hm|apply safe_ring].
Qed.
End Shm.

(** ** shr_open *)
Lemma safe_pure {S A} (P I : S -> Prop) (Q : A -> S -> Prop) (X : Prop) p : (X -> safe P I Q p) -> safe (fun s => P s /\ X) I Q p.
Proof. intros H s [Hs Hx]. apply (H Hx s Hs). Qed.
Section Opening.
Variables (w : world) (c : nat) (e : env).
Hypothesis B : BI2 w.
Hypothesis HE : honest_sockets (w_ks w) e.
Hypothesis HD : forall b n s, ~ wt b w c n s.
Hypothesis HN : forall s, (s < length (w_ks w))%nat -> k_name (sk (w_ks w) s) <> e_name e.
Let Ish := Ish w c false.
Definition new_wait (b : bool) (o : option bwt) : Prop := forall x, o = Some x -> exists n, x = Wait n (length (w_ks w)) [] /\ ~ Wb w c false b n.
Definition new_wake (o : option bwt) : Prop := forall x, o = Some x -> exists q cs, x = Wake q cs.
Lemma sid_not_K : ~ Ks w c false (length (w_ks w)).
Proof. intros H. apply (Ks_lt w c false B) in H. lia. Qed.
Lemma sid_not_L : ~ Ls w c (length (w_ks w)).
Proof. intros H. apply (Ls_lt w c B) in H. lia. Qed.
Lemma new_close b o (P : shm -> Prop) : (forall m, P m -> Ish m) -> new_wait b o \/ new_wake o -> safe P Ish (fun _ => Ish) (close_opt b o).
Proof.
  intros HP H. destruct o as [x|]; cbn [close_opt]; [|apply safe_ret; exact HP].
  destruct H as [H|H].
  - destruct (H x eq_refl) as (n & -> & NW). eapply safe_pre; [exact HP| |apply (safe_bw w c false b (fun _ _ => True))].
    + intros u t [Ht _]. exact Ht.
    + eapply safe_pre; [intros t Ht; exact Ht| |apply (safe_close _ _ _ _ _ (b2_len _ B b) n (length (w_ks w)) [])].
      * intros u t Ht. split; [exact Ht|exact I].
      * exact NW.
      * apply sid_not_K.
  - destruct (H x eq_refl) as (q & cs & ->). cbn [bw_close_p]. unfold on_bw. cbn [liftp]. apply safe_ret. exact HP.
Qed.
Lemma new_open_wait b (P : shm -> Prop) pid : (forall m, P m -> Ish m /\ sh_ks m = w_ks w) ->
  safe P Ish (fun o m => Ish m /\ new_wait b o) (on_bw b (bw_open_wait_p e pid (e_name e))).
Proof.
  intros HP. eapply safe_pre; [| |apply (safe_on w c false b (fun s => IB w c false b s /\ b_ks s = w_ks w) _ _
    (safe_open_wait _ _ _ _ _ _ (b2_len _ B b) (Wb_ok w c false e B HE b) (Ks_lt w c false B) (Ls_lt w c B) pid (e_name e) HN))].
  - intros m Hm. destruct (HP m Hm) as [H1 H2]. split; [|exact H1]. split; [apply Ish_get; exact H1|exact H2].
  - intros o m [(H1 & _ & H2) H3]. split; [apply H3; exact H1|]. intros x Ex. destruct (H2 x Ex) as (n & A1 & _ & A2 & _). eauto.
Qed.
Lemma new_open_wake b (P : shm -> Prop) : (forall m, P m -> Ish m) ->
  safe P Ish (fun o m => Ish m /\ new_wake o) (on_bw b (bw_open_wake_p e)).
Proof.
  intros HP s Hs. revert s Hs. apply (safe_pre P (fun m => Ish m) Ish _ (fun o m => Ish m /\ new_wake o)); [exact HP|auto|].
  intros m Hm. eapply (safe_pre (fun m' => m' = m)); [intros m' Hm'; exact Hm'|intros x s H; exact H| |reflexivity].
  eapply safe_pre; [| |apply (safe_on w c false b (fun s => IB w c false b s /\ b_ks s = sh_ks m) _ _
    (safe_open_wake _ _ _ _ _ _ (b2_len _ B b) (Wb_ok w c false e B HE b) (sh_ks m) (b2_seq _ B b)))].
  - intros m' ->. split; [|exact Hm]. split; [apply Ish_get; exact Hm|reflexivity].
  - intros o m' [(H1 & _ & H2) H3]. split; [apply H3; exact H1|]. intros x Ex. destruct (H2 x Ex) as (q & cs & A & _). eauto.
Qed.
Lemma safe_fail a b : new_wait true a \/ new_wake a -> new_wake b -> safe Ish Ish (fun _ => Ish) (fail_open a b).
Proof.
  intros H1 H2. unfold fail_open. eapply safe_bind; [apply (new_close false b Ish); auto|]. intros u. cbv beta. apply new_close; auto.
Qed.
Theorem safe_opening flags pid : safe (P0 w) Ish (fun _ => Ish) (open_section e w flags pid).
Proof.
  unfold open_section. destruct (_ || _); [apply safe_ret; apply (P0_Ish w c false B)|].
  assert (DONE : forall P : shm -> Prop, (forall m, P m -> Ish m) -> safe P Ish (fun _ => Ish) (Ret tt)) by (intros P H; apply safe_ret; exact H).
  destruct (has flags SHR_RDONLY).
  - eapply safe_bind; [apply (new_open_wait true (P0 w)); intros m Hm; split; [apply (P0_Ish w c false B); exact Hm|apply Hm]|].
    intros a. cbv beta. apply safe_pure. intros Ha. eapply safe_bind; [apply (new_open_wake false Ish); auto|].
    intros b. cbv beta. apply safe_pure. intros Hb. destruct a as [x|]; [|apply safe_fail; auto]. destruct b as [y|]; [|apply safe_fail; auto].
    destruct (Ha x eq_refl) as (n & -> & NW).
    eapply safe_bind with (R := fun _ => Ish).
    + eapply safe_pre; [intros m Hm; exact Hm| |apply (safe_bw w c false true (fun _ _ => True))].
      * intros u m [Hm _]. exact Hm.
      * eapply safe_pre; [intros t Ht; exact Ht| |apply (safe_force e _ _ _ _ _ (b2_len _ B true))].
        -- intros u t Ht. split; [exact Ht|exact I].
        -- apply sid_not_L.
    + intros ok. cbv beta. destruct ok; [apply DONE; auto|apply safe_fail; auto].
  - eapply safe_bind with (R := fun o m => Ish m /\ sh_ks m = w_ks w /\ new_wake o).
    + eapply safe_pre; [| |apply (safe_on w c false true (fun s => IB w c false true s /\ b_ks s = w_ks w) _ _
        (safe_open_wake _ _ _ _ _ _ (b2_len _ B true) (Wb_ok w c false e B HE true) (w_ks w) (b2_seq _ B true)))].
      * intros m Hm. pose proof (P0_Ish w c false B m Hm) as H1. split; [|exact H1]. split; [apply Ish_get; exact H1|apply Hm].
      * intros o m [(H1 & H4 & H2) H3]. split; [apply H3; exact H1|]. split; [exact H4|]. intros x Ex. destruct (H2 x Ex) as (q & cs & A & _). eauto.
    + intros a. cbv beta. destruct a as [x|]; [|apply DONE; intros m Hm; apply Hm].
      destruct (_ && _); [|apply DONE; intros m Hm; apply Hm].
      eapply safe_pre with (P' := fun m => (Ish m /\ sh_ks m = w_ks w) /\ new_wake (Some x)); [intros m (H1 & H2 & H3); auto|intros y s H; exact H|].
      apply safe_pure. intros Ha. eapply safe_bind; [apply (new_open_wait false); auto|]. intros b. cbv beta. destruct b; [apply DONE; intros m Hm; apply Hm|].
      apply safe_pure. intros _. apply safe_fail; [auto|]. intros y Ey. discriminate.
Qed.
End Opening.
