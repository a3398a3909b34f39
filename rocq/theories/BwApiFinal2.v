(** * Results of the library's calls, and room for waiters (proofs about BwApi.v) *)
From Coq Require Import Sorting.Permutation.
From Verif Require Import BaseFacts MicroFacts KillExec KillFacts BwInv BwOcc KillBw KillBwInv KillBwStep KillOcc FineAdv FineOnce FineStep FineHome.
From Verif Require Export BwApiFinal.

Lemma good_honest' y e : working y e -> honest y e.
Proof. intros (G & N & _). split; [apply good_honest, G|exact N]. Qed.
Lemma opened_waiting y c h : opened_as y c h -> waiting y c <-> exists n k p, h = Wait n k p.
Proof.
  unfold opened_as. intros HC. rewrite waiting_Wt. unfold Wt. rewrite HC. split; [intros (n & k & p & H); injection H as ->; eauto|].
  intros (n & k & p & ->). exists n, k, p. reflexivity.
Qed.
Lemma exec_map {S A B} (p : prog S A) (f : A -> B) s s' r : exec_all p s = Ok (s', r) -> exec_all (run! x <- p; Ret (f x)) s = Ok (s', f r).
Proof. intros E. rewrite exec_bind, E. reflexivity. Qed.
Lemma mkbk_id s : mkbk (b_h s) (b_ks s) = s. Proof. destruct s; reflexivity. Qed.
Lemma wake_total e home y c q cs : BY home y -> opened_as y c (Wake q cs) ->
  exists s h b, exec_all (bw_wake_p e (Wake q cs)) (y_s y) = Ok (s, (h, b)) /\ (good_sockets (b_ks (y_s y)) e -> b = true).
Proof.
  intros B HC. destruct (by_wk _ _ B _ _ _ HC) as [((LV & _) & _) _].
  pose proof (exec_wake e (b_ks (y_s y)) (b_h (y_s y)) (Wake q cs) (by_len _ _ B) LV) as X. rewrite mkbk_id in X.
  assert (T : exists ks' h' w' ok, bw_wake e (b_ks (y_s y)) (b_h (y_s y)) (Wake q cs) = Ok (ks', h', w', ok)).
  { cbn [bw_wake]. destruct (bw_sync e (b_ks (y_s y)) (b_h (y_s y)) q cs) as [[[h1 q1] cs1] [|]]; [|eauto 6]. destruct (wake_slots _ _ _ _ _) as [[[wr2 cs2] ks2] inc]. eauto 6. }
  destruct T as (ks' & h' & w' & ok & T). rewrite T in X. cbn [obind] in X. exists (mkbk h' ks'), w', ok. split; [exact X|]. intros G.
  apply (wake_ok _ _ _ _ _ _ _ _ _ G) with (2 := T). rewrite LV. symmetry. apply (by_len _ _ B).
Qed.
Theorem wake_returns y evs c h e : breach honest y evs -> opened_as y c h -> ~ waiting y c -> working y e ->
  exists s o, exec_all (call_p e h BcWake) (y_s y) = Ok (s, (o, 0)) /\ bstep honest y (BRet c BcWake 0) (mkbsys s (set_nat (y_cl y) c (bcli y c <| bc_h := o |>))).
Proof.
  intros R HC NW WK. destruct (breach_BY _ _ R) as [home B]. destruct h as [q cs|n k p]; [|elim NW; apply (opened_waiting y c _ HC); eauto].
  destruct (wake_total e home y c q cs B HC) as (s & h & b & E & Hb). rewrite (Hb (proj1 WK)) in E. exists s, (Some h).
  assert (E2 : exec_all (call_p e (Wake q cs) BcWake) (y_s y) = Ok (s, (Some h, 0))) by (apply (exec_map _ (fun r => (Some (fst r), code (snd r))) _ _ _ E)).
  split; [exact E2|]. apply (bs_call honest y e c (Wake q cs)); [apply good_honest', WK|exact HC|exact E2].
Qed.

(** ** every call in its mode returns; the others are stopped *)
Theorem modes y evs c h e x : breach honest y evs -> opened_as y c h -> (forall fd, x <> BcOther fd) ->
  (allowed y c x -> (x = BcWait -> readable y c) -> exists s o v, exec_all (call_p e h x) (y_s y) = Ok (s, (o, v)) /\ (v = 0 \/ v = -1))
  /\ (waiting y c -> ~ readable y c -> exec_all (call_p e h BcWait) (y_s y) = Stuck)
  /\ (~ allowed y c x -> exec_all (call_p e h x) (y_s y) = Abort).
Proof.
  intros R HC NO. destruct (breach_BY _ _ R) as [home B]. pose proof (opened_waiting y c h HC) as WW. split; [|split].
  - intros A RD. destruct x as [|want| | |fd|fd|]; cbn [allowed] in A; try (apply WW in A; destruct A as (n & k & p & ->)).
    + destruct h as [q cs|n k p]; [|elim A; apply WW; eauto]. destruct (wake_total e home y c q cs B HC) as (s & h & b & E & _).
      eexists _, _, _. split; [apply (exec_map _ (fun r => (Some (fst r), code (snd r))) _ _ _ E)|]. destruct b; cbn; auto.
    + cbn [call_p bw_force_p]. destruct (e_force e); cbn; eauto 6.
    + cbn. eauto 6.
    + specialize (RD eq_refl). apply readable_Wt in RD. destruct RD as (n' & k' & HW & P). destruct (Wt_fun y c n k n' k') as [-> ->]; [exists p; exact HC|exact HW|].
      unfold pend in P. cbn [call_p bw_wait_p bindp exec_all]. destruct (Z.gtb_spec (k_pend (sk (b_ks (y_s y)) k')) 0); [|lia]. cbn. eauto 6.
    + elim (NO fd). reflexivity.
    + cbn [call_p bw_ctl]. destruct (existsb _ _); cbn; eauto 6.
    + destruct h as [q cs|n k p]; cbn; eauto 6.
  - intros W N. apply WW in W. destruct W as (n & k & p & ->). cbn [call_p bw_wait_p bindp exec_all]. 
    destruct (Z.gtb_spec (k_pend (sk (b_ks (y_s y)) k)) 0) as [G|G]; [|reflexivity]. elim N. apply readable_Wt. exists n, k. split; [exists p; exact HC|unfold pend; lia].
  - intros A. destruct x as [|want| | |fd|fd|]; cbn [allowed] in A.
    + destruct h as [q cs|n k p]; [|reflexivity]. elim A. intros W. apply WW in W. destruct W as (n & k & p & Q). discriminate.
    + destruct h as [q cs|n k p]; [reflexivity|elim A; apply WW; eauto].
    + destruct h as [q cs|n k p]; [reflexivity|elim A; apply WW; eauto].
    + destruct h as [q cs|n k p]; [reflexivity|elim A; apply WW; eauto].
    + elim (NO fd). reflexivity.
    + destruct h as [q cs|n k p]; [reflexivity|elim A; apply WW; eauto].
    + elim A. exact I.
Qed.

(** ** what the waiter's own calls do *)
Theorem own y evs c x v y' n : breach honest y evs -> bstep honest y (BRet c x v) y' -> queued y c = Some n -> x <> BcClose -> queued y' c = Some (after x v n)
  /\ match x with BcReady => v = 0 | BcWait => v = 0 /\ 0 < n | BcOther _ => v = -3 | BcWake => False | _ => v = 0 \/ v = -1 end.
Proof.
  intros R S Q Nx. destruct (breach_BY _ _ R) as [home B]. inversion S as [|e c1 h x1 s o r H0 HC E| | |]; subst.
  apply queued_Wt in Q. destruct Q as (i & k & HW & ->). pose proof (Wt_lt _ _ _ _ _ B HW) as Lk. destruct HW as [p HW]. pose proof HW as HW0. rewrite HC in HW. injection HW as ->.
  destruct (own_call e _ x _ _ _ _ i k p eq_refl Lk (ki_pend _ (by_k _ _ B) k) E) as [A1 A2]. split.
  - apply queued_Wt. exists i, k. split; [|symmetry; apply (A2 Nx)]. unfold Wt. rewrite bcli_call by congruence. rewrite Nat.eqb_refl. change (bc_h (bcli y c <| bc_h := o |>)) with o.
    destruct o as [h'|].
    + destruct (proj2 (call_ok home y e c _ B H0 HC x) _ _ E) as ((_ & _ & K) & _). cbn [fst keeps_id] in K. destruct h' as [q cs|n' k' p']; [destruct K as [(q0 & cs0 & Q) _]; discriminate|]. destruct K as [p0 Q]. injection Q as -> -> _. exists p'. reflexivity.
    + destruct (call_none _ _ _ _ _ _ E) as (-> & _). elim Nx. reflexivity.
  - destruct x; cbn [result] in A1; auto. destruct (e_force e); subst v; cbn; auto.
Qed.
Theorem new_quiet y evs c y' : breach honest y evs -> bstep honest y (BOpened c true true) y' -> queued y' c = Some 0.
Proof.
  intros R S. destruct (breach_BY _ _ R) as [home B]. inversion S as [e wait pid s o H0 Hp E Q1| | | |]; subst. destruct o as [h|]; [|discriminate].
  destruct (proj2 (open_ok home y e true pid B H0) _ _ E) as (_ & _ & HH).
  assert (WH : exists n k p, h = Wait n k p).
  { destruct h as [q cs|n k p]; [|eauto]. cbn [open_p] in E. pose proof (proj2 (ok_open_wait e home true _ pid (e_name e) (proj1 (by_home _ _ B)) (proj1 (proj2 (by_home _ _ B))) (sk_new_name _ _ (proj2 H0)) (y_s y) (conj (proj2 (proj2 (by_home _ _ B))) eq_refl)) _ _ E) as [_ Q].
    destruct (Q _ eq_refl) as (n & sid & Q2 & _). discriminate. }
  destruct WH as (n & k & p & ->). destruct (HH _ eq_refl) as (n' & A1 & A2 & A3 & A4 & A5 & A6). injection A1 as -> -> ->.
  unfold queued. rewrite bcli_open, Nat.eqb_refl. cbn [bc_h y_s]. rewrite A6, sk_app_last. reflexivity.
Qed.

(** ** room for 64 *)
Lemma waiters_in y c : In c (waiters y) <-> exists n k, Wt y c n k.
Proof.
  unfold waiters. rewrite filter_In, in_seq. rewrite <- waiting_Wt. unfold waiting. split.
  - intros [_ H]. destruct (queued y c); discriminate.
  - intros H. split; [|destruct (queued y c); [reflexivity|elim H; reflexivity]]. split; [lia|]. destruct (Nat.lt_ge_cases c (length (y_cl y))) as [L|L]; [exact L|].
    elim H. unfold queued, bcli. rewrite nth_overflow by exact L. reflexivity.
Qed.
Lemma waiters_max home y : BY home y -> (length (waiters y) <= BW_WAITMAX)%nat.
Proof.
  intros B. assert (H : forall c, In c (waiters y) -> exists n, exists k, Wt y c n k) by (intros c; apply waiters_in).
  destruct (pick (fun c n => exists k, Wt y c n k) (waiters y) H) as (l' & LL & F2).
  assert (ND' : NoDup l').
  { refine (forall2_nodup _ _ _ _ _ F2); [intros c c' n [s H1] [s' H2]; apply (same_slot _ _ _ _ _ _ _ B H1 H2)|apply NoDup_filter, seq_NoDup]. }
  assert (IN : incl l' (seq 0 BW_WAITMAX)).
  { intros n Hn. destruct (forall2_in _ _ _ _ F2 Hn) as (c & _ & s & Q). destruct (by_wt _ _ B _ _ _ Q) as ((LT & _) & _). apply in_seq. lia. }
  pose proof (NoDup_incl_length ND' IN) as Q. rewrite LL, seq_length in Q. exact Q.
Qed.
Lemma taken home y n s k : BY home y -> (s < length (b_ks (y_s y)))%nat -> k_open (sk (b_ks (y_s y)) s) = true ->
  ws_pid (nth n (h_wr (b_h (y_s y))) ws_free) <> 0 -> k_name (sk (b_ks (y_s y)) s) = ws_name (nth n (h_wr (b_h (y_s y))) ws_free) -> k = s -> exists c, Wt y c n k.
Proof.
  intros B L O NZ E ->. destruct (by_open _ _ B _ O) as (c & n' & HW). destruct (by_wt _ _ B _ _ _ HW) as ((A1 & A2 & A3 & A4) & _). exists c.
  destruct (by_home _ _ B) as (U & _ & HS). assert (H1 : home (k_name (sk (b_ks (y_s y)) s)) true n') by (specialize (HS n'); rewrite A4 in HS; apply HS, A3).
  assert (H2 : home (k_name (sk (b_ks (y_s y)) s)) true n) by (rewrite E; apply HS, NZ). destruct (U _ _ _ _ _ H1 H2) as [_ ->]. exact HW.
Qed.
Lemma room home y e : BY home y -> honest y e -> (length (waiters y) < BW_WAITMAX)%nat -> find_free (h_wr (prune_handle e (b_h (y_s y)))) 0 <> None.
Proof.
  intros B [[_ HP] _] LT F. unfold prune_handle in F. destruct (prune_slots e (h_wr (b_h (y_s y)))) as [wr' k] eqn:E. cbn [h_wr] in F. destruct (prune_slots_spec _ _ _ _ E) as (LN & _ & _ & A). rewrite (by_len _ _ B) in LN.
  assert (ALL : forall n, In n (seq 0 BW_WAITMAX) -> exists c, exists s, Wt y c n s).
  { intros n Hn. apply in_seq in Hn. pose proof (find_free_none _ _ F n ltac:(lia)) as NZ. destruct (A n) as [[Q1 Q2]|[Q1 Q2]]; [|contradiction]. rewrite Q1 in NZ. destruct Q2 as [Q2|Q2]; [contradiction|].
    destruct (existsb (fun k => k_open k && (k_pid k =? ws_pid (nth n (h_wr (b_h (y_s y))) ws_free)) && (k_name k =? ws_name (nth n (h_wr (b_h (y_s y))) ws_free))) (b_ks (y_s y))) eqn:EX.
    - apply existsb_exists in EX. destruct EX as (x & Hi & Hx). apply andb_prop in Hx. destruct Hx as [Hx X3]. apply andb_prop in Hx. destruct Hx as [X1 X2]. apply Z.eqb_eq in X2, X3.
      apply (In_nth _ _ sock_dead) in Hi. destruct Hi as (s & Ls & Es). fold (sk (b_ks (y_s y)) s) in Es. subst x.
      destruct (taken home y n s s B Ls X1 NZ X3 eq_refl) as [c Hc]. exists c, s. exact Hc.
    - elim Q2. apply HP. intros (x & Hi & X1 & X2 & X3). assert (T : existsb (fun k => k_open k && (k_pid k =? ws_pid (nth n (h_wr (b_h (y_s y))) ws_free)) && (k_name k =? ws_name (nth n (h_wr (b_h (y_s y))) ws_free))) (b_ks (y_s y)) = true); [|congruence].
      apply existsb_exists. exists x. split; [exact Hi|]. rewrite X1, X2, X3, !Z.eqb_refl. reflexivity. }
  destruct (pick (fun n c => exists s, Wt y c n s) _ ALL) as (l' & LL & F2).
  assert (ND : NoDup l').
  { refine (forall2_nodup _ _ _ _ (seq_NoDup BW_WAITMAX 0) F2). intros n n' c [s H] [s' H']. apply (Wt_fun _ _ _ _ _ _ H H'). }
  assert (IN : incl l' (waiters y)).
  { intros c Hc. destruct (forall2_in _ _ _ _ F2 Hc) as (n & _ & s & H). apply waiters_in. eauto. }
  pose proof (NoDup_incl_length ND IN) as Q. rewrite LL, seq_length in Q. lia.
Qed.
Theorem opens y evs e pid : breach honest y evs -> working y e -> 0 < pid ->
  exists s o, exec_all (open_p e true pid) (y_s y) = Ok (s, o) /\ (o <> None <-> (length (waiters y) < BW_WAITMAX)%nat)
    /\ bstep honest y (BOpened (length (y_cl y)) true (if o then true else false)) (mkbsys s (y_cl y ++ [mkbcl pid o])).
Proof.
  intros R WK Hp. destruct (breach_BY _ _ R) as [home B]. pose proof (good_honest' _ _ WK) as H0. destruct WK as (G & NN & A1 & A2 & A3).
  pose proof (exec_open_wait e (b_ks (y_s y)) (b_h (y_s y)) pid (e_name e) (by_len _ _ B)) as X. rewrite mkbk_id in X.
  destruct (bw_open_wait e (b_ks (y_s y)) (b_h (y_s y)) pid (e_name e)) as [[ks' h'] o] eqn:EO. exists (mkbk h' ks'), o.
  assert (S : bstep honest y (BOpened (length (y_cl y)) true (if o then true else false)) (mkbsys (mkbk h' ks') (y_cl y ++ [mkbcl pid o]))) by (apply (bs_open honest y e true pid); assumption).
  split; [exact X|]. split; [|exact S]. split.
  - intros No. destruct o as [h|]; [|elim No; reflexivity]. destruct (bstep_BY _ _ _ _ B S) as [home' B']. pose proof (waiters_max _ _ B') as LE.
    assert (Q : length (waiters (mkbsys (mkbk h' ks') (y_cl y ++ [mkbcl pid (Some h)]))) = (1 + length (waiters y))%nat); [|rewrite Q in LE; exact LE].
    assert (WN : forall c, In c (waiters (mkbsys (mkbk h' ks') (y_cl y ++ [mkbcl pid (Some h)]))) <-> In c (waiters y ++ [length (y_cl y)])).
    { intros c. rewrite in_app_iff, !waiters_in. split.
      - intros (n & k & HW). destruct (step_new _ _ _ _ _ _ _ B S HW) as [HW0|[Q _]]; [left; eauto|right; injection Q as <-; left; reflexivity].
      - intros [(n & k & HW)|[<-|[]]]; [exists n, k; apply (step_stays _ _ _ _ _ _ _ B S HW); intros T; exact T|].
        pose proof (new_quiet _ _ _ _ R S) as NQ. apply queued_Wt in NQ. destruct NQ as (i & k & HW & _). eauto. }
    assert (N1 : NoDup (waiters y ++ [length (y_cl y)])).
    { assert (NI : ~ In (length (y_cl y)) (waiters y)) by (unfold waiters; rewrite filter_In, in_seq; lia).
      apply (Permutation_NoDup (l := length (y_cl y) :: waiters y)); [apply Permutation_cons_append|]. constructor; [exact NI|apply NoDup_filter, seq_NoDup]. }
    assert (N2 : NoDup (waiters (mkbsys (mkbk h' ks') (y_cl y ++ [mkbcl pid (Some h)])))) by (apply NoDup_filter, seq_NoDup).
    pose proof (Permutation_length (NoDup_Permutation N2 N1 WN)) as Q. rewrite app_length in Q. rewrite Q. cbn [length]. lia.
  - intros LT ->. destruct (open_wait_ok e (b_ks (y_s y)) (b_h (y_s y)) pid (e_name e) A1 A2 A3 NN (room home y e B H0 LT)) as (k1 & h1 & n1 & Q). rewrite Q in EO. discriminate.
Qed.
Theorem max_64 y evs : breach honest y evs -> (length (waiters y) <= BW_WAITMAX)%nat.
Proof. intros R. destruct (breach_BY _ _ R) as [home B]. apply (waiters_max _ _ B). Qed.
