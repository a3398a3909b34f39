(** * What the calls of the library do to the wake-ups queued (proofs about BwApi.v) *)
From Verif Require Import BaseFacts MicroFacts KillExec KillFacts BwInv KillBw KillBwInv KillBwStep KillOcc FineAdv FineOnce FineStep FineHome.
From Verif Require Export BwApiStep.

Theorem breach_BY y evs : breach honest y evs -> exists home, BY home y.
Proof. induction 1 as [|y evs v y' _ [home B] S]; [apply BY_start|]. apply (bstep_BY home y v y' B S). Qed.

Definition pend (s : bks) (k : nat) : Z := k_pend (sk (b_ks s) k).
Lemma queued_Wt y c n : queued y c = Some n <-> exists i k, Wt y c i k /\ n = pend (y_s y) k.
Proof.
  unfold queued, Wt. destruct (bc_h (bcli y c)) as [[q cs|i k p]|]; split; try discriminate; try (intros (i' & k' & (p' & H) & _); discriminate H).
  - intros [= <-]. exists i, k. split; [exists p; reflexivity|reflexivity].
  - intros (i' & k' & (p' & H) & ->). injection H as <- <- <-. reflexivity.
Qed.
Lemma waiting_Wt y c : waiting y c <-> exists i k, Wt y c i k.
Proof.
  unfold waiting. split.
  - destruct (queued y c) as [n|] eqn:E; [|intros N; elim N; reflexivity]. intros _. apply queued_Wt in E. destruct E as (i & k & H & _). eauto.
  - intros (i & k & H) E. assert (queued y c = Some (pend (y_s y) k)) by (apply queued_Wt; eauto). congruence.
Qed.
Lemma readable_Wt y c : readable y c <-> exists i k, Wt y c i k /\ 0 < pend (y_s y) k.
Proof.
  unfold readable. split.
  - intros (n & E & L). apply queued_Wt in E. destruct E as (i & k & H & ->). eauto.
  - intros (i & k & H & L). exists (pend (y_s y) k). split; [apply queued_Wt; eauto|exact L].
Qed.

(** ** calls other than bw_wake touch the caller's socket only *)
Definition mine (h : bwt) (j : nat) : Prop := match h with Wait _ k _ => j = k | Wake _ _ => False end.
Definition RM (h : bwt) (s s' : bks) : Prop := forall j, ~ mine h j -> sk (b_ks s') j = sk (b_ks s) j.
Lemma RM_refl h s : RM h s s. Proof. intros j _. reflexivity. Qed.
Lemma RM_trans h a b c : RM h a b -> RM h b c -> RM h a c. Proof. intros H1 H2 j N. rewrite H2, H1 by exact N. reflexivity. Qed.
Lemma RM_ks h s s' : b_ks s' = b_ks s -> RM h s s'. Proof. intros E j _. rewrite E. reflexivity. Qed.
Lemma RM_upd n k p s f : RM (Wait n k p) s (s <| b_ks := sk_upd (b_ks s) k f |>).
Proof. intros j N. cbn. apply sk_upd_other. exact N. Qed.
Ltac ast := apply ea_at; let E := fresh "E" in intros ? ? ? E; cbv zeta in E.
Lemma rm_call e h x : x <> BcWake -> each (RM h) (call_p e h x).
Proof.
  intros Nx. assert (RR : forall (A B : Type) (p : prog bks A) (f : A -> B), each (RM h) p -> each (RM h) (run! r <- p; Ret (f r))).
  { intros A B p f H. apply each_bind; [exact H|]. intros r. apply ea_ret. }
  assert (RD : each (RM h) (bw_ready_p h)).
  { destruct h as [q cs|n k p]; cbn [bw_ready_p]; ast; [discriminate|]. apply ok_pair in E. destruct E as [<- <-]. split; [|apply ea_ret]. unfold bw_recv. apply RM_upd. }
  destruct x; cbn [call_p]; [contradiction|apply RR|apply RR|apply RR|apply RR| |apply (RR _ _ _ (fun _ => (None, 0)))].
  - destruct h as [q cs|n k p]; cbn [bw_force_p]; [ast; discriminate|]. destruct (e_force e); cbn [negb]; [|apply ea_ret]. ast. apply ok_pair in E. destruct E as [<- <-]. split; [|apply ea_ret].
    destruct (_ && _); [apply RM_upd|]. destruct (_ && _); [apply RM_upd|apply RM_refl].
  - exact RD.
  - destruct h as [q cs|n k p]; cbn [bw_wait_p]; ast; [discriminate|]. destruct (_ >? _); [|discriminate]. apply ok_pair in E. destruct E as [<- <-]. split; [apply RM_refl|exact RD].
  - destruct h as [q cs|n k p]; cbn [bw_other_p]; ast; [discriminate|]. destruct (existsb _ _); [|discriminate]. apply ok_pair in E. destruct E as [<- <-]. split; [apply RM_refl|apply ea_ret].
  - destruct (bw_ctl h fd) as [[h' b]| | |]; [apply ea_ret| | |]; ast; discriminate.
  - destruct h as [q cs|n k p]; cbn [bw_close_p]; [apply ea_ret|]. ast. apply ok_pair in E. destruct E as [<- <-]. split; [apply RM_upd|].
    ast. apply ok_pair in E. destruct E as [<- <-]. split; [apply RM_ks; reflexivity|]. ast. apply ok_pair in E. destruct E as [<- <-]. split; [apply RM_ks; reflexivity|apply ea_ret].
Qed.

(** ** bw_wake sends at most one datagram to a socket *)
Section Once.
Variables (e : env) (home : Z -> bool -> nat -> Prop) (ks0 : socks).
Hypothesis U : unique home.
Definition Bd (s : bks) : Prop := forall k, k_pend (sk ks0 k) <= pend s k <= k_pend (sk ks0 k) + 1.
Definition Fresh (n : nat) (s : bks) : Prop := Bd s /\ kx ks0 (b_ks s) /\ length (b_ks s) = length ks0 /\ forall k i, (k < length ks0)%nat -> (n <= i)%nat -> home (k_name (sk ks0 k)) true i -> pend s k = k_pend (sk ks0 k).
Lemma Fresh_S n s : Fresh n s -> Fresh (S n) s.
Proof. intros (A & B & C & D). split; [exact A|]. split; [exact B|]. split; [exact C|]. intros k i L Li. apply D; [exact L|lia]. Qed.
Lemma wake_once_p : forall m n cs s, Fresh n s -> hconns home true (b_ks s) cs -> ok (wake_p e m n cs) s Bd (fun _ => Bd).
Proof.
  induction m as [|m IH]; intros n cs s F C; cbn [wake_p]; [apply ok_ret, F|]. apply ok_at; [apply F|]. intros s' p' E.
  destruct (cn_fd (nth n cs conn0)) as [k|] eqn:Ek; [|apply ok_pair in E; destruct E as [<- <-]; apply IH; [apply Fresh_S, F|exact C]].
  destruct (C n k Ek) as [Lk Hk]. destruct F as (FB & FK & FL & FN). rewrite FL in Lk. rewrite (proj2 FK) in Hk by exact Lk.
  destruct (_ && _); apply ok_pair in E; destruct E as [<- <-].
  - destruct (_ <? _); [|apply IH; [apply Fresh_S; split; auto|exact C]]. apply IH; [|cbn; eapply hconns_kx; [apply kx_upd; reflexivity|exact C]].
    assert (P : forall j, pend (s <| b_ks := sk_upd (b_ks s) k (fun x => x <| k_pend := k_pend x + 1 |>) |>) j = pend s j + (if (j =? k)%nat then 1 else 0)).
    { intros j. unfold pend. cbn [b_ks set]. change (b_ks (s <| b_ks := ?x |>)) with x. cbn. destruct (Nat.eqb_spec j k) as [->|Nj]; [rewrite sk_upd_same by lia; reflexivity|rewrite sk_upd_other by exact Nj; lia]. }
    assert (P0 : pend s k = k_pend (sk ks0 k)) by (apply (FN k n Lk (Nat.le_refl n) Hk)).
    split; [|split; [|split]].
    + intros j. rewrite P. specialize (FB j). destruct (Nat.eqb_spec j k) as [->|Nj]; lia.
    + eapply kx_trans; [exact FK|]. cbn. apply kx_upd. reflexivity.
    + cbn. rewrite sk_upd_len. exact FL.
    + intros j i Lj Li Hj. rewrite P. destruct (Nat.eqb_spec j k) as [->|Nj]; [|rewrite (FN j i Lj ltac:(lia) Hj); lia].
      destruct (U _ _ _ _ _ Hj Hk) as [_ ->]. lia.
  - apply ok_at; [exact FB|]. intros s2 p2 E. apply ok_pair in E; destruct E as [<- <-]. apply ok_at; [exact FB|]. intros s2 p2 E. apply ok_pair in E; destruct E as [<- <-].
    apply IH; [apply Fresh_S; split; [exact FB|split; [exact FK|split; [exact FL|exact FN]]]|]. apply hconns_set; [exact C|]. intros k' Ek'. discriminate Ek'.
Qed.
End Once.
Lemma ks_sync e q cs s : ok (bw_sync_p e q cs) s (fun t => b_ks t = b_ks s) (fun _ t => b_ks t = b_ks s).
Proof.
  apply (ok_each (fun a b => b_ks b = b_ks a)); [reflexivity|intros a b c H1 H2; congruence|].
  assert (SY : forall m n cs, each (fun a b => b_ks b = b_ks a) (sync_p e m n cs)).
  { induction m as [|m IH]; intros n cs'; cbn [sync_p]; [apply ea_ret|]. ast.
    repeat match type of E with
    | (if ?b then _ else _) = Ok _ => destruct b
    | (match ?x with _ => _ end) = Ok _ => destruct x
    end; apply ok_pair in E; destruct E as [<- <-]; (split; [reflexivity|]); try (apply IH); try (apply ea_ret);
    (ast; apply ok_pair in E; destruct E as [<- <-]; split; [reflexivity|]; ast; apply ok_pair in E; destruct E as [<- <-]; split; [reflexivity|apply IH]). }
  unfold bw_sync_p. ast. destruct (_ =? _); apply ok_pair in E; destruct E as [<- <-]; (split; [reflexivity|]); [apply ea_ret|].
  apply each_bind; [apply SY|]. intros x. destruct (snd x); [|apply ea_ret]. ast. apply ok_pair in E; destruct E as [<- <-]. split; [reflexivity|apply ea_ret].
Qed.
Lemma wake_once e home y c q cs : BY home y -> Wk y c q cs -> ok (bw_wake_p e (Wake q cs)) (y_s y) (Bd (b_ks (y_s y))) (fun r s => Bd (b_ks (y_s y)) s /\ (snd r = false -> b_ks s = b_ks (y_s y))).
Proof.
  intros B HK. destruct (by_wk _ _ B _ _ _ HK) as [_ HN]. destruct (by_home _ _ B) as (U & _ & HS).
  assert (B0 : forall s, b_ks s = b_ks (y_s y) -> Bd (b_ks (y_s y)) s) by (intros s E k; unfold pend; rewrite E; lia).
  cbn [bw_wake_p]. eapply ok_bind.
  - eapply ok_weak; [| |apply (ok_and _ _ _ _ _ _ (ks_sync e q cs (y_s y)) (ok_sync e home true (b_ks (y_s y)) q cs (y_s y) (conj HS eq_refl) HN))]; [intros s [X _]; apply B0, X|intros r s X; exact X].
  - intros [[q' cs'] k] s [E1 [_ C]]. cbn [fst snd] in *. destruct k; [|apply ok_ret; split; [apply B0, E1|intros _; exact E1]].
    eapply ok_bind; [apply (wake_once_p e home (b_ks (y_s y)) U); [|rewrite E1; exact C]|].
    + split; [apply B0, E1|]. rewrite E1. split; [apply kx_refl|]. split; [reflexivity|]. intros k i _ _ _. unfold pend. rewrite E1. reflexivity.
    + intros cs2 s2 H. apply ok_ret. split; [exact H|discriminate].
Qed.

(** ** the calls of a waiter on its own socket *)
Lemma pend_upd s k f : (k < length (b_ks s))%nat -> pend (s <| b_ks := sk_upd (b_ks s) k f |>) k = k_pend (f (sk (b_ks s) k)).
Proof. intros L. unfold pend. cbn [b_ks set]. change (b_ks (s <| b_ks := ?x |>)) with x. cbn. rewrite sk_upd_same by exact L. reflexivity. Qed.
Definition after (x : bcall) (v n : Z) : Z :=
  match x with
  | BcForce want => if v =? 0 then if want then Z.max n 1 else 0 else n
  | BcReady | BcWait => Z.max 0 (n - 1)
  | _ => n
  end.
Definition result (e : env) (x : bcall) (v n : Z) : Prop :=
  match x with
  | BcForce want => v = code (e_force e)
  | BcReady => v = 0
  | BcWait => v = 0 /\ 0 < n
  | BcOther _ => v = -3
  | BcCtl _ => v = 0 \/ v = -1
  | BcClose => v = 0
  | BcWake => False
  end.
Lemma own_call e h x s s' o v n k p : h = Wait n k p -> (k < length (b_ks s))%nat -> 0 <= pend s k -> exec_all (call_p e h x) s = Ok (s', (o, v)) ->
  result e x v (pend s k) /\ (x <> BcClose -> pend s' k = after x v (pend s k)).
Proof.
  intros -> L P E. destruct x; cbn [call_p] in E.
  - discriminate E.
  - apply exec_run in E. destruct E as (r & E & Q). injection Q as -> ->. cbn [bw_force_p] in E. cbn [after result]. destruct (e_force e); cbn [negb] in E.
    + cbn [exec_all] in E. apply ok_pair in E. destruct E as [<- <-]. split; [reflexivity|]. intros _. cbn [code]. cbn [Z.eqb].
      fold (pend s k). destruct want; cbn [negb andb].
      * destruct (Z.gtb_spec (pend s k) 0); cbn [negb]; [lia|]. rewrite pend_upd by exact L. cbn. fold (pend s k). lia.
      * destruct (Z.gtb_spec (pend s k) 0); cbn [negb]; [rewrite pend_upd by exact L; reflexivity|lia].
    + apply ok_pair in E. destruct E as [<- <-]. split; [reflexivity|]. intros _. cbn. lia.
  - apply exec_run in E. destruct E as (r & E & Q). injection Q as -> ->. cbn in E. apply ok_pair in E. destruct E as [<- <-]. split; [reflexivity|]. intros _. unfold bw_recv. rewrite pend_upd by exact L. cbn. fold (pend s k). lia.
  - apply exec_run in E. destruct E as (r & E & Q). injection Q as -> ->. cbn [bw_wait_p exec_all] in E. fold (pend s k) in E. destruct (Z.gtb_spec (pend s k) 0) as [G|G]; [|discriminate].
    cbn in E. apply ok_pair in E. destruct E as [<- <-]. split; [split; [reflexivity|lia]|]. intros _. unfold bw_recv. rewrite pend_upd by exact L. cbn. fold (pend s k). lia.
  - apply exec_run in E. destruct E as (r & E & Q). injection Q as -> ->. cbn [bw_other_p exec_all] in E. destruct (existsb _ _); [|discriminate]. apply ok_pair in E. destruct E as [<- <-]. split; reflexivity.
  - cbn [bw_ctl] in E. destruct (existsb _ _); cbn [exec_all] in E; apply ok_pair in E; destruct E as [<- E]; injection E as <- <-; (split; [cbn; auto|reflexivity]).
  - apply (exec_run _ (fun _ => (None, 0))) in E. destruct E as (r & E & Q). injection Q as -> ->. split; [reflexivity|]. intros N. elim N. reflexivity.
Qed.

(** ** one step *)
Lemma sent_mono c v : forall n m, 0 <= n <= m -> 0 <= sent c n v <= sent c m v.
Proof.
  intros n m H. unfold sent. destruct v as [c' wait ok|c' x r|pid [[c' x]|]]; try lia.
  - destruct (c' =? c)%nat; lia.
  - destruct x as [|[]| | | | |]; try lia; try (destruct (c' =? c)%nat; lia); destruct r; try lia; destruct (c' =? c)%nat; lia.
  - destruct x; lia.
Qed.
Lemma pend_shut pid ks k : k_pend (sk (shut_pid pid ks) k) = k_pend (sk ks k).
Proof. rewrite sk_shut. destruct (_ =? _); reflexivity. Qed.
Lemma wake_Wake e h x s s' o v : exec_all (call_p e h x) s = Ok (s', (o, v)) -> x = BcWake -> exists q cs, h = Wake q cs.
Proof. intros E ->. destruct h; [eauto|discriminate]. Qed.
Lemma mine_other home y c h j c' n' : BY home y -> bc_h (bcli y c) = Some h -> Wt y c' n' j -> c' <> c -> ~ mine h j.
Proof.
  intros B HC HW N M. destruct h as [q cs|n k p]; [exact M|]. cbn in M. subst k. apply N. apply (by_own _ _ B c' n' j c n HW). exists p. exact HC.
Qed.
Lemma pid_Wt y c c' : bc_pid (bcli y c') <> bc_pid (bcli y c) -> c' <> c. Proof. intros H ->. apply H. reflexivity. Qed.
Theorem step_pend home y v y' c n k : BY home y -> bstep honest y v y' -> Wt y c n k -> Wt y' c n k ->
  (~ takes y c v -> pend (y_s y) k <= pend (y_s y') k) /\ pend (y_s y') k <= sent c (pend (y_s y) k) v.
Proof.
  intros B S HW HW'. pose proof (Wt_lt _ _ _ _ _ B HW) as Lk. pose proof (ki_pend _ (by_k _ _ B) k) as P0. fold (pend (y_s y) k) in P0.
  destruct S as [e wait pid s o H0 Hp E|e c1 h x s o r H0 HC E|pid|e c1 h x line s H0 HC D|e wait pid line s H0 Hp D].
  - destruct (proj2 (open_ok home y e wait pid B H0) _ _ E) as ((_ & _ & l & L1 & _) & _). unfold pend. cbn [y_s]. rewrite L1, sk_app1 by exact Lk.
    split; [lia|]. cbn [sent]. destruct (Nat.eqb_spec (length (y_cl y)) c) as [<-|_]; [|lia]. destruct HW as [p HW]. rewrite bcli_none in HW. discriminate.
  - cbn [y_s]. destruct (Nat.eq_dec c c1) as [<-|Nc].
    + destruct HW as [p HW]. rewrite HC in HW. injection HW as ->. destruct (own_call e _ x _ _ _ _ n k p eq_refl Lk P0 E) as [R A].
      assert (Nx : x <> BcClose).
      { intros ->. destruct HW' as [p' HW']. rewrite bcli_call in HW' by congruence. rewrite Nat.eqb_refl in HW'. cbn [call_p] in E. apply (exec_run _ (fun _ => (None, 0))) in E. destruct E as (u & _ & E). injection E as -> _. discriminate. }
      rewrite (A Nx). destruct x as [|want| | | | |]; cbn [after result takes sent] in *; rewrite ?Nat.eqb_refl.
      * elim R.
      * subst r. destruct (e_force e), want; cbn [code Z.eqb]; (split; [intros T|]); try lia; elim T; reflexivity.
      * split; [intros T; elim T; reflexivity|lia].
      * split; [intros T; elim T; reflexivity|lia].
      * lia.
      * lia.
      * elim Nx. reflexivity.
    + assert (Nk : (c1 =? c)%nat = false) by (apply Nat.eqb_neq; congruence).
      assert (D : x = BcWake \/ x <> BcWake) by (destruct x; [left; reflexivity|right; discriminate..]). destruct D as [->|Nx].
      * destruct (wake_Wake _ _ _ _ _ _ _ E eq_refl) as (q & cs & ->). cbn [call_p] in E. apply exec_run in E. destruct E as ([h' b] & E & Q). injection Q as -> ->. cbn [fst snd] in *.
        destruct (proj2 (wake_once e home y c1 q cs B HC) _ _ E) as [A1 A2]. cbn [snd] in A2. pose proof (A1 k) as A3. fold (pend (y_s y) k) in A3. split; [lia|].
        destruct b; cbn [code sent]; [lia|]. specialize (A2 eq_refl). unfold pend. rewrite A2. lia.
      * pose proof (each_exec (RM h) (RM_refl h) (RM_trans h) _ (rm_call e h x Nx) _ _ _ E k (mine_other home y c1 h k c n B HC HW Nc)) as Q. unfold pend. rewrite Q. split; [lia|].
        destruct x as [|[]| | | | |]; cbn [sent]; rewrite ?Nk; try lia; try contradiction; destruct r; lia.
  - unfold pend. cbn [ended y_s b_ks set]. change (b_ks (y_s y <| b_ks := ?x |>)) with x. cbn. rewrite pend_shut. lia.
  - apply Wt_end in HW'. destruct HW' as [_ Np]. pose proof (pid_Wt _ _ _ Np) as Nc. 
    assert (PE : pend (y_s (ended (bc_pid (bcli y c1)) y s)) k = pend s k) by apply pend_shut. rewrite PE.
    assert (DX : x = BcWake \/ x <> BcWake) by (destruct x; [left; reflexivity|right; discriminate..]). destruct DX as [->|Nx].
    + cbn [sent]. destruct h as [q cs|n1 k1 p1].
      * cbn [call_p] in D. apply dies_bind in D. destruct D as [D|(s1 & x1 & E1 & D)]; [|elim (dies_ret _ _ _ _ D)].
        pose proof (proj1 (wake_once e home y c1 q cs B HC) _ _ D k) as A. fold (pend (y_s y) k) in A. lia.
      * cbn in D. apply dies_at_inv in D. destruct D as [[-> ->]|(s1 & p2 & E1 & _)]; [lia|discriminate].
    + pose proof (proj1 (ok_each (RM h) _ (y_s y) (RM_refl h) (RM_trans h) (rm_call e h x Nx)) _ _ D k (mine_other home y c1 h k c n B HC HW Nc)) as Q. unfold pend. rewrite Q.
      split; [lia|]. cbn [sent]. destruct x; first [lia|contradiction].
  - destruct (proj1 (open_ok home y e wait pid B H0) _ _ D) as (_ & _ & l & L1 & _).
    assert (PE : pend (y_s (ended pid y s)) k = pend s k) by apply pend_shut. rewrite PE. unfold pend. rewrite L1, sk_app1 by exact Lk. cbn [sent]. lia.
Qed.
(** a handle open in wait mode before is so after, unless closed or its process ended; one that was not is new *)
Lemma step_stays home y v y' c n k : BY home y -> bstep honest y v y' -> Wt y c n k -> ~ takes y c v -> Wt y' c n k.
Proof.
  intros B S HW T. destruct S as [e wait pid s o H0 Hp E|e c1 h x s o r H0 HC E|pid|e c1 h x line s H0 HC D|e wait pid line s H0 Hp D].
  - destruct HW as [p HW]. exists p. rewrite bcli_open. destruct (Nat.eqb_spec c (length (y_cl y))) as [->|_]; [rewrite bcli_none in HW; discriminate|exact HW].
  - destruct HW as [p HW]. unfold Wt. rewrite bcli_call by congruence. destruct (Nat.eqb_spec c c1) as [->|_]; [|exists p; exact HW].
    rewrite HC in HW. injection HW as ->. change (bc_h (bcli y c1 <| bc_h := o |>)) with o. destruct o as [h'|].
    + destruct (proj2 (call_ok home y e c1 _ B H0 HC x) _ _ E) as ((_ & _ & K) & _). cbn [fst keeps_id] in K. destruct h' as [q cs|n' k' p']; [destruct K as [(q0 & cs0 & Q) _]; discriminate|]. destruct K as [p0 Q]. injection Q as -> -> _. exists p'. reflexivity.
    + destruct (call_none _ _ _ _ _ _ E) as (-> & _). elim T. reflexivity.
  - apply Wt_end. split; [exact HW|exact T].
  - apply Wt_end. split; [exact HW|exact T].
  - apply Wt_end. split; [exact HW|exact T].
Qed.
Lemma step_new home y v y' c n k : BY home y -> bstep honest y v y' -> Wt y' c n k -> Wt y c n k \/ v = BOpened c true true /\ pend (y_s y') k = 0.
Proof.
  intros B S HW. destruct S as [e wait pid s o H0 Hp E|e c1 h x s o r H0 HC E|pid|e c1 h x line s H0 HC D|e wait pid line s H0 Hp D].
  - destruct HW as [p HW]. rewrite bcli_open in HW. destruct (Nat.eqb_spec c (length (y_cl y))) as [->|_]; [right|left; exists p; exact HW].
    cbn [bc_h] in HW. subst o. destruct (proj2 (open_ok home y e wait pid B H0) _ _ E) as (_ & _ & HH). cbn beta iota in HH. destruct (HH _ eq_refl) as (n' & A1 & A2 & A3 & A4 & A5 & A6). injection A1 as -> -> ->.
    split; [|unfold pend; cbn [y_s]; rewrite A6, sk_app_last; reflexivity].
    destruct wait; [reflexivity|]. cbn [open_p] in E. pose proof (proj2 (ok_open_wake e home true (y_s y) (b_ks (y_s y)) (conj (proj2 (proj2 (by_home _ _ B))) eq_refl)) _ _ E) as [_ Q].
    destruct (Q _ eq_refl) as (_ & q & cs & Q2). discriminate.
  - left. destruct HW as [p HW]. rewrite bcli_call in HW by congruence. destruct (Nat.eqb_spec c c1) as [->|_]; [|exists p; exact HW].
    change (bc_h (bcli y c1 <| bc_h := o |>)) with o in HW. subst o. destruct (proj2 (call_ok home y e c1 _ B H0 HC x) _ _ E) as ((_ & _ & K) & _). cbn [fst keeps_id] in K. destruct K as [p0 ->]. exists p0. exact HC.
  - left. apply Wt_end in HW. apply HW.
  - left. apply Wt_end in HW. apply HW.
  - left. apply Wt_end in HW. apply HW.
Qed.

(** ** the theorems *)
Lemma takes_dec y c v : takes y c v \/ ~ takes y c v.
Proof.
  destruct v as [c' wait ok|c' x r|pid i]; cbn [takes]; [right; tauto| |destruct (Z.eq_dec (bc_pid (bcli y c)) pid); [left|right]; assumption].
  destruct x as [|[]| | | | |]; try (right; tauto); destruct (Nat.eq_dec c' c); [left|right|left|right|left|right|left|right]; assumption.
Qed.
Theorem kept y evs v y' c : breach honest y evs -> bstep honest y v y' -> readable y c -> ~ takes y c v -> readable y' c.
Proof.
  intros R S Hr T. destruct (breach_BY _ _ R) as [home B]. apply readable_Wt in Hr. destruct Hr as (n & k & HW & P). apply readable_Wt. exists n, k.
  pose proof (step_stays _ _ _ _ _ _ _ B S HW T) as HW'. split; [exact HW'|]. destruct (step_pend _ _ _ _ _ _ _ B S HW HW') as [Q _]. specialize (Q T). lia.
Qed.
Theorem no_more y evs c n : breach honest y evs -> queued y c = Some n -> 0 <= n <= credit c evs.
Proof.
  intros R. revert c n. induction R as [|y evs v y' R IH S]; intros c n Q.
  - apply queued_Wt in Q. destruct Q as (i & k & [p H] & _). destruct c; discriminate H.
  - destruct (breach_BY _ _ R) as [home B]. destruct (bstep_BY _ _ _ _ B S) as [home' B']. apply queued_Wt in Q. destruct Q as (i & k & HW & ->).
    split; [apply (ki_pend _ (by_k _ _ B'))|]. unfold credit. rewrite fold_left_app. cbn [fold_left]. fold (credit c evs).
    destruct (step_new _ _ _ _ _ _ _ B S HW) as [HW0|[-> ->]]; [|cbn [sent]; rewrite Nat.eqb_refl; lia].
    destruct (step_pend _ _ _ _ _ _ _ B S HW0 HW) as [_ Q]. assert (0 <= pend (y_s y) k <= credit c evs) as H by (apply IH; apply queued_Wt; eauto).
    pose proof (sent_mono c v _ _ H). lia.
Qed.
Theorem wake_all y evs c y' c' : breach honest y evs -> bstep honest y (BRet c BcWake 0) y' -> waiting y c' -> readable y' c'.
Proof.
  intros R S HW. destruct (breach_BY _ _ R) as [home B]. apply waiting_Wt in HW. destruct HW as (n & k & HW). apply readable_Wt. exists n, k.
  split; [apply (step_stays _ _ _ _ _ _ _ B S HW); cbn; tauto|].
  inversion S as [|e c1 h x s o r H0 HC E| | |]; subst. cbn [y_s].
  destruct (wake_Wake _ _ _ _ _ _ _ E eq_refl) as (q & cs & ->). cbn [call_p] in E. apply exec_run in E. destruct E as ([h' b] & E & Q). injection Q as -> Q. cbn [fst snd] in *. destruct b; [|discriminate].
  destruct (by_wk _ _ B _ _ _ HC) as [WK _].
  destruct (proj2 (ok_safe _ _ _ _ _ (safe_wake e (b_h (y_s y)) (b_ks (y_s y)) (Wy y everyone) (Ky y everyone) (Ky y everyone) (by_len _ _ B) (HW_ok _ _ _ _ B H0) (hs_send _ _ (proj1 H0)) q cs)
    (conj (prot0 home y everyone everyone B) WK)) _ _ E) as (_ & q' & cs' & _ & _ & RG).
  apply (RG eq_refl n); [exists c', k; split; [exact I|exact HW]|]. destruct (by_wt _ _ B _ _ _ HW) as ((_ & _ & _ & A) & _). split; [apply (Wt_lt _ _ _ _ _ B HW)|exact A].
Qed.

