(** * Every socket name has one place: registered in one slot of one handle, and
    connected to by other processes through that slot only. *)
From Verif Require Import BaseFacts MicroFacts KillExec KillFacts BwInv KillBwInv LockFacts WorldFacts.
From Verif Require Export FineBody.

(** from [s], [I] holds before each statement and [Q] at the end *)
Definition ok {S A} (p : prog S A) (s : S) (I : S -> Prop) (Q : A -> S -> Prop) : Prop :=
  (forall l s', dies_at p s l s' -> I s') /\ (forall s' x, exec_all p s = Ok (s', x) -> Q x s').
Lemma ok_ret {S A} (x : A) (s : S) I (Q : A -> S -> Prop) : Q x s -> ok (Ret x) s I Q.
Proof. intros H. split; [intros l s' D; elim (dies_ret _ _ _ _ D)|]. intros s' y E. apply ok_pair in E. destruct E as [<- <-]. exact H. Qed.
Lemma ok_at {S A} l f (s : S) (I : S -> Prop) (Q : A -> S -> Prop) : I s -> (forall s' p', f s = Ok (s', p') -> ok p' s' I Q) -> ok (At l f) s I Q.
Proof.
  intros HI H. split.
  - intros ln s' D. apply dies_at_inv in D. destruct D as [[-> ->]|(s1 & p1 & E & D)]; [exact HI|]. apply (proj1 (H _ _ E) _ _ D).
  - intros s' x E. rewrite MicroFacts.exec_at in E. apply obind_ok in E. destruct E as ([s1 p1] & E & E1). apply (proj2 (H _ _ E) _ _ E1).
Qed.
Lemma ok_bind {S A B} (p : prog S A) (k : A -> prog S B) (s : S) (I : S -> Prop) (R : A -> S -> Prop) (Q : B -> S -> Prop) :
  ok p s I R -> (forall x s', R x s' -> ok (k x) s' I Q) -> ok (bindp p k) s I Q.
Proof.
  intros [H1 H2] K. split.
  - intros l s' D. apply dies_bind in D. destruct D as [D|(s1 & x & E & D)]; [apply (H1 _ _ D)|]. apply (proj1 (K x s1 (H2 _ _ E)) _ _ D).
  - intros s' y E. rewrite exec_bind in E. apply obind_ok in E. destruct E as ([s1 x] & E & E1). apply (proj2 (K x s1 (H2 _ _ E)) _ _ E1).
Qed.
Lemma ok_weak {S A} (p : prog S A) (s : S) (I I' : S -> Prop) (Q Q' : A -> S -> Prop) : (forall s, I s -> I' s) -> (forall x s, Q x s -> Q' x s) ->
  ok p s I Q -> ok p s I' Q'.
Proof. intros H1 H2 [A1 A2]. split; eauto. Qed.

Lemma nth_set_same_any {A} (d : A) : forall l n x, (n < length l)%nat -> nth n (set_nat l n x) d = x.
Proof. induction l as [|y t IH]; intros [|n] x L; cbn in *; try lia; [reflexivity|]. apply IH. lia. Qed.
(** later sockets *)
Definition kx (ks ks' : socks) : Prop := (length ks <= length ks')%nat /\ forall s, (s < length ks)%nat -> k_name (sk ks' s) = k_name (sk ks s).
Lemma kx_refl ks : kx ks ks. Proof. split; [lia|reflexivity]. Qed.
Lemma kx_trans a b c : kx a b -> kx b c -> kx a c.
Proof. intros [A1 A2] [B1 B2]. split; [lia|]. intros s L. rewrite B2 by lia. apply A2, L. Qed.
Lemma kx_upd ks s f : (forall k, k_name (f k) = k_name k) -> kx ks (sk_upd ks s f).
Proof.
  intros H. split; [rewrite sk_upd_len; lia|]. intros s' L. destruct (Nat.eq_dec s' s) as [->|N]; [rewrite sk_upd_same by exact L; apply H|rewrite sk_upd_other by exact N; reflexivity].
Qed.
Lemma kx_app ks x : kx ks (ks ++ [x]).
Proof. split; [rewrite app_length; lia|]. intros s L. rewrite sk_app1 by exact L. reflexivity. Qed.
Lemma kx_pends ks ks' : pends ks ks' -> kx ks ks'.
Proof. intros P. split; [rewrite (pends_len _ _ P); lia|]. intros s _. apply pends_name, P. Qed.
Lemma hconns_kx home b ks ks' cs : kx ks ks' -> hconns home b ks cs -> hconns home b ks' cs.
Proof. intros [K1 K2] H i k E. destruct (H i k E) as [A B]. rewrite K2 by exact A. split; [lia|exact B]. Qed.
Lemma hwake_kx home b ks ks' h : kx ks ks' -> hwake home b h ks -> hwake home b h ks'.
Proof. intros K. destruct h; [apply hconns_kx, K|auto]. Qed.

Section Bw.
Variables (e : env) (home : Z -> bool -> nat -> Prop) (b : bool) (ks0 : socks).
Definition Jb (x : bks) : Prop := hslots home b (b_h x) /\ kx ks0 (b_ks x).
Definition Jk (ks : socks) (x : bks) : Prop := hslots home b (b_h x) /\ b_ks x = ks.
Lemma Jk_free ks x n : Jk ks x -> Jk ks (set_pid x n 0). Proof. intros [H K]. split; [apply hslots_free, H|exact K]. Qed.
Lemma Jk_inc ks x : Jk ks x -> Jk ks (inc_seq x). Proof. intros H. exact H. Qed.
Lemma Jb_free x n : Jb x -> Jb (set_pid x n 0). Proof. intros [H K]. split; [apply hslots_free, H|exact K]. Qed.
Lemma Jb_inc x : Jb x -> Jb (inc_seq x). Proof. intros H. exact H. Qed.
Lemma ok_prune ks m : forall n x, Jk ks x -> ok (prune_p e m n) x (Jk ks) (fun _ => Jk ks).
Proof.
  induction m as [|m IH]; intros n x J; cbn [prune_p]; [apply ok_ret, J|]. apply ok_at; [exact J|]. intros s' p' E.
  destruct (_ || _); apply ok_pair in E; destruct E as [<- <-]; [apply IH, J|]. apply ok_at; [exact J|]. intros s2 p2 E. apply ok_pair in E; destruct E as [<- <-].
  pose proof (Jk_free _ _ n J) as J2. apply ok_at; [exact J2|]. intros s3 p3 E. apply ok_pair in E; destruct E as [<- <-]. apply IH, Jk_inc, J2.
Qed.
Definition Qk ks (cs : list conn) (x : bks) : Prop := Jk ks x /\ hconns home b ks cs.
Lemma ok_sync_p ks m : forall n cs x, Jk ks x -> hconns home b ks cs -> ok (sync_p e m n cs) x (Jk ks) (fun r : list conn * bool => Qk ks (fst r)).
Proof.
  induction m as [|m IH]; intros n cs x J C; cbn [sync_p]; [apply ok_ret; split; assumption|].
  apply ok_at; [exact J|]. intros s' p' E. cbn zeta in E.
  remember (match cn_fd (nth n cs conn0) with Some _ => _ | None => nth n cs conn0 end) as c eqn:Ec.
  assert (Hc : forall k, cn_fd c = Some k -> (k < length ks)%nat /\ home (k_name (sk ks k)) b n).
  { intros k Ek. apply C. rewrite Ec in Ek. destruct (cn_fd (nth n cs conn0)) as [k0|] eqn:E0; [|congruence]. destruct (_ || _); [discriminate Ek|congruence]. }
  assert (Hn : forall nm, hconns home b ks (set_nat cs n (mkconn None nm))) by (intros nm; apply hconns_set; [exact C|intros k Ek; discriminate Ek]).
  destruct (cn_fd c) as [k|] eqn:Ek; [apply ok_pair in E; destruct E as [<- <-]; apply IH; [exact J|apply hconns_set; [exact C|rewrite Ek; exact Hc]]|].
  destruct (ws_pid (BwMicro.slot x n) =? 0) eqn:Ep; [apply ok_pair in E; destruct E as [<- <-]; apply IH; [exact J|apply hconns_set; [exact C|rewrite Ek; exact Hc]]|].
  destruct (e_socket e (Z.of_nat n)); cbn [negb] in E; [|apply ok_pair in E; destruct E as [<- <-]; apply ok_ret; split; [exact J|apply Hn]].
  destruct (if e_connect e (Z.of_nat n) then sk_lookup (b_ks x) (ws_name (BwMicro.slot x n)) else None) as [k|] eqn:El.
  - apply ok_pair in E; destruct E as [<- <-]. apply IH; [exact J|]. apply hconns_set; [exact C|]. cbn [cn_fd]. intros k' Ek'. injection Ek' as <-.
    destruct (e_connect e (Z.of_nat n)); [|discriminate El]. destruct J as [J1 J2]. rewrite J2 in El. apply sk_lookup_some in El. destruct El as (_ & En & Lk). split; [exact Lk|].
    rewrite En. apply J1, Z.eqb_neq, Ep.
  - destruct (e_probe e (ws_pid (BwMicro.slot x n)) (ws_name (BwMicro.slot x n)) =? 0); apply ok_pair in E; destruct E as [<- <-]; [|apply ok_ret; split; [exact J|apply Hn]].
    apply ok_at; [exact J|]. intros s2 p2 E. apply ok_pair in E; destruct E as [<- <-]. pose proof (Jk_free _ _ n J) as J2.
    apply ok_at; [exact J2|]. intros s3 p3 E. apply ok_pair in E; destruct E as [<- <-]. apply IH; [apply Jk_inc, J2|apply Hn].
Qed.
Lemma ok_sync ks seq cs x : Jk ks x -> hconns home b ks cs -> ok (bw_sync_p e seq cs) x (Jk ks) (fun r : Z * list conn * bool => Qk ks (snd (fst r))).
Proof.
  intros J C. unfold bw_sync_p. apply ok_at; [exact J|]. intros s' p' E. destruct (_ =? _); apply ok_pair in E; destruct E as [<- <-]; [apply ok_ret; split; assumption|].
  eapply ok_bind; [apply ok_sync_p; assumption|]. intros [cs' k] s' [J1 C1]. cbn [fst snd] in *. destruct k; [|apply ok_ret; split; assumption].
  apply ok_at; [exact J1|]. intros s2 p2 E. apply ok_pair in E; destruct E as [<- <-]. apply ok_ret; split; assumption.
Qed.
Lemma Jb_upd x s f : (forall k, k_name (f k) = k_name k) -> Jb x -> Jb (x <| b_ks := sk_upd (b_ks x) s f |>).
Proof. intros Hf [H K]. split; [exact H|]. cbn. eapply kx_trans; [exact K|apply kx_upd, Hf]. Qed.
Lemma ok_wake_p m : forall n cs x, Jb x -> hconns home b (b_ks x) cs -> ok (wake_p e m n cs) x Jb (fun r x => Jb x /\ hconns home b (b_ks x) r).
Proof.
  induction m as [|m IH]; intros n cs x J C; cbn [wake_p]; [apply ok_ret; split; assumption|].
  apply ok_at; [exact J|]. intros s' p' E. destruct (cn_fd (nth n cs conn0)) as [k|]; [|apply ok_pair in E; destruct E as [<- <-]; apply IH; assumption].
  destruct (_ && _).
  - apply ok_pair in E; destruct E as [<- <-]. destruct (_ <? _); [|apply IH; assumption]. apply IH; [apply Jb_upd; [reflexivity|exact J]|].
    cbn. eapply hconns_kx; [|exact C]. apply kx_upd. reflexivity.
  - apply ok_pair in E; destruct E as [<- <-]. apply ok_at; [exact J|]. intros s2 p2 E. apply ok_pair in E; destruct E as [<- <-]. pose proof (Jb_inc _ J) as J2.
    apply ok_at; [exact J2|]. intros s3 p3 E. apply ok_pair in E; destruct E as [<- <-]. apply IH; [apply Jb_free, J2|]. apply hconns_set; [exact C|]. intros k' Ek. discriminate Ek.
Qed.
Lemma Jk_Jb ks x : kx ks0 ks -> Jk ks x -> Jb x. Proof. intros K [H E]. split; [exact H|rewrite E; exact K]. Qed.
Lemma ok_wake h x : Jb x -> hwake home b h (b_ks x) -> ok (bw_wake_p e h) x Jb (fun r x => Jb x /\ hwake home b (fst r) (b_ks x) /\ exists q cs, fst r = Wake q cs).
Proof.
  intros [J K] C. destruct h as [seq cs|n sid p]; cbn [bw_wake_p]; [|apply ok_at; [split; assumption|]; intros s' p' E; discriminate E].
  eapply ok_bind.
  - eapply ok_weak; [| |apply (ok_sync (b_ks x) seq cs x); [split; [exact J|reflexivity]|exact C]]; [intros y; apply Jk_Jb, K|intros r y H; exact H].
  - intros [[q cs'] k] s' [J1 C1]. cbn [fst snd] in *. assert (J2 : Jb s') by (apply (Jk_Jb (b_ks x)); assumption). destruct J1 as [_ Ek].
    destruct k; [|apply ok_ret; split; [exact J2|split; [cbn; rewrite Ek; exact C1|cbn; eauto]]].
    eapply ok_bind; [apply ok_wake_p; [exact J2|rewrite Ek; exact C1]|]. intros cs2 s2 [J3 C3]. apply ok_ret. split; [exact J3|split; [exact C3|cbn; eauto]].
Qed.
Lemma ok_force h want x : Jb x -> ok (bw_force_p e h want) x Jb (fun _ => Jb).
Proof.
  intros J. destruct h as [seq cs|n sid p]; cbn [bw_force_p]; [apply ok_at; [exact J|]; intros s' p' E; discriminate E|].
  destruct (e_force e); cbn [negb]; [|apply ok_ret, J]. apply ok_at; [exact J|]. intros s' p' E. cbn zeta in E. apply ok_pair in E; destruct E as [<- <-]. apply ok_ret.
  destruct (_ && _); [|destruct (_ && _); [|exact J]]; apply Jb_upd; try exact J; reflexivity.
Qed.
Lemma ok_close h x : Jb x -> ok (bw_close_p h) x Jb (fun _ => Jb).
Proof.
  intros J. destruct h as [seq cs|n sid p]; cbn [bw_close_p]; [apply ok_ret, J|]. apply ok_at; [exact J|]. intros s' p' E. apply ok_pair in E; destruct E as [<- <-].
  assert (J2 : Jb (x <| b_ks := sk_upd (b_ks x) sid (fun z => z <| k_open := false |>) |>)) by (apply Jb_upd; [reflexivity|exact J]).
  apply ok_at; [exact J2|]. intros s2 p2 E. apply ok_pair in E; destruct E as [<- <-]. pose proof (Jb_free _ n J2) as J3. apply ok_at; [exact J3|]. intros s3 p3 E. apply ok_pair in E; destruct E as [<- <-].
  apply ok_ret, Jb_inc, J3.
Qed.
Lemma ok_open_wake x ks : Jk ks x -> ok (bw_open_wake_p e) x (Jk ks) (fun o x => Jk ks x /\ forall h, o = Some h -> hwake home b h ks /\ exists q cs, h = Wake q cs).
Proof.
  intros J. unfold bw_open_wake_p. destruct (e_alloc e); cbn [negb]; [|apply ok_ret; split; [exact J|discriminate]].
  eapply ok_bind; [apply ok_prune, J|]. intros u s1 J1. cbn beta in J1. eapply ok_bind; [apply ok_sync; [exact J1|]|].
  - intros i k E. rewrite repeat_nth in E. discriminate E.
  - intros [[q cs] k] s2 [J2 C2]. cbn [fst snd] in *. apply ok_ret. split; [exact J2|]. intros h E. destruct k; [|discriminate E]. injection E as <-. split; [exact C2|eauto].
Qed.
End Bw.

(** a new name *)
Definition named (home : Z -> bool -> nat -> Prop) (ks : socks) : Prop := forall nm b i, home nm b i -> exists s, (s < length ks)%nat /\ k_name (sk ks s) = nm.
Definition hadd (home : Z -> bool -> nat -> Prop) (name : Z) (b : bool) (n : nat) (nm : Z) (b' : bool) (i : nat) : Prop :=
  home nm b' i \/ (nm = name /\ b' = b /\ i = n).
Definition hext (home home' : Z -> bool -> nat -> Prop) : Prop := forall nm b i, home nm b i -> home' nm b i.
Lemma hadd_ext home name b n : hext home (hadd home name b n). Proof. intros nm b' i H. left. exact H. Qed.
Lemma hext_trans a b c : hext a b -> hext b c -> hext a c. Proof. unfold hext. auto. Qed.
Lemma hslots_ext home home' b h : hext home home' -> hslots home b h -> hslots home' b h.
Proof. intros E H i N. apply E, H, N. Qed.
Lemma hconns_ext home home' b ks cs : hext home home' -> hconns home b ks cs -> hconns home' b ks cs.
Proof. intros E H i k N. destruct (H i k N). auto. Qed.
Lemma hwake_ext home home' b ks h : hext home home' -> hwake home b h ks -> hwake home' b h ks.
Proof. intros E. destruct h; [apply hconns_ext, E|auto]. Qed.
Lemma named_kx home ks ks' : kx ks ks' -> named home ks -> named home ks'.
Proof. intros [K1 K2] H nm b i X. destruct (H _ _ _ X) as (s & L & <-). exists s. split; [lia|apply K2, L]. Qed.

Lemma hslots_set home b h n v : hslots home b h -> (ws_pid v <> 0 -> home (ws_name v) b n) -> hslots home b (h <| h_wr := set_nat (h_wr h) n v |>).
Proof. intros H Hv i. change (h_wr (h <| h_wr := ?x |>)) with x. cbn. destruct (nth_set_any ws_free (h_wr h) n i v) as [E|[-> E]]; rewrite E; [apply H|exact Hv]. Qed.
Section OpenWait.
Variables (e : env) (home : Z -> bool -> nat -> Prop) (b : bool) (ks : socks) (pid name : Z).
Hypothesis U : unique home.
Hypothesis N : named home ks.
Hypothesis New : forall s, (s < length ks)%nat -> k_name (sk ks s) <> name.
Definition Jx (x : bks) : Prop := exists home', hext home home' /\ unique home' /\ named home' (b_ks x) /\ hslots home' b (b_h x) /\ kx ks (b_ks x).
Definition Qx (o : option bwt) (x : bks) : Prop := Jx x /\ forall h, o = Some h -> exists n sid, h = Wait n sid [] /\ (length ks <= sid < length (b_ks x))%nat.
Lemma Jk_Jx x : Jk home b ks x -> Jx x.
Proof. intros [H E]. exists home. rewrite E. split; [intros ? ? ? X; exact X|]. split; [exact U|]. split; [exact N|]. split; [exact H|apply kx_refl]. Qed.
Lemma hadd_unique n : unique (hadd home name b n).
Proof.
  intros nm b1 i1 b2 i2 [H1|(-> & -> & ->)] [H2|(E & -> & ->)]; [apply (U _ _ _ _ _ H1 H2)| | |auto].
  - subst nm. destruct (N _ _ _ H1) as (s & L & Es). elim (New s L Es).
  - destruct (N _ _ _ H2) as (s & L & Es). elim (New s L Es).
Qed.
Lemma ok_open_wait x : Jk home b ks x -> ok (bw_open_wait_p e pid name) x Jx Qx.
Proof.
  intros J. unfold bw_open_wait_p.
  assert (RN : forall y, Jx y -> ok (Ret None) y Jx Qx) by (intros y Jy; apply ok_ret; split; [exact Jy|discriminate]).
  destruct (e_alloc e); cbn [negb]; [|apply RN, Jk_Jx, J].
  eapply ok_bind; [eapply ok_weak; [exact Jk_Jx|intros r y H; exact H|apply ok_prune, J]|]. intros u s1 J1. cbn beta in J1.
  apply ok_at; [apply Jk_Jx, J1|]. intros s2 p2 E. destruct (find_free _ _) as [n|] eqn:Ef; [|apply ok_pair in E; destruct E as [<- <-]; apply RN, Jk_Jx, J1].
  assert (Ln : (n < length (h_wr (b_h s1)))%nat) by (apply find_free_some in Ef; destruct Ef as (_ & Lm & _); rewrite Nat.sub_0_r in Lm; exact Lm).
  destruct (if e_bind e then _ else _); [apply ok_pair in E; destruct E as [<- <-]; apply RN, Jk_Jx, J1|]. cbn zeta in E. apply ok_pair in E; destruct E as [<- <-].
  destruct J1 as [H1 E1]. rewrite E1. set (k := mksock name pid true 0 (Z.max 1 (e_cap e))). set (H := hadd home name b n).
  (* from here on: slots other than [n] as before *)
  assert (NM : named H (ks ++ [k])).
  { intros nm b' i [X|(-> & _ & _)]; [destruct (N _ _ _ X) as (s & L & <-); exists s; split; [rewrite app_length; lia|rewrite sk_app1 by exact L; reflexivity]|].
    exists (length ks). split; [rewrite app_length; cbn; lia|rewrite sk_app_last; reflexivity]. }
  assert (JX : forall y, b_ks y = ks ++ [k] -> hslots H b (b_h y) -> Jx y).
  { intros y Ey Hy. exists H. rewrite Ey. split; [apply hadd_ext|]. split; [apply hadd_unique|]. split; [exact NM|]. split; [exact Hy|apply kx_app]. }
  assert (H2 : hslots H b (b_h s1)) by (eapply hslots_ext; [apply hadd_ext|exact H1]).
  apply ok_at; [apply JX; [reflexivity|exact H2]|]. intros s3 p3 E. apply ok_pair in E; destruct E as [<- <-].
  set (y1 := set_name _ n name).
  assert (Nm : ws_name (nth n (h_wr (b_h y1)) ws_free) = name).
  { unfold y1, set_name. cbn. rewrite nth_set_same_any by exact Ln. reflexivity. }
  assert (S1 : hslots H b (b_h y1)).
  { apply (hslots_set H b (b_h s1) n (BwMicro.slot s1 n <| ws_name := name |>) H2). intros _. right. auto. }
  apply ok_at; [apply JX; [reflexivity|exact S1]|]. intros s4 p4 E. apply ok_pair in E; destruct E as [<- <-].
  set (y2 := set_pid y1 n pid).
  assert (S2 : hslots H b (b_h y2)).
  { apply (hslots_set H b (b_h y1) n (BwMicro.slot y1 n <| ws_pid := pid |>) S1). intros _. right. split; [exact Nm|auto]. }
  apply ok_at; [apply JX; [reflexivity|exact S2]|]. intros s5 p5 E. apply ok_pair in E; destruct E as [<- <-].
  set (y3 := inc_seq y2). assert (S3 : hslots H b (b_h y3)) by exact S2.
  destruct (e_self e).
  - apply ok_ret. split; [apply JX; [reflexivity|exact S3]|]. intros h Eh. injection Eh as <-. exists n, (length ks). split; [reflexivity|].
    change (b_ks y3) with (ks ++ [k]). rewrite app_length. cbn. lia.
  - apply ok_at; [apply JX; [reflexivity|exact S3]|]. intros s6 p6 E. apply ok_pair in E; destruct E as [<- <-].
    pose proof (hslots_free H b y3 n S3) as S4. apply ok_at; [apply JX; [reflexivity|exact S4]|]. intros s7 p7 E. apply ok_pair in E; destruct E as [<- <-].
    apply RN. exists H. cbn [b_h b_ks set]. change (b_ks (set_pid y3 n 0)) with (ks ++ [k]).
    assert (K2 : kx (ks ++ [k]) (sk_upd (ks ++ [k]) (length ks) (fun z => z <| k_open := false |>))) by (apply kx_upd; reflexivity).
    split; [apply hadd_ext|]. split; [apply hadd_unique|]. split; [apply (named_kx _ _ _ K2), NM|]. split; [exact S4|]. eapply kx_trans; [apply kx_app|exact K2].
Qed.
End OpenWait.
