(** * While a process is between lock() and unlock(), it touches the queue of a
    socket of another process at most once. *)
From Verif Require Import BaseFacts MicroFacts KillExec BwInv KillBwInv.
From Verif Require Export FineAdv.

Lemma nth_set_any {A} (d : A) : forall l n i x, nth i (set_nat l n x) d = nth i l d \/ (i = n /\ nth i (set_nat l n x) d = x).
Proof.
  induction l as [|y t IH]; intros [|n] [|i] x; cbn; auto. destruct (IH n i x) as [E|[E1 E2]]; [left; exact E|right; split; [congruence|exact E2]].
Qed.
Lemma set_nat_twice {A} : forall (l : list A) n x y, set_nat (set_nat l n x) n y = set_nat l n y.
Proof. induction l as [|z t IH]; intros [|n] x y; cbn; try reflexivity. rewrite IH. reflexivity. Qed.
Lemma set_nat_comm {A} : forall (l : list A) n n' x y, n <> n' -> set_nat (set_nat l n x) n' y = set_nat (set_nat l n' y) n x.
Proof.
  induction l as [|z t IH]; intros [|n] [|n'] x y N; cbn; try reflexivity; try (elim N; reflexivity). rewrite (IH n n') by congruence. reflexivity.
Qed.
Lemma upd_comm ks s k f g : s <> k -> sk_upd (sk_upd ks s f) k g = sk_upd (sk_upd ks k g) s f.
Proof.
  intros N. unfold sk_upd at 1 3. rewrite !sk_upd_other by congruence. unfold sk_upd. apply set_nat_comm, N.
Qed.
(** updates of different fields *)
Lemma upd_comm_any ks s k f g : (forall x, f (g x) = g (f x)) -> sk_upd (sk_upd ks s f) k g = sk_upd (sk_upd ks k g) s f.
Proof.
  intros C. destruct (Nat.eq_dec s k) as [->|N]; [|apply upd_comm, N].
  destruct (Nat.lt_ge_cases k (length ks)) as [L|L].
  - unfold sk_upd at 1 3. rewrite !sk_upd_same by exact L. unfold sk_upd. rewrite !set_nat_twice, C. reflexivity.
  - assert (Z : forall h, sk_upd ks k h = ks); [|rewrite !Z; reflexivity].
    intros h. unfold sk_upd. revert k L. clear. generalize (h (sk ks 0)). intros _.
    intros k L. generalize (h (sk ks k)). intros y. revert k L. induction ks as [|z t IH]; intros [|k] L; cbn in *; try reflexivity; [lia|]. rewrite IH by lia. reflexivity.
Qed.
Lemma upd_app ks l s f : (s < length ks)%nat -> sk_upd (ks ++ l) s f = sk_upd ks s f ++ l.
Proof.
  intros L. unfold sk_upd. rewrite sk_app1 by exact L. generalize (f (sk ks s)). intros y. revert s L. induction ks as [|z t IH]; intros [|s] L; cbn in *; try lia; [reflexivity|].
  rewrite IH by lia. reflexivity.
Qed.

(** ** lib/bw.c *)
Definition kputb (x : bks) (ks : socks) : bks := mkbk (b_h x) ks.
Notation advb := (adv b_ks kputb).
Notation setpb := (setp b_ks kputb).
Lemma kgpb m ks : b_ks (kputb m ks) = ks. Proof. reflexivity. Qed.
Lemma kppb m a b : kputb (kputb m a) b = kputb m b. Proof. reflexivity. Qed.
Lemma kpgb m : kputb m (b_ks m) = m. Proof. destruct m; reflexivity. Qed.
Lemma likeb_h m m1 : like b_ks kputb m m1 -> b_h m1 = b_h m. Proof. intros (ks & -> & _). reflexivity. Qed.
Lemma likeb_len m m1 : like b_ks kputb m m1 -> length (b_ks m1) = length (b_ks m). Proof. intros (ks & -> & P). apply pends_len, P. Qed.

Section Prog.
Variable (s : nat) (e : env).
Notation lt x := (s < length (b_ks x))%nat (only parsing).
Lemma at_in {A} (Q : A -> bks -> Prop) b l f m : lt m -> inert b_ks kputb s f ->
  (forall m1 m' p', lt m1 -> b_h m1 = b_h m -> pends (b_ks m) (b_ks m1) -> f m1 = Ok (m', p') -> advb Q s b p' m') -> advb Q s b (At l f) m.
Proof.
  intros L HN HK. apply adv_in; [exact HN|]. intros m1 m' p' (ks & -> & P) E. apply (HK _ _ _) with (4 := E); cbn [b_ks b_h kputb]; auto. rewrite (pends_len _ _ P). exact L.
Qed.
Lemma adv_set {A} (Q : A -> bks -> Prop) b l (g : bks -> bks) p m : lt m -> (forall x ks, g (kputb x ks) = kputb (g x) ks) -> (forall x, b_ks (g x) = b_ks x) ->
  (forall m1, lt m1 -> b_h m1 = b_h (g m) -> pends (b_ks m) (b_ks m1) -> advb Q s b p m1) -> advb Q s b (At l (fun x => Ok (g x, p))) m.
Proof.
  intros L C K H. apply at_in; [exact L| |].
  - intros m1 v _. unfold setp. rewrite C, K. reflexivity.
  - intros m1 m' p' L1 Eh P E. apply ok_pair in E; destruct E as [<- <-]. apply H; [rewrite K; exact L1| |rewrite K; exact P].
    rewrite <- (kpgb m1) at 1. replace m1 with (kputb m (b_ks m1)) at 1 by (unfold kputb; rewrite <- Eh; destruct m1; reflexivity). rewrite kppb, C. reflexivity.
Qed.

(** the slots in which a name may be registered *)
Variables (home : Z -> bool -> nat -> Prop) (b : bool).
Definition hslots (h : bwh) : Prop := forall i, ws_pid (nth i (h_wr h) ws_free) <> 0 -> home (ws_name (nth i (h_wr h) ws_free)) b i.
Definition hconns (ks : socks) (cs : list conn) : Prop := forall i k, cn_fd (nth i cs conn0) = Some k -> (k < length ks)%nat /\ home (k_name (sk ks k)) b i.
Lemma hslots_free m n : hslots (b_h m) -> hslots (b_h (set_pid m n 0)).
Proof.
  intros H i. unfold set_pid. cbn [b_h h_wr set]. change (h_wr (b_h m <| h_wr := ?x |>)) with x. cbn.
  destruct (nth_set_any ws_free (h_wr (b_h m)) n i (BwMicro.slot m n <| ws_pid := 0 |>)) as [E|[_ E]]; rewrite E; [apply H|]. intros N. elim N. reflexivity.
Qed.
Lemma hconns_set ks cs n c : hconns ks cs -> (forall k, cn_fd c = Some k -> (k < length ks)%nat /\ home (k_name (sk ks k)) b n) -> hconns ks (set_nat cs n c).
Proof. intros H Hc i k. destruct (nth_set_any conn0 cs n i c) as [E|[-> E]]; rewrite E; [apply H|apply Hc]. Qed.
Lemma hconns_pends ks ks' cs : pends ks ks' -> hconns ks cs -> hconns ks' cs.
Proof. intros P H i k E. destruct (H i k E) as [A B]. rewrite (pends_len _ _ P), (pends_name _ _ _ P). auto. Qed.

Definition Hs (x : bks) : Prop := lt x /\ hslots (b_h x).
Lemma adv_prune fl m : forall n x, Hs x -> advb (fun _ => Hs) s fl (prune_p e m n) x.
Proof.
  induction m as [|m IH]; intros n x [L H]; cbn [prune_p].
  - apply adv_ret. intros m1 K. split; [rewrite (likeb_len _ _ K); exact L|rewrite (likeb_h _ _ K); exact H].
  - apply at_in; [exact L| |].
    + intros m1 v _. change (BwMicro.slot (setpb s v m1) n) with (BwMicro.slot m1 n). destruct (_ || _); reflexivity.
    + intros m1 m' p' L1 Eh P E. destruct (_ || _); apply ok_pair in E; destruct E as [<- <-]; [apply IH; split; [exact L1|rewrite Eh; exact H]|].
      apply (adv_set _ _ _ (fun x => set_pid x n 0)); [exact L1|reflexivity|reflexivity|]. intros m2 L2 Eh2 P2.
      apply (adv_set _ _ _ inc_seq); [exact L2|reflexivity|reflexivity|]. intros m3 L3 Eh3 P3. apply IH. split; [exact L3|].
      rewrite Eh3. unfold inc_seq. intros i. change (h_wr (b_h (m2 <| b_h := b_h m2 <| h_seq := h_seq (b_h m2) + 1 |> |>))) with (h_wr (b_h m2)). rewrite Eh2.
      apply (hslots_free m1 n). rewrite Eh. exact H.
Qed.
Definition Qs (cs : list conn) (x : bks) : Prop := Hs x /\ hconns (b_ks x) cs.
Lemma adv_sync_p fl m : forall n cs x, Hs x -> hconns (b_ks x) cs -> advb (fun r : list conn * bool => Qs (fst r)) s fl (sync_p e m n cs) x.
Proof.
  assert (R : forall cs ok x, Hs x -> hconns (b_ks x) cs -> advb (fun r : list conn * bool => Qs (fst r)) s fl (Ret (cs, ok)) x).
  { intros cs ok x [L H] C. apply adv_ret. intros m1 K. cbn [fst]. split; [split; [rewrite (likeb_len _ _ K); exact L|rewrite (likeb_h _ _ K); exact H]|].
    destruct K as (ks & -> & P). apply (hconns_pends (b_ks x) ks); assumption. }
  induction m as [|m IH]; intros n cs x [L H] C; cbn [sync_p]; [apply R; [split; assumption|exact C]|].
  apply at_in; [exact L| |].
  - intros m1 v _. change (BwMicro.slot (setpb s v m1) n) with (BwMicro.slot m1 n). cbn zeta.
    change (b_ks (setpb s v m1)) with (setpk s v (b_ks m1)). rewrite (pends_lookup _ _ (ws_name (BwMicro.slot m1 n)) (setp_pends s v (b_ks m1))).
    repeat match goal with |- context [match ?t with _ => _ end] => match t with context [match _ with _ => _ end] => fail 1 | _ => destruct t; try reflexivity end end.
  - intros m1 m' p' L1 Eh P E. cbn zeta in E. pose proof (hconns_pends _ _ _ P C) as C1. assert (H1 : Hs m1) by (split; [exact L1|rewrite Eh; exact H]).
    remember (match cn_fd (nth n cs conn0) with Some _ => _ | None => nth n cs conn0 end) as c eqn:Ec.
    assert (Hc : forall k, cn_fd c = Some k -> (k < length (b_ks m1))%nat /\ home (k_name (sk (b_ks m1) k)) b n).
    { intros k Ek. apply C1. rewrite Ec in Ek. destruct (cn_fd (nth n cs conn0)) as [k0|] eqn:E0; [|congruence]. destruct (_ || _); [discriminate Ek|congruence]. }
    assert (Hn : forall nm, hconns (b_ks m1) (set_nat cs n (mkconn None nm))) by (intros nm; apply hconns_set; [exact C1|intros k Ek; discriminate Ek]).
    destruct (cn_fd c) as [k|] eqn:Ek; [apply ok_pair in E; destruct E as [<- <-]; apply IH; [exact H1|apply hconns_set; [exact C1|rewrite Ek; exact Hc]]|].
    destruct (ws_pid (BwMicro.slot m1 n) =? 0) eqn:Ep; [apply ok_pair in E; destruct E as [<- <-]; apply IH; [exact H1|apply hconns_set; [exact C1|rewrite Ek; exact Hc]]|].
    destruct (e_socket e (Z.of_nat n)); cbn [negb] in E; [|apply ok_pair in E; destruct E as [<- <-]; apply R; [exact H1|apply Hn]].
    destruct (if e_connect e (Z.of_nat n) then sk_lookup (b_ks m1) (ws_name (BwMicro.slot m1 n)) else None) as [k|] eqn:El.
    + apply ok_pair in E; destruct E as [<- <-]. apply IH; [exact H1|]. apply hconns_set; [exact C1|]. cbn [cn_fd]. intros k' Ek'. injection Ek' as <-.
      destruct (e_connect e (Z.of_nat n)); [|discriminate El]. apply sk_lookup_some in El. destruct El as (_ & En & Lk). split; [exact Lk|]. rewrite En. apply (proj2 H1), Z.eqb_neq, Ep.
    + destruct (e_probe e (ws_pid (BwMicro.slot m1 n)) (ws_name (BwMicro.slot m1 n)) =? 0); apply ok_pair in E; destruct E as [<- <-]; [|apply R; [exact H1|apply Hn]].
      apply (adv_set _ _ _ (fun x => set_pid x n 0)); [exact L1|reflexivity|reflexivity|]. intros m2 L2 Eh2 P2.
      apply (adv_set _ _ _ inc_seq); [exact L2|reflexivity|reflexivity|]. intros m3 L3 Eh3 P3. apply IH; [|apply (hconns_pends (b_ks m2)); [exact P3|apply (hconns_pends (b_ks m1)); [exact P2|apply Hn]]].
      split; [exact L3|]. rewrite Eh3. intros i. change (h_wr (b_h (inc_seq m2))) with (h_wr (b_h m2)). rewrite Eh2. apply (hslots_free m1 n), H1.
Qed.
Lemma adv_sync fl seq cs x : Hs x -> hconns (b_ks x) cs -> advb (fun r : Z * list conn * bool => Qs (snd (fst r))) s fl (bw_sync_p e seq cs) x.
Proof.
  intros [L H] C. unfold bw_sync_p.
  assert (R : forall q cs ok x, Hs x -> hconns (b_ks x) cs -> advb (fun r : Z * list conn * bool => Qs (snd (fst r))) s fl (Ret (q, cs, ok)) x).
  { intros q cs' ok y [L1 H1] C1. apply adv_ret. intros m1 K. cbn [fst snd]. split; [split; [rewrite (likeb_len _ _ K); exact L1|rewrite (likeb_h _ _ K); exact H1]|].
    destruct K as (ks & -> & P). apply (hconns_pends (b_ks y) ks); assumption. }
  apply at_in; [exact L| |].
  - intros m1 v _. change (b_h (setpb s v m1)) with (b_h m1). destruct (_ =? _); reflexivity.
  - intros m1 m' p' L1 Eh P E. assert (H1 : Hs m1) by (split; [exact L1|rewrite Eh; exact H]). pose proof (hconns_pends _ _ _ P C) as C1.
    destruct (_ =? _); apply ok_pair in E; destruct E as [<- <-]; [apply R; assumption|].
    apply (adv_bind b_ks kputb kpgb (fun r : list conn * bool => Qs (fst r))); [apply adv_sync_p; assumption|]. intros [cs' ok] m2 [H2 C2]. cbn [fst snd] in *. destruct ok; [|apply R; assumption].
    apply at_in; [apply H2|intros ? ? _; reflexivity|]. intros m3 m4 p4 L3 Eh3 P3 E. apply ok_pair in E; destruct E as [<- <-]. apply R; [split; [exact L3|rewrite Eh3; apply H2]|apply (hconns_pends (b_ks m2)); assumption].
Qed.

(** wake-ups *)
Lemma adv_quiet fl m : forall n cs x, lt x -> (forall i, (n <= i)%nat -> cn_fd (nth i cs conn0) <> Some s) ->
  advb (fun _ x => lt x) s fl (wake_p e m n cs) x.
Proof.
  induction m as [|m IH]; intros n cs x L H; cbn [wake_p]; [apply adv_ret; intros m1 K; rewrite (likeb_len _ _ K); exact L|].
  pose proof (H n (le_n n)) as Hn. destruct (cn_fd (nth n cs conn0)) as [k|] eqn:Ek.
  2:{ apply at_in; [exact L|intros m1 v _; reflexivity|]. intros m1 m' p' L1 Eh P E. apply ok_pair in E; destruct E as [<- <-]. apply IH; [exact L1|]. intros i Hi. apply H. lia. }
  assert (Nk : s <> k) by congruence. apply at_in; [exact L| |].
  - intros m1 v _. change (b_ks (setpb s v m1)) with (setpk s v (b_ks m1)). unfold setpk. rewrite sk_upd_other by congruence.
    destruct (k_open _ && _); [|reflexivity]. destruct (_ <? _); [|reflexivity]. unfold setp, setpk, kputb.
    change (b_ks (m1 <| b_ks := ?y |>)) with y. cbn. rewrite (upd_comm (b_ks m1) s k) by exact Nk. reflexivity.
  - intros m1 m' p' L1 Eh P E. destruct (k_open _ && _).
    + apply ok_pair in E; destruct E as [<- <-]. apply IH; [destruct (_ <? _); cbn; rewrite ?sk_upd_len; exact L1|]. intros i Hi. apply H. lia.
    + apply ok_pair in E; destruct E as [<- <-]. apply (adv_set _ _ _ inc_seq); [exact L1|reflexivity|reflexivity|]. intros m2 L2 Eh2 P2.
      apply (adv_set _ _ _ (fun x => set_pid x n 0)); [exact L2|reflexivity|reflexivity|]. intros m3 L3 Eh3 P3. apply IH; [exact L3|].
      intros i Hi. destruct (nth_set_any conn0 cs n i (nth n cs conn0 <| cn_fd := None |>)) as [->|[_ ->]]; [apply H; lia|discriminate].
Qed.
Lemma adv_once m : forall n cs x, lt x -> (forall i j, cn_fd (nth i cs conn0) = Some s -> cn_fd (nth j cs conn0) = Some s -> i = j) ->
  advb (fun _ x => lt x) s true (wake_p e m n cs) x.
Proof.
  induction m as [|m IH]; intros n cs x L H; cbn [wake_p]; [apply adv_ret; intros m1 K; rewrite (likeb_len _ _ K); exact L|].
  assert (H' : forall i j, cn_fd (nth i (set_nat cs n (nth n cs conn0 <| cn_fd := None |>)) conn0) = Some s ->
     cn_fd (nth j (set_nat cs n (nth n cs conn0 <| cn_fd := None |>)) conn0) = Some s -> i = j).
  { intros i j. destruct (nth_set_any conn0 cs n i (nth n cs conn0 <| cn_fd := None |>)) as [->|[_ ->]]; [|discriminate].
    destruct (nth_set_any conn0 cs n j (nth n cs conn0 <| cn_fd := None |>)) as [->|[_ ->]]; [apply H|discriminate]. }
  destruct (cn_fd (nth n cs conn0)) as [k|] eqn:Ek.
  2:{ apply at_in; [exact L|intros m1 v _; reflexivity|]. intros m1 m' p' L1 Eh P E. apply ok_pair in E; destruct E as [<- <-]. apply IH; assumption. }
  destruct (Nat.eq_dec s k) as [<-|Nk].
  - apply adv_send. intros m1 m' p' K E. pose proof (likeb_len _ _ K) as L1. rewrite <- L1 in L. clear L1.
    assert (HQ : forall i, (S n <= i)%nat -> cn_fd (nth i cs conn0) <> Some s) by (intros i Hi E0; pose proof (H _ _ E0 Ek); lia).
    destruct (k_open _ && _).
    + apply ok_pair in E; destruct E as [<- <-]. apply adv_quiet; [destruct (_ <? _); cbn; rewrite ?sk_upd_len; exact L|exact HQ].
    + apply ok_pair in E; destruct E as [<- <-]. apply (adv_set _ _ _ inc_seq); [exact L|reflexivity|reflexivity|]. intros m2 L2 Eh2 P2.
      apply (adv_set _ _ _ (fun x => set_pid x n 0)); [exact L2|reflexivity|reflexivity|]. intros m3 L3 Eh3 P3. apply adv_quiet; [exact L3|].
      intros i Hi. destruct (nth_set_any conn0 cs n i (nth n cs conn0 <| cn_fd := None |>)) as [->|[_ ->]]; [apply HQ; lia|discriminate].
  - apply at_in; [exact L| |].
    + intros m1 v _. change (b_ks (setpb s v m1)) with (setpk s v (b_ks m1)). unfold setpk. rewrite sk_upd_other by congruence.
      destruct (k_open _ && _); [|reflexivity]. destruct (_ <? _); [|reflexivity]. unfold setp, setpk, kputb.
      change (b_ks (m1 <| b_ks := ?y |>)) with y. cbn. rewrite (upd_comm (b_ks m1) s k) by exact Nk. reflexivity.
    + intros m1 m' p' L1 Eh P E. destruct (k_open _ && _).
      * apply ok_pair in E; destruct E as [<- <-]. apply IH; [destruct (_ <? _); cbn; rewrite ?sk_upd_len; exact L1|exact H].
      * apply ok_pair in E; destruct E as [<- <-]. apply (adv_set _ _ _ inc_seq); [exact L1|reflexivity|reflexivity|]. intros m2 L2 Eh2 P2.
        apply (adv_set _ _ _ (fun x => set_pid x n 0)); [exact L2|reflexivity|reflexivity|]. intros m3 L3 Eh3 P3. apply IH; [exact L3|exact H'].
Qed.
Definition hwake (h : bwt) (ks : socks) : Prop := match h with Wake _ cs => hconns ks cs | Wait _ _ _ => True end.
Lemma adv_wake h x : (forall nm b i b' i', home nm b i -> home nm b' i' -> b = b' /\ i = i') -> Hs x -> hwake h (b_ks x) ->
  advb (fun _ x => lt x) s true (bw_wake_p e h) x.
Proof.
  intros U H C. destruct h as [seq cs|n sid p]; cbn [bw_wake_p]; [|apply adv_stop; discriminate].
  apply (adv_bind b_ks kputb kpgb (fun r : Z * list conn * bool => Qs (snd (fst r)))); [apply adv_sync; assumption|]. intros [[q cs'] ok] m1 [H1 C1]. cbn [fst snd] in *.
  destruct ok; [|apply adv_ret; intros m2 K; rewrite (likeb_len _ _ K); apply H1].
  apply (adv_bind_l b_ks kputb kpgb (fun _ x => lt x)); [apply adv_once; [apply H1|]|].
  - intros i j Ei Ej. destruct (C1 _ _ Ei) as [_ A]. destruct (C1 _ _ Ej) as [_ B]. apply (U _ _ _ _ _ A B).
  - intros cs2 m2 L2. apply adv_ret. intros m3 K. rewrite (likeb_len _ _ K). exact L2.
Qed.
Lemma adv_force fl h want x : lt x -> (forall n p, h <> Wait n s p) -> advb (fun _ x => lt x) s fl (bw_force_p e h want) x.
Proof.
  intros L N. destruct h as [q cs|n sid p]; cbn [bw_force_p]; [apply adv_stop; discriminate|].
  assert (Nk : s <> sid) by (intros <-; exact (N n p eq_refl)).
  destruct (e_force e); cbn [negb]; [|apply adv_ret; intros m1 K; rewrite (likeb_len _ _ K); exact L].
  apply at_in; [exact L| |].
  - intros m1 v _. change (b_ks (setpb s v m1)) with (setpk s v (b_ks m1)). unfold setpk. cbn zeta. rewrite sk_upd_other by congruence.
    destruct (negb want && _); [|destruct (want && _); [|reflexivity]]; unfold setp, setpk, kputb; change (b_ks (m1 <| b_ks := ?y |>)) with y; cbn;
      rewrite (upd_comm (b_ks m1) s sid) by exact Nk; reflexivity.
  - intros m1 m' p' L1 Eh P E. apply ok_pair in E; destruct E as [<- <-]. apply adv_ret. intros m2 K. rewrite (likeb_len _ _ K).
    destruct (negb want && _); [|destruct (want && _)]; cbn; rewrite ?sk_upd_len; exact L1.
Qed.
Lemma adv_shut {A} (Q : A -> bks -> Prop) fl l sid p x : lt x -> (forall m1, lt m1 -> advb Q s fl p m1) ->
  advb Q s fl (At l (fun y => Ok (y <| b_ks := sk_upd (b_ks y) sid (fun z => z <| k_open := false |>) |>, p))) x.
Proof.
  intros L H. apply at_in; [exact L| |].
  - intros m1 v _. change (b_ks (setpb s v m1)) with (setpk s v (b_ks m1)). unfold setp, setpk, kputb. change (b_ks (m1 <| b_ks := ?y |>)) with y. cbn.
    rewrite (upd_comm_any (b_ks m1) s sid) by reflexivity. reflexivity.
  - intros m1 m' p' L1 _ _ E. apply ok_pair in E; destruct E as [<- <-]. apply H. cbn. rewrite sk_upd_len. exact L1.
Qed.
Lemma adv_close fl h x : lt x -> advb (fun _ x => lt x) s fl (bw_close_p h) x.
Proof.
  intros L. destruct h as [q cs|n sid p]; cbn [bw_close_p]; [apply adv_ret; intros m1 K; rewrite (likeb_len _ _ K); exact L|].
  apply adv_shut; [exact L|]. intros m1 L1. apply (adv_set _ _ _ (fun x => set_pid x n 0)); [exact L1|reflexivity|reflexivity|]. intros m2 L2 _ _.
  apply (adv_set _ _ _ inc_seq); [exact L2|reflexivity|reflexivity|]. intros m3 L3 _ _. apply adv_ret. intros m4 K. rewrite (likeb_len _ _ K). exact L3.
Qed.
End Prog.
Definition anywhere : Z -> bool -> nat -> Prop := fun _ _ _ => True.
Lemma any_slots b h : hslots anywhere b h. Proof. intros i _. exact I. Qed.
Section Open.
Variable (s : nat) (e : env).
Notation lt x := (s < length (b_ks x))%nat (only parsing).
Definition not_s (o : option bwt) (x : bks) : Prop := lt x /\ forall n p, o <> Some (Wait n s p).
Lemma adv_open_wait fl pid name x : lt x -> advb not_s s fl (bw_open_wait_p e pid name) x.
Proof.
  intros L. unfold bw_open_wait_p.
  assert (RN : forall y, lt y -> advb not_s s fl (Ret None) y).
  { intros y Ly. apply adv_ret. intros m1 K. split; [rewrite (likeb_len _ _ K); exact Ly|discriminate]. }
  destruct (e_alloc e); cbn [negb]; [|apply RN, L].
  apply (adv_bind b_ks kputb kpgb (fun _ => Hs s anywhere true)); [apply adv_prune; split; [exact L|apply any_slots]|]. intros _ m1 [L1 _].
  apply at_in; [exact L1| |].
  - intros m2 v L2. change (b_h (setpb s v m2)) with (b_h m2). destruct (find_free _ _) as [n|]; [|reflexivity].
    change (b_ks (setpb s v m2)) with (setpk s v (b_ks m2)). rewrite (pends_lookup _ _ name (setp_pends s v (b_ks m2))).
    destruct (if e_bind e then _ else _); [reflexivity|]. cbn zeta. unfold setp, setpk, kputb. rewrite sk_upd_len. change (b_ks (m2 <| b_ks := ?y |>)) with y. cbn.
    rewrite upd_app by exact L2. reflexivity.
  - intros m2 m' p' L2 _ _ E. destruct (find_free _ _) as [n|]; [|apply ok_pair in E; destruct E as [<- <-]; apply RN, L2].
    destruct (if e_bind e then _ else _); [apply ok_pair in E; destruct E as [<- <-]; apply RN, L2|]. cbn zeta in E. apply ok_pair in E; destruct E as [<- <-].
    assert (NE : s <> length (b_ks m2)) by lia.
    apply (adv_set _ _ _ _ (fun x => set_name x n name)); [cbn; rewrite app_length; cbn; lia|reflexivity|reflexivity|]. intros m3 L3 _ _.
    apply (adv_set _ _ _ _ (fun x => set_pid x n pid)); [exact L3|reflexivity|reflexivity|]. intros m4 L4 _ _.
    apply (adv_set _ _ _ _ inc_seq); [exact L4|reflexivity|reflexivity|]. intros m5 L5 _ _.
    destruct (e_self e).
    + apply adv_ret. intros m6 K. split; [rewrite (likeb_len _ _ K); exact L5|]. intros n' p' E. injection E as _ E _. congruence.
    + apply (adv_set _ _ _ _ (fun x => set_pid x n 0)); [exact L5|reflexivity|reflexivity|]. intros m6 L6 _ _. apply adv_shut; [exact L6|]. intros m7 L7. apply RN, L7.
Qed.
Lemma adv_open_wake fl x : lt x -> advb (fun _ x => lt x) s fl (bw_open_wake_p e) x.
Proof.
  intros L. unfold bw_open_wake_p.
  destruct (e_alloc e); cbn [negb]; [|apply adv_ret; intros m1 K; rewrite (likeb_len _ _ K); exact L].
  apply (adv_bind b_ks kputb kpgb (fun _ => Hs s anywhere true)); [apply adv_prune; split; [exact L|apply any_slots]|]. intros _ m1 [L1 _].
  apply (adv_bind b_ks kputb kpgb (fun r : Z * list conn * bool => Qs s anywhere true (snd (fst r)))).
  - apply adv_sync; [split; [exact L1|apply any_slots]|]. intros i k E. rewrite repeat_nth in E. discriminate E.
  - intros [[q cs] ok] m2 [[L2 _] _]. apply adv_ret. intros m3 K. rewrite (likeb_len _ _ K). exact L2.
Qed.
End Open.
