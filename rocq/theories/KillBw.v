(** * Block/wake handles with processes killed at any statement and socket
    calls that may fail (proofs about BwMicro.v). *)
From Verif Require Import MicroFacts KillExec.
From Verif Require Export BwStep.

(** ** programs, statement by statement: [I] holds before each statement *)
Definition safe {S A} (P : S -> Prop) (I : S -> Prop) (Q : A -> S -> Prop) (p : prog S A) : Prop := forall s, P s ->
  (forall l s', dies_at p s l s' -> I s') /\ (forall s' x, exec_all p s = Ok (s', x) -> Q x s').
Lemma safe_ret {S A} (P I : S -> Prop) (Q : A -> S -> Prop) x : (forall s, P s -> Q x s) -> safe P I Q (Ret x).
Proof.
  intros H s Hs. split; [intros l s' D; elim (dies_ret _ _ _ _ D)|]. intros s' y E. apply ok_pair in E. destruct E as [<- <-]. auto.
Qed.
Lemma safe_at {S A} (P I : S -> Prop) (Q : A -> S -> Prop) l f : (forall s, P s -> I s) ->
  (forall s s' p', P s -> f s = Ok (s', p') -> exists P' : S -> Prop, P' s' /\ safe P' I Q p') -> safe P I Q (At l f).
Proof.
  intros HI H s Hs. split.
  - intros ln s' D. apply dies_at_inv in D. destruct D as [[-> ->]|(s1 & p1 & E & D)]; [apply HI; exact Hs|].
    destruct (H _ _ _ Hs E) as (P' & Hp & K). apply (proj1 (K _ Hp) _ _ D).
  - intros s' x E. rewrite exec_at in E. apply obind_ok in E. destruct E as ([s1 p1] & E & E1).
    destruct (H _ _ _ Hs E) as (P' & Hp & K). apply (proj2 (K _ Hp) _ _ E1).
Qed.
Lemma safe_bind {S A B} (P I : S -> Prop) (R : A -> S -> Prop) (Q : B -> S -> Prop) (p : prog S A) (k : A -> prog S B) :
  safe P I R p -> (forall x, safe (R x) I Q (k x)) -> safe P I Q (bindp p k).
Proof.
  intros H K s Hs. split.
  - intros l s' D. apply dies_bind in D. destruct D as [D|(s1 & x & E & D)]; [apply (proj1 (H s Hs) _ _ D)|].
    apply (proj1 (K x s1 (proj2 (H s Hs) _ _ E)) _ _ D).
  - intros s' y E. rewrite exec_bind in E. apply obind_ok in E. destruct E as ([s1 x] & E & E1).
    apply (proj2 (K x s1 (proj2 (H s Hs) _ _ E)) _ _ E1).
Qed.
Lemma safe_pre {S A} (P P' I : S -> Prop) (Q Q' : A -> S -> Prop) p : (forall s, P s -> P' s) -> (forall x s, Q' x s -> Q x s) -> safe P' I Q' p -> safe P I Q p.
Proof. intros H1 H2 H s Hs. destruct (H s (H1 _ Hs)) as [A1 A2]. split; [exact A1|]. intros s' x E. apply H2, A2, E. Qed.

(** ** the relations to the state before *)
Record grow (W : nat -> Prop) (h h' : bwh) : Prop := mkgr {
  gr_len : length (h_wr h') = length (h_wr h);
  gr_seq : h_seq h <= h_seq h';
  gr_slot : forall n, W n -> nth n (h_wr h') ws_free = nth n (h_wr h) ws_free }.
Record kin (K L : nat -> Prop) (ks ks' : socks) : Prop := mkkin {
  kn_ki : KI ks';
  kn_len : (length ks <= length ks')%nat;
  kn_id : forall s, (s < length ks)%nat -> k_name (sk ks' s) = k_name (sk ks s) /\ k_pid (sk ks' s) = k_pid (sk ks s);
  kn_open : forall s, K s -> k_open (sk ks' s) = true;
  kn_pend : forall s, L s -> k_pend (sk ks s) <= k_pend (sk ks' s) }.
Lemma grow_refl W h : grow W h h.
Proof. constructor; auto. lia. Qed.
Lemma grow_trans W a b c : grow W a b -> grow W b c -> grow W a c.
Proof. intros [A1 A2 A3] [B1 B2 B3]. constructor; [congruence|lia|]. intros n H. rewrite B3, A3 by exact H. reflexivity. Qed.
Lemma kin_refl (K L : nat -> Prop) ks : KI ks -> (forall s, K s -> k_open (sk ks s) = true) -> kin K L ks ks.
Proof. intros H1 H2. constructor; auto. lia. Qed.

Section Bw.
Variables (e : env) (h0 : bwh) (ks0 : socks) (W K L : nat -> Prop).
(** the socket registered in a protected slot *)
Definition reg (n s : nat) : Prop := (s < length ks0)%nat /\ nth n (h_wr h0) ws_free = mkws (k_pid (sk ks0 s)) (k_name (sk ks0 s)).
Hypothesis HL : length (h_wr h0) = BW_WAITMAX.
Hypothesis HW : forall n, W n -> (n < BW_WAITMAX)%nat /\ exists s, reg n s /\ K s /\ k_pid (sk ks0 s) <> 0
  /\ e_probe e (k_pid (sk ks0 s)) (k_name (sk ks0 s)) <> 0.
Hypothesis HS : forall n, e_send e n = true.
Definition Ib (s : bks) : Prop := grow W h0 (b_h s) /\ kin K L ks0 (b_ks s).

Lemma Ib_pid s n p : ~ W n -> Ib s -> Ib (set_pid s n p).
Proof.
  intros N [[A1 A2 A3] B]. split; [|exact B]. unfold set_pid. cbn [b_h set]. constructor; cbn [h_wr h_seq set]; [rewrite zlen_set_nat; exact A1|exact A2|].
  intros m Hm. rewrite <- A3 by exact Hm. destruct (Nat.lt_ge_cases n (length (h_wr (b_h s)))) as [Lt|Ge].
  - rewrite BaseFacts.nth_set_nat by exact Lt. destruct (Nat.eqb_spec m n) as [->|]; [contradiction|reflexivity].
  - rewrite set_nat_out by exact Ge. reflexivity.
Qed.
Lemma Ib_name s n p : ~ W n -> Ib s -> Ib (set_name s n p).
Proof.
  intros N [[A1 A2 A3] B]. split; [|exact B]. unfold set_name. cbn [b_h set]. constructor; cbn [h_wr h_seq set]; [rewrite zlen_set_nat; exact A1|exact A2|].
  intros m Hm. rewrite <- A3 by exact Hm. destruct (Nat.lt_ge_cases n (length (h_wr (b_h s)))) as [Lt|Ge].
  - rewrite BaseFacts.nth_set_nat by exact Lt. destruct (Nat.eqb_spec m n) as [->|]; [contradiction|reflexivity].
  - rewrite set_nat_out by exact Ge. reflexivity.
Qed.
Lemma Ib_inc s : Ib s -> Ib (inc_seq s).
Proof. intros [[A1 A2 A3] B]. split; [|exact B]. unfold inc_seq. cbn [b_h set]. constructor; cbn [h_wr h_seq set]; [exact A1|lia|exact A3]. Qed.
(** a slot whose owner is gone *)
Lemma gone s n : Ib s -> e_probe e (ws_pid (BwMicro.slot s n)) (ws_name (BwMicro.slot s n)) = 0 -> ~ W n.
Proof.
  intros [[_ _ A3] _] P Hn. destruct (HW n Hn) as (_ & x & [_ E] & _ & _ & P'). unfold BwMicro.slot in P. rewrite (A3 n Hn), E in P. contradiction.
Qed.
Lemma free s n : Ib s -> ws_pid (BwMicro.slot s n) = 0 -> ~ W n.
Proof.
  intros [[_ _ A3] _] P Hn. destruct (HW n Hn) as (_ & x & [_ E] & _ & P' & _). unfold BwMicro.slot in P. rewrite (A3 n Hn), E in P. contradiction.
Qed.

Lemma safe_prune ks m : forall n, safe (fun s => Ib s /\ b_ks s = ks) Ib (fun _ s => Ib s /\ b_ks s = ks) (prune_p e m n).
Proof.
  induction m as [|m IH]; intros n; cbn [prune_p]; [apply safe_ret; auto|].
  apply safe_at; [intros s H; apply H|]. intros s s' p' [HI HK] E.
  destruct ((ws_pid (BwMicro.slot s n) =? 0) || negb (e_probe e (ws_pid (BwMicro.slot s n)) (ws_name (BwMicro.slot s n)) =? 0)) eqn:C.
  - apply ok_pair in E. destruct E as [<- <-]. eexists. split; [|apply IH]. split; assumption.
  - apply ok_pair in E. destruct E as [<- <-]. exists (fun s => Ib s /\ b_ks s = ks). split; [split; assumption|].
    apply orb_false_elim in C. destruct C as [_ C]. apply negb_false_iff, Z.eqb_eq in C. pose proof (gone _ _ HI C) as NW.
    apply safe_at; [intros t H; apply H|]. intros t t' p' [TI TK] E. apply ok_pair in E. destruct E as [<- <-].
    exists (fun s => Ib s /\ b_ks s = ks). split; [split; [apply Ib_pid; assumption|exact TK]|].
    apply safe_at; [intros u H; apply H|]. intros u u' p' [UI UK] E. apply ok_pair in E. destruct E as [<- <-].
    eexists. split; [|apply IH]. split; [apply Ib_inc; exact UI|exact UK].
Qed.

(** a connection to the socket registered in slot [i] *)
Definition served (cs : list conn) (i : nat) : Prop :=
  exists k, cn_fd (nth i cs conn0) = Some k /\ cn_name (nth i cs conn0) = ws_name (nth i (h_wr h0) ws_free).
Definition view (cs : list conn) (ks : socks) : Prop := length cs = BW_WAITMAX /\ forall i, conn_ok ks (nth i cs conn0).
Lemma served_sock cs ks i : view cs ks -> kin K L ks0 ks -> W i -> served cs i ->
  exists s, reg i s /\ K s /\ cn_fd (nth i cs conn0) = Some s /\ k_open (sk ks s) = true.
Proof.
  intros [_ V] KN Hw (k & E1 & E2). destruct (HW i Hw) as (_ & s & R & Ks & _). exists s. split; [exact R|]. split; [exact Ks|].
  split; [|apply (kn_open _ _ _ _ KN), Ks]. rewrite E1. f_equal. destruct (V i k E1) as [Lk Nk]. destruct R as [Ls Es]. rewrite Es in E2. cbn [ws_name] in E2.
  apply (ki_names _ (kn_ki _ _ _ _ KN)); [exact Lk|pose proof (kn_len _ _ _ _ KN); lia|]. destruct (kn_id _ _ _ _ KN s Ls) as [-> _]. congruence.
Qed.
Lemma view_set cs ks n c : (n < BW_WAITMAX)%nat -> view cs ks -> conn_ok ks c -> view (set_nat cs n c) ks.
Proof.
  intros Ln [V1 V2] C. split; [rewrite zlen_set_nat; exact V1|]. intros i. rewrite BaseFacts.nth_set_nat by lia. destruct (Nat.eqb_spec i n); [exact C|apply V2].
Qed.
Lemma nth_set_same cs n c : length cs = BW_WAITMAX -> (n < BW_WAITMAX)%nat -> nth n (set_nat cs n c) conn0 = c.
Proof. intros H1 H2. rewrite BaseFacts.nth_set_nat by lia. rewrite Nat.eqb_refl. reflexivity. Qed.
Lemma nth_set_other cs n i (c : conn) : length cs = BW_WAITMAX -> (n < BW_WAITMAX)%nat -> i <> n -> nth i (set_nat cs n c) conn0 = nth i cs conn0.
Proof. intros H1 H2 N. rewrite BaseFacts.nth_set_nat by lia. destruct (Nat.eqb_spec i n); [contradiction|reflexivity]. Qed.

Definition Psync ks lo n cs (s : bks) : Prop :=
  Ib s /\ b_ks s = ks /\ view cs ks /\ lo < h_seq (b_h s) /\ forall i, (i < n)%nat -> W i -> served cs i.
Lemma served_set cs n i c : length cs = BW_WAITMAX -> (n < BW_WAITMAX)%nat -> i <> n -> served cs i -> served (set_nat cs n c) i.
Proof. intros H1 H2 N (k & E1 & E2). exists k. rewrite nth_set_other by assumption. auto. Qed.
Lemma Psync_next ks lo n cs c s : (n < BW_WAITMAX)%nat -> Psync ks lo n cs s -> conn_ok ks c ->
  (W n -> served (set_nat cs n c) n) -> Psync ks lo (S n) (set_nat cs n c) s.
Proof.
  intros Ln (HI & HK & V & HLo & HSv) C HN. split; [exact HI|]. split; [exact HK|]. split; [apply view_set; assumption|]. split; [exact HLo|].
  intros i Hi Hw. destruct (Nat.eq_dec i n) as [->|N]; [apply HN; exact Hw|]. apply served_set; [apply V|exact Ln|exact N|]. apply HSv; [lia|exact Hw].
Qed.
Lemma safe_sync_p ks lo m : forall n cs, (n + m = BW_WAITMAX)%nat ->
  safe (Psync ks lo n cs) Ib (fun x s => Ib s /\ b_ks s = ks /\ view (fst x) ks /\ lo < h_seq (b_h s) /\ (snd x = true -> forall i, W i -> served (fst x) i)) (sync_p e m n cs).
Proof.
  induction m as [|m IH]; intros n cs Hn; cbn [sync_p].
  - apply safe_ret. intros s (HI & HK & V & HLo & HSv). repeat (split; [assumption|]). intros _ i Hw. apply HSv; [|exact Hw]. cbn [fst]. pose proof (proj1 (HW i Hw)). lia.
  - assert (Ln : (n < BW_WAITMAX)%nat) by lia.
    apply safe_at; [intros s H; apply H|]. intros s s' p' HP E. cbv zeta in E. pose proof HP as (HI & HK & V & HLo & HSv).
    set (c0 := nth n cs conn0) in *.
    set (c1 := match cn_fd c0 with Some _ => if (ws_pid (BwMicro.slot s n) =? 0) || negb (ws_name (BwMicro.slot s n) =? cn_name c0) then c0 <| cn_fd := None |> else c0 | None => c0 end) in E.
    assert (H1 : (cn_fd c1 = None) \/ (c1 = c0 /\ ws_name (BwMicro.slot s n) = cn_name c0 /\ exists k, cn_fd c0 = Some k)).
    { unfold c1. destruct (cn_fd c0) as [k|] eqn:Ef; [|left; exact Ef]. destruct (Z.eqb_spec (ws_pid (BwMicro.slot s n)) 0); cbn [orb]; [left; reflexivity|].
      destruct (Z.eqb_spec (ws_name (BwMicro.slot s n)) (cn_name c0)); cbn [negb]; [right; eauto|left; reflexivity]. }
    clearbody c1. rewrite <- HK in *. clear ks HK.
    assert (NONE : forall c, cn_fd c = None -> conn_ok (b_ks s) c) by (intros c Hc k Hk; congruence).
    assert (SL : W n -> ws_name (BwMicro.slot s n) = ws_name (nth n (h_wr h0) ws_free)).
    { intros Hw. unfold BwMicro.slot. destruct HI as [[_ _ A3] _]. rewrite (A3 n Hw). reflexivity. }
    destruct H1 as [Hn0|(-> & Hnm & k & Hk)].
    2: { rewrite Hk in E. apply ok_pair in E. destruct E as [<- <-]. eexists. split; [|apply IH; lia].
         apply Psync_next; [exact Ln|exact HP|apply V|]. intros Hw. exists k. rewrite nth_set_same by (apply V || exact Ln). split; [exact Hk|]. rewrite <- SL by exact Hw. congruence. }
    rewrite Hn0 in E. destruct (Z.eqb_spec (ws_pid (BwMicro.slot s n)) 0) as [Z0|Z0].
    { apply ok_pair in E. destruct E as [<- <-]. eexists. split; [|apply IH; lia].
      apply Psync_next; [exact Ln|exact HP|apply NONE, Hn0|]. intros Hw. elim (free _ _ HI Z0 Hw). }
    set (cn := mkconn None (ws_name (BwMicro.slot s n))) in E.
    assert (FAIL : Ok (s, Ret (set_nat cs n cn, false)) = Ok (s', p') -> exists P', P' s' /\
       safe P' Ib (fun x s1 => Ib s1 /\ b_ks s1 = b_ks s /\ view (fst x) (b_ks s) /\ lo < h_seq (b_h s1) /\ (snd x = true -> forall i, W i -> served (fst x) i)) p').
    { intros E1. apply ok_pair in E1. destruct E1 as [<- <-]. exists (eq s). split; [reflexivity|]. apply safe_ret. intros t <-. cbn [fst snd].
      split; [exact HI|]. split; [reflexivity|]. split; [apply view_set; [exact Ln|exact V|apply NONE; reflexivity]|]. split; [exact HLo|discriminate]. }
    destruct (e_socket e (Z.of_nat n)); cbn [negb] in E; [|apply FAIL; exact E].
    destruct (if e_connect e (Z.of_nat n) then sk_lookup (b_ks s) (ws_name (BwMicro.slot s n)) else None) as [k|] eqn:LK.
    { destruct (e_connect e (Z.of_nat n)); [|discriminate LK]. apply sk_lookup_some in LK. destruct LK as (L1 & L2 & L3).
      apply ok_pair in E. destruct E as [<- <-]. eexists. split; [|apply IH; lia].
      apply Psync_next; [exact Ln|exact HP|intros k' Hk'; injection Hk' as <-; auto|]. intros Hw. exists k. rewrite nth_set_same by (apply V || exact Ln). cbn [cn_fd cn_name]. auto. }
    destruct (Z.eqb_spec (e_probe e (ws_pid (BwMicro.slot s n)) (ws_name (BwMicro.slot s n))) 0) as [P0|P0]; [|apply FAIL; exact E].
    pose proof (gone _ _ HI P0) as NW. apply ok_pair in E. destruct E as [<- <-]. exists (Psync (b_ks s) lo n cs). split; [exact HP|].
    apply safe_at; [intros t H; apply H|]. intros t t' p' TP E. apply ok_pair in E. destruct E as [<- <-].
    exists (Psync (b_ks s) lo n cs). destruct TP as (TI & TK & TR). split; [split; [apply Ib_pid; assumption|]; split; [exact TK|exact TR]|].
    clear TI TK TR. apply safe_at; [intros u H; apply H|]. intros u u' p' UP E. apply ok_pair in E. destruct E as [<- <-].
    eexists. split; [|apply IH; lia]. apply Psync_next; [exact Ln| |apply NONE; reflexivity|intros Hw; contradiction].
    destruct UP as (UI & UK & UV & UL & US). split; [apply Ib_inc; exact UI|]. split; [exact UK|]. split; [exact UV|]. split; [|exact US].
    unfold inc_seq. cbn [b_h h_seq set]. lia.
Qed.

(** a waker's own view of the handle *)
Definition wkr (q : Z) (cs : list conn) (s : bks) : Prop :=
  view cs (b_ks s) /\ q <= h_seq (b_h s) /\ (q = h_seq (b_h s) -> forall i, W i -> served cs i).
Lemma safe_sync ks q cs : safe (fun s => Ib s /\ b_ks s = ks /\ wkr q cs s) Ib
  (fun x s => let '(q', cs', ok) := x in Ib s /\ b_ks s = ks /\ wkr q' cs' s /\ (ok = true -> forall i, W i -> served cs' i)) (bw_sync_p e q cs).
Proof.
  unfold bw_sync_p. apply safe_at; [intros s H; apply H|]. intros s s' p' (HI & HK & V & Hq & HSv) E.
  destruct (Z.eqb_spec q (h_seq (b_h s))) as [Eq|Nq]; apply ok_pair in E; destruct E as [<- <-].
  - exists (eq s). split; [reflexivity|]. apply safe_ret. intros t <-. split; [exact HI|]. split; [exact HK|]. split; [|auto]. split; [exact V|]. split; [exact Hq|exact HSv].
  - exists (Psync ks q O cs). split.
    { split; [exact HI|]. split; [exact HK|]. split; [rewrite <- HK; exact V|]. split; [lia|]. intros i Hi. lia. }
    eapply safe_bind; [apply safe_sync_p; reflexivity|]. intros [cs' ok]. cbn [fst snd]. destruct ok.
    + apply safe_at; [intros t H; apply H|]. intros t t' p' (TI & TK & TV & TL & TS) E. apply ok_pair in E. destruct E as [<- <-].
      exists (eq t). split; [reflexivity|]. apply safe_ret. intros u <-. split; [exact TI|]. split; [exact TK|]. split; [|intros _; apply TS; reflexivity].
      split; [rewrite TK; exact TV|]. split; [lia|intros _; apply TS; reflexivity].
    + apply safe_ret. intros t (TI & TK & TV & TL & TS). split; [exact TI|]. split; [exact TK|]. split; [|discriminate]. split; [rewrite TK; exact TV|]. split; [lia|]. intros E. lia.
Qed.

(** slot [i]'s socket has a wake-up *)
Definition rung (ks : socks) (i : nat) : Prop := forall s, reg i s -> 0 < k_pend (sk ks s).
Lemma kin_bump ks k : (k < length ks)%nat -> kin K L ks0 ks -> kin K L ks0 (sk_upd ks k (fun x => x <| k_pend := k_pend x + 1 |>)).
Proof.
  intros Lk [A1 A2 A3 A4 A5]. pose proof (up_bump ks k Lk) as [U1 U2 U3 U4 U5 U6]. constructor.
  - apply (up_KI ks); [constructor; assumption|exact A1].
  - lia.
  - intros s Ls. rewrite U2, U3. apply A3, Ls.
  - intros s Hs. rewrite U4. apply A4, Hs.
  - intros s Hs. specialize (A5 s Hs). specialize (U6 s). lia.
Qed.
Lemma view_len ks ks' cs : length ks' = length ks -> (forall s, k_name (sk ks' s) = k_name (sk ks s)) -> view cs ks -> view cs ks'.
Proof. intros H1 H2 [V1 V2]. split; [exact V1|]. intros i k Hk. rewrite H1, H2. apply V2. exact Hk. Qed.
Definition Pwake q n cs (s : bks) : Prop :=
  Ib s /\ view cs (b_ks s) /\ q <= h_seq (b_h s) /\ (forall i, W i -> served cs i) /\ (forall i, (i < n)%nat -> W i -> rung (b_ks s) i).
Lemma safe_wake_p q m : forall n cs, (n + m = BW_WAITMAX)%nat ->
  safe (Pwake q n cs) Ib (fun cs' s => Ib s /\ wkr q cs' s /\ forall i, W i -> rung (b_ks s) i) (wake_p e m n cs).
Proof.
  induction m as [|m IH]; intros n cs Hn; cbn [wake_p].
  - apply safe_ret. intros s (HI & V & Hq & HSv & HR). split; [exact HI|]. split; [split; [exact V|]; split; [exact Hq|intros _; exact HSv]|].
    intros i Hw. apply HR; [|exact Hw]. pose proof (proj1 (HW i Hw)). lia.
  - assert (Ln : (n < BW_WAITMAX)%nat) by lia.
    apply safe_at; [intros s H; apply H|]. intros s s' p' HP E. cbv zeta in E. pose proof HP as (HI & V & Hq & HSv & HR).
    assert (HK : kin K L ks0 (b_ks s)) by apply HI.
    destruct (cn_fd (nth n cs conn0)) as [k|] eqn:Ek.
    2: { apply ok_pair in E. destruct E as [<- <-]. eexists. split; [|apply IH; lia]. split; [exact HI|]. split; [exact V|]. split; [exact Hq|]. split; [exact HSv|].
         intros i Hi Hw. destruct (Nat.eq_dec i n) as [->|N]; [|apply HR; [lia|exact Hw]]. destruct (HSv n Hw) as (k & Ek' & _). congruence. }
    rewrite HS, andb_true_r in E. destruct (proj2 V n k Ek) as [Lk Nk].
    destruct (k_open (sk (b_ks s) k)) eqn:Ko.
    + assert (OWN : W n -> reg n k -> True) by auto.
      assert (ME : W n -> forall x, reg n x -> x = k).
      { intros Hw x Rx. destruct (served_sock cs (b_ks s) n V HK Hw (HSv n Hw)) as (y & Ry & _ & Ey & _). assert (y = k) as -> by congruence.
        destruct Rx as [Lx Ex], Ry as [Ly Ey']. rewrite Ex in Ey'. injection Ey' as _ En.
        apply (ki_names _ (kn_ki _ _ _ _ HK)); [pose proof (kn_len _ _ _ _ HK); lia|pose proof (kn_len _ _ _ _ HK); lia|].
        destruct (kn_id _ _ _ _ HK x Lx) as [-> _]. destruct (kn_id _ _ _ _ HK k Ly) as [-> _]. exact En. }
      apply ok_pair in E. destruct E as [<- <-]. exists (Pwake q (S n) cs). split; [|apply IH; lia].
      destruct (Z.ltb_spec (k_pend (sk (b_ks s) k)) (k_cap (sk (b_ks s) k))) as [C|C].
      * pose proof (up_bump (b_ks s) k Lk) as U. split; [split; [apply HI|apply kin_bump; assumption]|]. cbn [b_ks b_h set]. split; [apply (view_len (b_ks s)); [apply U|apply U|exact V]|].
        split; [exact Hq|]. split; [exact HSv|]. intros i Hi Hw x Rx. destruct (Nat.eq_dec i n) as [->|N].
        -- rewrite (ME Hw x Rx), sk_upd_same by exact Lk. cbn [k_pend set]. pose proof (ki_pend _ (kn_ki _ _ _ _ HK) k). lia.
        -- apply Z.lt_le_trans with (1 := HR i ltac:(lia) Hw x Rx). apply (up_pend _ _ U x).
      * split; [exact HI|]. split; [exact V|]. split; [exact Hq|]. split; [exact HSv|]. intros i Hi Hw x Rx. destruct (Nat.eq_dec i n) as [->|N].
        -- rewrite (ME Hw x Rx). pose proof (ki_cap _ (kn_ki _ _ _ _ HK) k). lia.
        -- apply (HR i); [lia|exact Hw|exact Rx].
    + assert (NW : ~ W n).
      { intros Hw. destruct (served_sock cs (b_ks s) n V HK Hw (HSv n Hw)) as (y & _ & _ & Ey & Oy). congruence. }
      apply ok_pair in E. destruct E as [<- <-]. set (cs1 := set_nat cs n (nth n cs conn0 <| cn_fd := None |>)).
      assert (P1 : Pwake q (S n) cs1 s).
      { split; [exact HI|]. split; [apply view_set; [exact Ln|exact V|intros j Hj; discriminate]|]. split; [exact Hq|].
        split; [intros i Hw; apply served_set; [apply V|exact Ln|congruence|apply HSv; exact Hw]|].
        intros i Hi Hw. apply HR; [|exact Hw]. assert (i <> n) by congruence. lia. }
      exists (Pwake q (S n) cs1). split; [exact P1|]. clear HP HI V Hq HSv HR HK Ek Lk Nk Ko P1.
      apply safe_at; [intros t H; apply H|]. intros t t' p' TP E. apply ok_pair in E. destruct E as [<- <-].
      exists (Pwake q (S n) cs1). destruct TP as (TI & TV & TQ & TR). split.
      { split; [apply Ib_inc; exact TI|]. split; [exact TV|]. split; [|exact TR]. unfold inc_seq. cbn [b_h h_seq set]. lia. }
      clear TI TV TQ TR. apply safe_at; [intros u H; apply H|]. intros u u' p' (UI & UR) E. apply ok_pair in E. destruct E as [<- <-].
      exists (Pwake q (S n) cs1). split; [|apply IH; lia]. split; [apply Ib_pid; assumption|exact UR].
Qed.

Lemma safe_wake q cs : safe (fun s => Ib s /\ wkr q cs s) Ib
  (fun x s => Ib s /\ exists q' cs', fst x = Wake q' cs' /\ wkr q' cs' s /\ (snd x = true -> forall i, W i -> rung (b_ks s) i)) (bw_wake_p e (Wake q cs)).
Proof.
  assert (G : forall ks, safe (fun s => Ib s /\ b_ks s = ks /\ wkr q cs s) Ib
    (fun x s => Ib s /\ exists q' cs', fst x = Wake q' cs' /\ wkr q' cs' s /\ (snd x = true -> forall i, W i -> rung (b_ks s) i)) (bw_wake_p e (Wake q cs))).
  { intros ks. unfold bw_wake_p. eapply safe_bind; [apply safe_sync|]. intros [[q' cs'] ok]. destruct ok.
    - eapply safe_bind.
      + eapply safe_pre; [|intros x s H; exact H|apply (safe_wake_p q' _ O cs'); reflexivity].
        intros s H. destruct H as (HI & HK & (V & Hq & _) & HSv). split; [exact HI|]. split; [exact V|]. split; [exact Hq|]. split; [apply HSv; reflexivity|]. intros i Hi. lia.
      + intros cs2. apply safe_ret. intros s (HI & HV & HR). split; [exact HI|]. exists q', cs2. cbn [fst snd]. auto.
    - apply safe_ret. intros s (HI & HK & HV & _). split; [exact HI|]. exists q', cs'. cbn [fst snd]. split; [reflexivity|]. split; [exact HV|discriminate].
  }
  intros s [HI HK]. apply (G (b_ks s) s). auto.
Qed.

(** opening a handle to wait on *)
Lemma kin_app ks x : (forall s, (s < length ks)%nat -> k_name (sk ks s) <> k_name x) -> 1 <= k_cap x -> 0 <= k_pend x ->
  (forall s, K s -> (s < length ks0)%nat) -> (forall s, L s -> (s < length ks0)%nat) -> kin K L ks0 ks -> kin K L ks0 (ks ++ [x]).
Proof.
  intros H1 H2 H3 H4 H5 [A1 A2 A3 A4 A5]. constructor.
  - apply KI_app; assumption.
  - rewrite app_length. lia.
  - intros s Ls. rewrite sk_app1 by lia. apply A3, Ls.
  - intros s Hs. rewrite sk_app1 by (specialize (H4 s Hs); lia). apply A4, Hs.
  - intros s Hs. rewrite sk_app1 by (specialize (H5 s Hs); lia). apply A5, Hs.
Qed.
Lemma kin_close ks x : ~ K x -> kin K L ks0 ks -> kin K L ks0 (sk_upd ks x (fun y => y <| k_open := false |>)).
Proof.
  intros N [A1 A2 A3 A4 A5]. destruct (close_old ks h0 O x [] _ _ eq_refl) as (D1 & D2 & D3 & _ & _ & D6). constructor.
  - apply D3, A1.
  - lia.
  - intros s Ls. destruct (D6 s) as (-> & -> & _). apply A3, Ls.
  - intros s Hs. rewrite D2 by (intros ->; contradiction). apply A4, Hs.
  - intros s Hs. destruct (D6 s) as (_ & _ & ->). apply A5, Hs.
Qed.
Lemma kin_pend_upd ks x v : ~ L x -> 0 <= v -> kin K L ks0 ks -> kin K L ks0 (sk_upd ks x (fun y => y <| k_pend := v |>)).
Proof.
  intros N Hv [A1 A2 A3 A4 A5]. destruct (sim_upd ks x v A1 Hv) as [S1 S2]. constructor.
  - apply (sim_KI ks); [split; assumption|exact A1].
  - lia.
  - intros s Ls. destruct (S2 s) as (-> & -> & _). apply A3, Ls.
  - intros s Hs. destruct (S2 s) as (_ & _ & -> & _). apply A4, Hs.
  - intros s Hs. rewrite sk_upd_other by (intros ->; contradiction). apply A5, Hs.
Qed.

Hypothesis HK0 : forall s, K s -> (s < length ks0)%nat.
Hypothesis HL0 : forall s, L s -> (s < length ks0)%nat.
Definition opened pid name (o : option bwt) (s : bks) : Prop := forall b, o = Some b -> exists n, b = Wait n (length ks0) [] /\ (n < BW_WAITMAX)%nat /\ ~ W n
  /\ h_seq h0 < h_seq (b_h s) /\ BwMicro.slot s n = mkws pid name
  /\ b_ks s = ks0 ++ [mksock name pid true 0 (Z.max 1 (e_cap e))].
Lemma safe_open_wait pid name : (forall s, (s < length ks0)%nat -> k_name (sk ks0 s) <> name) ->
  safe (fun s => Ib s /\ b_ks s = ks0) Ib
  (fun o s => Ib s /\ (exists l, b_ks s = ks0 ++ l) /\ opened pid name o s) (bw_open_wait_p e pid name).
Proof.
  intros NN. unfold bw_open_wait_p.
  assert (EX : forall s, b_ks s = ks0 -> exists l, b_ks s = ks0 ++ l) by (intros s ->; exists []; rewrite app_nil_r; reflexivity).
  assert (NO : forall P : bks -> Prop, (forall s, P s -> Ib s /\ exists l, b_ks s = ks0 ++ l) ->
    safe P Ib (fun o s => Ib s /\ (exists l, b_ks s = ks0 ++ l) /\ opened pid name o s) (Ret None)).
  { intros P H. apply safe_ret. intros s Hs. destruct (H s Hs) as [H1 H2]. split; [exact H1|]. split; [exact H2|]. intros b Eb. discriminate. }
  destruct (e_alloc e); cbn [negb]; [|apply NO; intros s [H1 H2]; auto].
  eapply safe_bind; [apply (safe_prune ks0)|]. intros u0. cbv beta. apply safe_at; [intros s H; apply H|]. intros s s' p' [HI HK] E.
  destruct (find_free (h_wr (b_h s)) 0) as [n|] eqn:F.
  2: { apply ok_pair in E. destruct E as [<- <-]. exists (eq s). split; [reflexivity|]. apply NO. intros t <-. auto. }
  destruct (if e_bind e then sk_lookup (b_ks s) name else Some O) as [y|] eqn:Lk.
  { apply ok_pair in E. destruct E as [<- <-]. exists (eq s). split; [reflexivity|]. apply NO. intros t <-. auto. }
  clear Lk. apply find_free_some in F. rewrite Nat.sub_0_r in F. destruct F as (_ & F2 & F3).
  pose proof (free s n HI F3) as NW. assert (Ln : (n < BW_WAITMAX)%nat) by (rewrite <- HL, <- (gr_len _ _ _ (proj1 HI)); exact F2).
  cbv zeta in E. rewrite HK in E. apply ok_pair in E. destruct E as [<- <-]. set (x := mksock name pid true 0 (Z.max 1 (e_cap e))).
  set (P1 := fun s => Ib s /\ b_ks s = ks0 ++ [x]).
  exists P1. split.
  { split; [|reflexivity]. split; [apply HI|]. cbn [b_ks set]. apply kin_app; [intros t Lt; cbn [k_name x]; apply NN; exact Lt|cbn; lia|cbn; lia|exact HK0|exact HL0|]. rewrite <- HK at 2. apply HI. }
  clear s HI HK F2 F3. assert (LEN : forall s, Ib s -> (n < length (h_wr (b_h s)))%nat) by (intros s [[A1 _ _] _]; rewrite A1, HL; exact Ln).
  apply safe_at; [intros s H; apply H|]. intros s s' p' [HI HK] E. apply ok_pair in E. destruct E as [<- <-].
  exists (fun s => P1 s /\ ws_name (BwMicro.slot s n) = name). split.
  { split; [split; [apply Ib_name; assumption|exact HK]|]. unfold BwMicro.slot, set_name. cbn [b_h h_wr set]. rewrite BaseFacts.nth_set_nat, Nat.eqb_refl by (apply LEN; exact HI). reflexivity. }
  clear s HI HK. apply safe_at; [intros s H; apply H|]. intros s s' p' [[HI HK] Hn] E. apply ok_pair in E. destruct E as [<- <-].
  exists (fun s => P1 s /\ BwMicro.slot s n = mkws pid name). split.
  { split; [split; [apply Ib_pid; assumption|exact HK]|]. unfold set_pid. unfold BwMicro.slot at 1. cbn [b_h h_wr set]. rewrite BaseFacts.nth_set_nat, Nat.eqb_refl by (apply LEN; exact HI). 
    destruct (BwMicro.slot s n) as [a b]. cbn in Hn. subst b. reflexivity. }
  clear s HI HK Hn. apply safe_at; [intros s H; apply H|]. intros s s' p' [[HI HK] Hn] E. apply ok_pair in E. destruct E as [<- <-].
  assert (Q : Ib (inc_seq s) /\ b_ks (inc_seq s) = ks0 ++ [x] /\ h_seq h0 < h_seq (b_h (inc_seq s)) /\ BwMicro.slot (inc_seq s) n = mkws pid name).
  { split; [apply Ib_inc; exact HI|]. split; [exact HK|]. split; [|exact Hn]. pose proof (gr_seq _ _ _ (proj1 HI)). unfold inc_seq. cbn [b_h h_seq set]. lia. }
  destruct Q as (Q1 & Q2 & Q3 & Q4). set (t := inc_seq s) in *. clearbody t. clear s HI HK Hn.
  destruct (e_self e).
  - exists (eq t). split; [reflexivity|]. apply safe_ret. intros u <-. split; [exact Q1|]. split; [eauto|]. intros b Eb. injection Eb as <-. exists n. auto 7.
  - exists P1. split; [split; assumption|]. clear t Q1 Q2 Q3 Q4.
    apply safe_at; [intros s H; apply H|]. intros s s' p' [HI HK] E. apply ok_pair in E. destruct E as [<- <-].
    exists P1. split; [split; [apply Ib_pid; assumption|exact HK]|]. clear s HI HK.
    apply safe_at; [intros s H; apply H|]. intros s s' p' [HI HK] E. apply ok_pair in E. destruct E as [<- <-].
    exists (fun s => Ib s /\ exists l, b_ks s = ks0 ++ l). split; [|apply NO; auto].
    cbn [b_ks set]. split.
    + split; [apply HI|]. cbn [b_ks set]. apply kin_close; [|apply HI]. intros Hk. apply HK0 in Hk. lia.
    + rewrite HK, sk_upd_last. eauto.
Qed.
Lemma safe_open_wake ks : 0 <= h_seq h0 -> safe (fun s => Ib s /\ b_ks s = ks) Ib
  (fun o s => Ib s /\ b_ks s = ks /\ forall b, o = Some b -> exists q cs, b = Wake q cs /\ wkr q cs s) (bw_open_wake_p e).
Proof.
  intros S0. unfold bw_open_wake_p. destruct (e_alloc e); cbn [negb].
  2: { apply safe_ret. intros s [H1 H2]. split; [exact H1|]. split; [exact H2|discriminate]. }
  eapply safe_bind; [apply (safe_prune ks)|]. intros u0. cbv beta. eapply safe_bind.
  - eapply safe_pre; [|intros x s H; exact H|apply (safe_sync ks)]. intros s [HI HK]. split; [exact HI|]. split; [exact HK|].
    pose proof (gr_seq _ _ _ (proj1 HI)). split; [split; [apply repeat_length|intros i k; rewrite repeat_nth; discriminate]|]. split; [lia|]. intros Q. lia.
  - intros [[q cs] ok]. apply safe_ret. intros s (HI & HK & HV & _). split; [exact HI|]. split; [exact HK|]. destruct ok; [|discriminate].
    intros b Eb. injection Eb as <-. eauto.
Qed.
Lemma safe_force n x p want : ~ L x -> safe Ib Ib (fun _ s => Ib s) (bw_force_p e (Wait n x p) want).
Proof.
  intros NL. unfold bw_force_p. destruct (e_force e); cbn [negb]; [|apply safe_ret; auto].
  apply safe_at; [auto|]. intros s s' p' HI E. apply ok_pair in E. destruct E as [<- <-]. exists Ib. split; [|apply safe_ret; auto].
  assert (G : forall v, 0 <= v -> Ib (s <| b_ks := sk_upd (b_ks s) x (fun y => y <| k_pend := v |>) |>)).
  { intros v Hv. split; [apply HI|]. cbn [b_ks set]. apply kin_pend_upd; [exact NL|exact Hv|apply HI]. }
  pose proof (ki_pend _ (kn_ki _ _ _ _ (proj2 HI)) x) as P0.
  destruct (negb want && _); [apply G; lia|]. destruct (want && _); [|exact HI].
  rewrite (sk_upd_ext _ _ _ (fun y => y <| k_pend := k_pend (sk (b_ks s) x) + 1 |>)) by reflexivity. apply G. lia.
Qed.
Lemma safe_close n x p : ~ W n -> ~ K x -> safe Ib Ib (fun _ s => Ib s) (bw_close_p (Wait n x p)).
Proof.
  intros NW NK. unfold bw_close_p.
  apply safe_at; [auto|]. intros s s' p' HI E. apply ok_pair in E. destruct E as [<- <-]. exists Ib. split; [split; [apply HI|apply kin_close; [exact NK|apply HI]]|].
  clear s HI. apply safe_at; [auto|]. intros s s' p' HI E. apply ok_pair in E. destruct E as [<- <-]. exists Ib. split; [apply Ib_pid; assumption|].
  clear s HI. apply safe_at; [auto|]. intros s s' p' HI E. apply ok_pair in E. destruct E as [<- <-]. exists Ib. split; [apply Ib_inc; exact HI|].
  apply safe_ret. auto.
Qed.
End Bw.
