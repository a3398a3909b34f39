(** * C88, C89: pub, sub and tee between rings. *)
From Verif Require Export RelaySpec Pipe.
From Verif Require Import ToolFacts5 ToolFacts4 ToolFacts.
Local Open Scope Z_scope.
Local Open Scope list_scope.

(** ** the publisher *)
Lemma messages_app a b : messages (a ++ b) = messages a ++ messages b.
Proof. apply flat_map_app. Qed.
Lemma pub_gets_all t : messages (pub_gets t) = read_all t.
Proof.
  induction t as [|i t IH]; [reflexivity|]. cbn [pub_gets read_all flat_map]. fold (pub_gets t) (read_all t). rewrite messages_app, IH.
  destruct (pi_ev i) as [| |[m|]|]; try reflexivity. cbn. rewrite app_nil_r. reflexivity.
Qed.
Theorem relay_pub r w evs a p t s hand : reach contract r w evs -> publishing a p evs t s hand ->
  delivered_to a evs = read_all t ++ messages hand.
Proof.
  intros R [PR PO PG PH P1]. destruct (reach_pipe _ _ _ R) as [_ G]. rewrite (delivered_returned a evs G P1). fold (reads_of a evs).
  rewrite PG, messages_app, pub_gets_all. reflexivity.
Qed.
Lemma read_for_in c t m : In m (read_for c t) -> In m (read_all t) /\ zlen m <> 0.
Proof.
  unfold read_for, read_all. intros I. apply in_flat_map in I. destruct I as (i & I & M). apply filter_In in I. destruct I as [I _]. split; [apply in_flat_map; eauto|].
  destruct (pi_ev i) as [| |[m'|]|]; try destruct M. destruct (zlen m' =? 0) eqn:Z0; [destruct M|]. destruct M as [<-|[]]. lia.
Qed.

(** ** the subscriber *)
Lemma sub_calls_prefix : forall ks buf x ws b, subscribe (fun _ => true) buf x ks = Ok (ws, b, true) -> forall vs l st, sub_calls vs buf x ks = Ok (l, st) ->
  exists good bad rest, l = good ++ bad /\ Forall (fun p => 0 <= snd p) good /\ (bad = [] \/ exists iov v, bad = [(iov, v)] /\ v < 0)
    /\ ws = map fst good ++ map fst bad ++ rest /\ ((exists buf', st = SubWaits buf') -> bad = [] /\ rest = []).
Proof.
  induction ks as [|k ks IH]; intros buf x ws b S vs l st H; cbn [subscribe sub_calls] in S, H.
  - injection S as <- <-. injection H as <- <-. exists [], [], []. repeat split; auto.
  - destruct (zlen x =? 0).
    { injection S as <- <-. injection H as <- <-. exists [], [], []. repeat split; auto. }
    destruct (do_subscriber (fun _ => true) buf x k) as [[[[[ms|] buf'] x']|]| | |]; cbn [obind] in S, H; try discriminate.
    + destruct (subscribe (fun _ => true) buf' x' ks) as [[[ws' b'] up]| | |] eqn:S'; cbn [obind] in S; try discriminate. injection S as <- <- ->.
      destruct vs as [|v vs].
      * injection H as <- <-. exists [], [], (ms :: ws'). split; [reflexivity|]. split; [constructor|]. split; [left; reflexivity|]. split; [reflexivity|]. intros [? X]. discriminate.
      * destruct (v <? 0) eqn:V.
        -- injection H as <- <-. exists [], [(ms, v)], ws'. split; [reflexivity|]. split; [constructor|]. split; [right; exists ms, v; split; [reflexivity|lia]|]. split; [reflexivity|]. intros [? X]. discriminate.
        -- destruct (sub_calls vs buf' x' ks) as [[l' st']| | |] eqn:C; cbn [obind] in H; try discriminate. injection H as <- <-.
           destruct (IH _ _ _ _ S' _ _ _ C) as (good & bad & rest & -> & G & B & -> & W). exists ((ms, v) :: good), bad, rest. split; [reflexivity|].
           split; [constructor; [cbn; lia|exact G]|]. auto.
    + destruct (subscribe (fun _ => true) buf' x' ks) as [[[ws' b'] up]| | |] eqn:S'; cbn [obind] in S; try discriminate. injection S as <- <- ->.
      exact (IH _ _ _ _ S' _ _ _ H).
Qed.
Lemma writes_wrets c evs : writes_of c evs = wrets c evs. Proof. reflexivity. Qed.
(** what has entered the ring of a blocking, unbuffered writer *)
Lemma writer_commit r w evs c good bad : reach contract r w evs -> In (EOpen SHR_WRONLY (Some c)) evs -> writes_of c evs = good ++ bad ->
  Forall (fun p => 0 <= snd p) good -> (bad = [] \/ exists iov v, bad = [(iov, v)] /\ v < 0) ->
  committed_by c evs = concat (map fst good) \/ (exists iov v, bad = [(iov, v)] /\ committed_by c evs = concat (map fst good) ++ iov).
Proof.
  intros R OE E G B. destruct (reach_pipe _ _ _ R) as [WVc _]. destruct (proj2 (WVc c) _ OE) as (_ & _ & AK). destruct (AK eq_refl eq_refl) as [AKS _].
  rewrite <- writes_wrets, E in AKS. destruct B as [->|(iov & v & -> & V)].
  - rewrite app_nil_r in AKS. left. apply acks_good; assumption.
  - destruct (acks_last _ _ _ AKS G) as [X|X]; [left; exact X|right]. exists iov, v. auto.
Qed.
Theorem relay_sub r w evs b x ks st ms y : reach contract r w evs -> subscribing b evs x ks st -> Forall ToolSpec.fits ms -> x ++ y = frames ms ->
  prefix_of (committed_by b evs) ms /\ (caught_up x ks st -> y = [] -> committed_by b evs = ms).
Proof.
  intros R [SR SO _] F E. destruct (t_sub ms x y ks F E) as (ws & bf & later & S & M & N & T).
  destruct (sub_calls_prefix _ _ _ _ _ S _ _ _ SR) as (good & bad & rest & L & G & B & W & Q).
  pose proof (writer_commit _ _ _ _ _ _ R SO L G B) as C. rewrite M, W, !concat_app. split.
  - destruct C as [->|(iov & v & -> & ->)]; [eexists; rewrite <- app_assoc; reflexivity|]. exists (concat rest ++ later). cbn. rewrite app_nil_r, <- !app_assoc. reflexivity.
  - intros [SW LE] ->. destruct (Q SW) as [-> ->]. destruct C as [->|(iov & v & X & _)]; [|discriminate]. cbn. rewrite !app_nil_r in *. subst ws.
    destruct (T LE) as [T1 T2]. destruct later as [|m later]; [rewrite app_nil_r; reflexivity|]. exfalso.
    rewrite E, M, frames_app in T1. apply app_inv_head in T1. rewrite <- T1, frames_cons, zlen_app in T2. pose proof (zlen_nonneg (frames later)). lia.
Qed.

(** ** from ring to ring *)
Lemma split_seq {A} (f : nat -> list A) n c : (c < n)%nat ->
  concat (map f (seq 0 n)) = concat (map f (seq 0 c)) ++ f c ++ concat (map f (seq (S c) (n - S c))).
Proof.
  intros L. replace n with (c + S (n - S c))%nat at 1 by lia. rewrite seq_app, map_app, concat_app. cbn [plus seq map concat]. reflexivity.
Qed.
Theorem relay ra wa evsa a t s hand rb wb evsb b x y ks st c : reach contract ra wa evsa -> reach contract rb wb evsb ->
  publishing a true evsa t s hand -> (c < p_conns s)%nat -> sent_to c t = x ++ y -> Forall ToolSpec.fits (read_for c t) -> subscribing b evsb x ks st ->
  exists before after, delivered_to a evsa = before ++ committed_by b evsb ++ after /\ (c = O -> before = [])
    /\ (hand = [] -> p_fd s = Some c -> y = [] -> caught_up x ks st -> after = []).
Proof.
  intros RA RB PB LC SX F SB. pose proof (relay_pub _ _ _ _ _ _ _ _ RA PB) as D. pose proof (pb_run _ _ _ _ _ _ PB) as PR.
  pose proof (pub_inv _ _ _ PR) as I. destruct (pu_any _ _ _ I c) as (whole & last & part & rest & D1 & _ & D3 & D4).
  assert (X : x ++ (y ++ rest) = frames (read_for c t)). { rewrite app_assoc, <- SX, D3, <- app_assoc, <- D4, D1. symmetry. apply (wire_app true). }
  destruct (relay_sub _ _ _ _ _ _ _ _ _ RB SB F X) as [[tl PF] FULL].
  rewrite (pu_all _ _ _ I), (split_seq _ _ _ LC) in D.
  exists (concat (map (fun d => read_for d t) (seq 0 c))), (tl ++ concat (map (fun d => read_for d t) (seq (S c) (p_conns s - S c))) ++ messages hand). split; [|split].
  - rewrite D, PF, <- !app_assoc. reflexivity.
  - intros ->. reflexivity.
  - intros -> FD -> CU. destruct (pu_now _ _ _ I c FD) as (_ & NOW & LATER).
    assert (rest = []). { rewrite app_nil_r in SX. rewrite <- SX, NOW in X. cbn [wire app] in X. rewrite <- (app_nil_r (frames (read_for c t))) in X at 2. apply app_inv_head in X. exact X. }
    subst rest. specialize (FULL CU eq_refl). rewrite FULL in PF. rewrite <- (app_nil_r (read_for c t)) in PF at 1. apply app_inv_head in PF. subst tl. cbn [app messages flat_map]. rewrite app_nil_r.
    assert (GEN : forall l, (forall d, In d l -> (c < d)%nat) -> concat (map (fun d => read_for d t) l) = []).
    { induction l as [|d l IH]; intros H; [reflexivity|]. cbn. rewrite (proj1 (LATER d (H d (or_introl eq_refl)))). apply IH. intros e He. apply H. right. exact He. }
    apply GEN. intros d Hd. apply in_seq in Hd. lia.
Qed.

(** ** from shr-tool write on one ring to shr-tool read on the other *)
Lemma sublist_in {A} (a b : list A) x : sublist a b -> In x a -> In x b.
Proof. induction 1; cbn; tauto. Qed.
Lemma line_fits ra wa evsa cw osw ring rest ls fw tw nw xw a t s hand c : reach contract ra wa evsa ->
  attached cw (tool KWrite osw (ring :: rest) (text ls) fw) evsa tw nw xw -> Forall line_ok ls -> sole_writer cw evsa ->
  publishing a true evsa t s hand -> (r_farm ra = true -> c_live (cli wa a) = true) -> Forall ToolSpec.fits (read_for c t).
Proof.
  intros RA AW O SW PB LV. apply Forall_forall. intros m I. apply read_for_in in I. destruct I as [I NZ].
  assert (I1 : In m ls).
  { destruct (pipe_write _ _ _ _ _ _ _ _ _ _ _ _ RA AW O) as ([tl PW] & _). rewrite PW. apply in_or_app. left. rewrite <- (sole_committed _ _ SW).
    eapply sublist_in; [apply (delivered_of_committed _ _ _ a RA LV)|]. rewrite (relay_pub _ _ _ _ _ _ _ _ RA PB). apply in_or_app. left. exact I. }
  rewrite Forall_forall in O. destruct (O m I1) as (_ & _ & L). pose proof (zlen_nonneg m). unfold ToolSpec.fits, BUFLEN. lia.
Qed.
Theorem relay_any ra wa evsa cw osw ring rest ls fw tw nw xw a t s hand c x y ks st rb wb evsb b cr osr pos stdin fr tr nr xr :
  reach contract ra wa evsa -> attached cw (tool KWrite osw (ring :: rest) (text ls) fw) evsa tw nw xw -> Forall line_ok ls -> sole_writer cw evsa ->
  publishing a true evsa t s hand -> (r_farm ra = true -> c_live (cli wa a) = true) -> (c < p_conns s)%nat -> sent_to c t = x ++ y ->
  reach contract rb wb evsb -> subscribing b evsb x ks st -> sole_writer b evsb ->
  attached cr (tool KRead osr pos stdin fr) evsb tr nr xr -> (r_farm rb = true -> c_live (cli wb cr) = true) ->
  sublist (MainSpec.shown tr) ls.
Proof.
  intros RA AW O SW PB LA LC SX RB SB SWB AR LB.
  destruct (relay _ _ _ _ _ _ _ _ _ _ _ _ _ _ _ _ RA RB PB LC SX (line_fits _ _ _ _ _ _ _ _ _ _ _ _ _ _ _ _ c RA AW O SW PB LA) SB) as (bf & af & E & _).
  destruct (pipe_write _ _ _ _ _ _ _ _ _ _ _ _ RA AW O) as (PW & _). destruct (pipe_read _ _ _ _ _ _ _ _ _ _ _ RB AR) as [PR _].
  eapply sublist_trans; [apply prefix_sublist; exact PW|]. rewrite <- (sole_committed _ _ SW).
  eapply sublist_trans; [apply (delivered_of_committed _ _ _ a RA LA)|]. rewrite E.
  assert (SKIP : forall l m : list bytes, sublist m l -> forall k, sublist m (k ++ l)) by (clear; intros l m H k; induction k; [exact H|constructor; assumption]).
  apply SKIP. eapply sublist_trans; [apply prefix_sublist; exists af; reflexivity|]. rewrite <- (sole_committed _ _ SWB).
  eapply sublist_trans; [apply (delivered_of_committed _ _ _ cr RB LB)|apply prefix_sublist; exact PR].
Qed.
Theorem relay_through ra wa evsa cw osw ring rest ls fw tw nw xw a t s hand x y ks st rb wb evsb b cr osr pos stdin fr tr nr xr :
  reach contract ra wa evsa -> r_drop ra = false -> attached cw (tool KWrite osw (ring :: rest) (text ls) fw) evsa tw nw xw -> Forall line_ok ls -> sole_writer cw evsa ->
  publishing a true evsa t s hand -> sole_reader a evsa -> (0 < p_conns s)%nat -> sent_to 0 t = x ++ y ->
  reach contract rb wb evsb -> r_drop rb = false -> subscribing b evsb x ks st -> sole_writer b evsb ->
  attached cr (tool KRead osr pos stdin fr) evsb tr nr xr -> sole_reader cr evsb ->
  prefix_of (MainSpec.shown tr) ls
  /\ (ended nw xw 0 -> hand = [] -> p_fd s = Some O -> y = [] -> caught_up x ks st -> in_epoll nr \/ nr = [] ->
      ls = MainSpec.shown tr ++ ring_unread (w_ring wb) ++ ring_unread (w_ring wa)).
Proof.
  intros RA DA AW O SW PB SR LC SX RB DB SB SWB AR SRB.
  assert (LA : r_farm ra = true -> c_live (cli wa a) = true).
  { intros Hf. destruct (reach_inv _ _ _ _ id_contract RA) as (fsz & F & X & B & W & HP & HB & SF & SD). exfalso.
    destruct (i_farm _ _ (wi_ring _ _ _ W)) as [_ Y]; [congruence|]. congruence. }
  destruct (relay _ _ _ _ _ _ _ _ _ _ _ _ _ _ _ _ RA RB PB LC SX (line_fits _ _ _ _ _ _ _ _ _ _ _ _ _ _ _ _ 0%nat RA AW O SW PB LA) SB) as (bf & af & E & B0 & AF).
  specialize (B0 eq_refl). subst bf. cbn [app] in E.
  destruct (pipe_write _ _ _ _ _ _ _ _ _ _ _ _ RA AW O) as (PW & _ & DONE). destruct (pipe_read _ _ _ _ _ _ _ _ _ _ _ RB AR) as [PR EPO].
  pose proof (f_fifo _ _ _ RA DA) as FA. pose proof (f_fifo _ _ _ RB DB) as FB.
  rewrite (sole_committed _ _ SW), (sole_delivered _ _ SR) in FA. rewrite (sole_committed _ _ SWB), (sole_delivered _ _ SRB) in FB. split.
  - eapply prefix_trans; [exact PR|]. rewrite FA, E, FB in PW. rewrite <- !app_assoc in PW. eapply prefix_app; exact PW.
  - intros ED Hh FD Hy CU EP. rewrite (EPO EP), app_assoc, <- FB. rewrite (AF Hh FD Hy CU), app_nil_r in E. rewrite <- E, <- FA. symmetry. apply DONE. exact ED.
Qed.

(** ** tee *)
Definition bad_one (l : list (list bytes * Z)) : Prop := l = [] \/ exists iov v, l = [(iov, v)] /\ v < 0.
Definition went (l : list (list bytes * Z)) (ms : list bytes) : Prop :=
  exists good bad rest, l = good ++ bad /\ Forall (fun p => 0 <= snd p) good /\ bad_one bad /\ map (fun m => [m]) ms = map fst good ++ map fst bad ++ rest.
Definition wentall (l : list (list bytes * Z)) (ms : list bytes) : Prop := Forall (fun p => 0 <= snd p) l /\ map (fun m => [m]) ms = map fst l.
Lemma wentall_went l ms more : wentall l ms -> went l (ms ++ more).
Proof.
  intros [P E]. exists l, [], (map (fun m => [m]) more). rewrite app_nil_r, map_app, E. repeat split; [exact P|left; reflexivity].
Qed.
Lemma wentall_snoc l ms m rc : wentall l ms -> 0 <= rc -> wentall (l ++ [([m], rc)]) (ms ++ [m]).
Proof. intros [P E] H. split; [apply Forall_app; split; [exact P|repeat constructor; exact H]|]. rewrite !map_app, E. reflexivity. Qed.
Lemma wentall_bad l ms m rc more : wentall l ms -> rc < 0 -> went (l ++ [([m], rc)]) (ms ++ [m] ++ more).
Proof.
  intros [P E] H. exists l, [([m], rc)], (map (fun m => [m]) more). split; [reflexivity|]. split; [exact P|]. split; [right; exists [m], rc; auto|]. rewrite !map_app, E. reflexivity.
Qed.
Lemma tee_shape t s : tee_run t s ->
  match s with
  | TCall TRead => wentall (tee_writes1 t) (tee_read t) /\ wentall (tee_writes2 t) (tee_read t)
  | TCall (TWrite1 m) => exists ms, tee_read t = ms ++ [m] /\ wentall (tee_writes1 t) ms /\ wentall (tee_writes2 t) ms
  | TCall (TWrite2 m) => exists ms, tee_read t = ms ++ [m] /\ wentall (tee_writes1 t) (tee_read t) /\ wentall (tee_writes2 t) ms
  | TExit => went (tee_writes1 t) (tee_read t) /\ went (tee_writes2 t) (tee_read t)
  end.
Proof.
  induction 1 as [|t c x s R IH N]; [repeat split; constructor|].
  assert (E1 : tee_read (t ++ [(c, x)]) = tee_read t ++ tee_read [(c, x)]) by apply flat_map_app.
  assert (E2 : tee_writes1 (t ++ [(c, x)]) = tee_writes1 t ++ tee_writes1 [(c, x)]) by apply flat_map_app.
  assert (E3 : tee_writes2 (t ++ [(c, x)]) = tee_writes2 t ++ tee_writes2 [(c, x)]) by apply flat_map_app.
  rewrite E1, E2, E3. clear E1 E2 E3.
  destruct c as [|m|m], x as [nr m'|rc]; cbn [tee_next] in N; try discriminate; cbn [tee_read tee_writes1 tee_writes2 flat_map]; rewrite ?app_nil_r.
  - destruct IH as [A B]. destruct (nr <? 0) eqn:H1; [|destruct (nr =? 0) eqn:H2]; injection N as <-.
    + replace (nr >? 0) with false by lia. rewrite app_nil_r. rewrite <- (app_nil_r (tee_read t)). split; apply wentall_went; assumption.
    + replace (nr >? 0) with false by lia. rewrite app_nil_r. auto.
    + replace (nr >? 0) with true by lia. exists (tee_read t). auto.
  - destruct IH as (ms & E & A & B). destruct (rc <? 0) eqn:H1; injection N as <-; rewrite E.
    + apply Z.ltb_lt in H1. split; [exact (wentall_bad _ _ _ _ [] A H1)|apply wentall_went; exact B].
    + exists ms. split; [reflexivity|]. split; [apply wentall_snoc; [exact A|lia]|exact B].
  - destruct IH as (ms & E & A & B). destruct (rc <? 0) eqn:H1; injection N as <-.
    + split; [rewrite <- (app_nil_r (tee_read t)); apply wentall_went; exact A|]. rewrite E. apply Z.ltb_lt in H1. exact (wentall_bad _ _ _ _ [] B H1).
    + split; [exact A|]. rewrite E. apply wentall_snoc; [exact B|lia].
Qed.
Lemma concat_singles (ms : list bytes) : concat (map (fun m => [m]) ms) = ms.
Proof. induction ms; cbn; f_equal; assumption. Qed.
Lemma went_commit r w evs b ms : reach contract r w evs -> In (EOpen SHR_WRONLY (Some b)) evs -> went (writes_of b evs) ms -> prefix_of (committed_by b evs) ms.
Proof.
  intros R O (good & bad & rest & E & G & B & M). apply (f_equal (@concat bytes)) in M. rewrite concat_singles, !concat_app in M. rewrite M.
  destruct (writer_commit _ _ _ _ _ _ R O E G B) as [->|(iov & v & -> & ->)].
  - eexists. reflexivity.
  - exists (concat rest). cbn. rewrite app_nil_r, app_assoc. reflexivity.
Qed.
Lemma wentall_commit r w evs b ms : reach contract r w evs -> In (EOpen SHR_WRONLY (Some b)) evs -> wentall (writes_of b evs) ms -> committed_by b evs = ms.
Proof.
  intros R O [P M]. apply (f_equal (@concat bytes)) in M. rewrite concat_singles in M. rewrite M.
  destruct (writer_commit r w evs b (writes_of b evs) [] R O) as [->|(iov & v & X & _)]; [symmetry; apply app_nil_r|exact P|left; reflexivity|reflexivity|discriminate].
Qed.
Lemma tee_gets_read t : (forall nr m, In (TRead, TGot nr m) t -> 0 <= nr -> zlen m = nr) -> messages (tee_gets t) = tee_read t.
Proof.
  induction t as [|[c x] t IH]; intros C; [reflexivity|]. cbn [tee_gets tee_read flat_map]. fold (tee_gets t) (tee_read t). rewrite messages_app.
  rewrite IH by (intros nr m I; apply C; right; exact I). f_equal. destruct c; try reflexivity. destruct x as [nr m|]; [|reflexivity]. cbn.
  destruct (nr <? 0) eqn:H; [replace (nr >? 0) with false by lia; reflexivity|]. specialize (C nr m (or_introl eq_refl) ltac:(lia)). rewrite app_nil_r, C.
  destruct (nr =? 0) eqn:H2; [replace (nr >? 0) with false by lia|replace (nr >? 0) with true by lia]; reflexivity.
Qed.
Theorem relay_tee r w evs r1 w1 evs1 r2 w2 evs2 a b1 b2 t s : reach contract r w evs -> reach contract r1 w1 evs1 -> reach contract r2 w2 evs2 ->
  teeing a b1 b2 evs evs1 evs2 t s ->
  prefix_of (committed_by b1 evs1) (delivered_to a evs) /\ prefix_of (committed_by b2 evs2) (delivered_to a evs)
  /\ (s = TCall TRead -> committed_by b1 evs1 = delivered_to a evs /\ committed_by b2 evs2 = delivered_to a evs).
Proof.
  intros R R1 R2 [TR TO T1 T2 TG TC TQ W1 W2]. destruct (reach_pipe _ _ _ R) as [_ G].
  rewrite (delivered_returned a evs G TQ). fold (reads_of a evs). rewrite TG, (tee_gets_read _ TC). pose proof (tee_shape _ _ TR) as S.
  rewrite <- W1, <- W2 in S. clear W1 W2. destruct s as [[|m|m]|].
  - destruct S as [A B]. rewrite (wentall_commit _ _ _ _ _ R1 T1 A), (wentall_commit _ _ _ _ _ R2 T2 B).
    split; [exists []; symmetry; apply app_nil_r|]. split; [exists []; symmetry; apply app_nil_r|]. auto.
  - destruct S as (ms & E & A & B). rewrite E, (wentall_commit _ _ _ _ _ R1 T1 A), (wentall_commit _ _ _ _ _ R2 T2 B).
    split; [eexists; reflexivity|]. split; [eexists; reflexivity|]. discriminate.
  - destruct S as (ms & E & A & B). rewrite (wentall_commit _ _ _ _ _ R1 T1 A), E, (wentall_commit _ _ _ _ _ R2 T2 B).
    split; [exists []; symmetry; apply app_nil_r|]. split; [eexists; reflexivity|]. discriminate.
  - destruct S as [A B]. split; [eapply went_commit; eassumption|]. split; [eapply went_commit; eassumption|]. discriminate.
Qed.
