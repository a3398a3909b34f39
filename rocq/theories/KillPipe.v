(** * After the last kill: readers and writers that start afresh (for C92) *)
From Verif Require Import Effects Final Pending Trace StepInv ReadCall Calls WriteCall KillBwFinal.
From Verif Require Export KillFair.

(** ** the call a client is in, after one step *)
Lemma pend_new d ev : forall acc x, fold_left (fun acc e => match e with
    | ECall c' x => if is d c' then Some x else acc
    | ERet c' _ => if is d c' then None else acc
    | ECrash c' => if is d c' then None else acc
    | _ => acc end) ev acc = Some x -> acc = Some x \/ In (ECall d x) ev.
Proof.
  induction ev as [|e t IH]; intros acc x H; [left; exact H|]. cbn [fold_left] in H. apply IH in H. destruct H as [H|H]; [|right; right; exact H].
  destruct e as [|c0 y| | |]; auto.
  - destruct (is d c0) eqn:E; [|auto]. injection H as ->. apply Nat.eqb_eq in E. subst. right. left. reflexivity.
  - destruct (is d c) eqn:E; [discriminate|auto].
  - destruct (is d c) eqn:E; [discriminate|auto].
Qed.
Lemma call_starts w a w' ev d x : step w a = Ok (w', ev) -> In (ECall d x) ev -> asleep w' d = false.
Proof.
  intros HS HI. apply step_inv in HS.
  assert (NR : forall c0 rs, ~ In (ECall d x) (rets c0 rs)) by (intros c0 rs H; unfold rets in H; apply in_map_iff in H; destruct H as (? & H & _); discriminate).
  inversion HS; subst; try (elim (NR _ _ HI); fail); try (destruct HI as [HI|HI]; [discriminate|elim (NR _ _ HI)]; fail); try (destruct HI as [HI|[]]; discriminate); try (destruct HI; fail).
  destruct HI as [HI|HI]; [|elim (NR _ _ HI)]. injection HI as -> ->. unfold asleep. rewrite cli_setc_same by (apply live_bound; assumption).
  match goal with H1 : c_pc _ = Idle, H2 : start_call _ _ = _ |- _ => pose proof (start_call_notSl _ _ _ _ H1 H2) as NS end.
  destruct (c_pc cl'); try reflexivity; destruct NS.
Qed.
Lemma idle_next w a w' ev evs d : step w a = Ok (w', ev) -> pending d evs = None -> pending d (evs ++ ev) = None \/ asleep w' d = false.
Proof.
  intros HS P. destruct (pending d (evs ++ ev)) as [x|] eqn:E; [right|left; reflexivity]. rewrite pending_app in E. apply pend_new in E. destruct E as [E|E]; [congruence|].
  apply (call_starts _ _ _ _ _ _ HS E).
Qed.
Lemma pend_rets c rs : forall acc, rs <> [] -> fold_left (fun acc e => match e with
    | ECall c' x => if is c c' then Some x else acc
    | ERet c' _ => if is c c' then None else acc
    | ECrash c' => if is c c' then None else acc
    | _ => acc end) (rets c rs) acc = None.
Proof.
  induction rs as [|y rs IH]; intros acc N; [contradiction|]. cbn [rets map fold_left]. rewrite is_refl. destruct rs; [reflexivity|]. apply IH. discriminate.
Qed.
Lemma ends_none w a w' ev evs c : step w a = Ok (w', ev) -> ends c ev -> pending c (evs ++ ev) = None.
Proof.
  intros HS HE. apply step_inv in HS. rewrite pending_app.
  assert (GO : forall c0 l rs, (forall e, In e l -> match e with ERet _ _ | ECrash _ => False | _ => True end) -> ends c (l ++ rets c0 rs) ->
    c0 = c /\ rs <> []).
  { intros c0 l rs G [[x H]|H]; apply in_app_or in H; destruct H as [H|H]; try (elim (G _ H); fail).
    - split; [apply (rets_in _ _ _ _ H)|]. intros ->. destruct H.
    - elim (rets_nocrash _ _ _ H). }
  inversion HS; subst;
    try (match goal with H : a = AEintr _ /\ _ \/ _ |- _ => destruct H as [[-> _]|[[fd ->] _]] end);
    try (destruct HE as [[? []]|[]]; fail);
    try (destruct HE as [[? [HE|[]]]|[HE|[]]]; try discriminate; injection HE as ->; cbn [fold_left]; rewrite is_refl; reflexivity);
    try (destruct HE as [[? [HE|[]]]|[HE|[]]]; discriminate).
  all: try (match goal with HE : ends ?cc (rets ?c0 ?rs) |- _ => destruct (GO c0 [] rs (fun e (F : In e []) => False_ind _ F) HE) as [-> N]; apply pend_rets; exact N end).
  - destruct (GO c0 [ECall c0 x] rs) as [-> N]; [intros ? [<-|[]]; exact Logic.I|exact HE|]. cbn [fold_left app]. apply pend_rets. exact N.
  - destruct (GO c0 [ECommit c0 iov] rs) as [-> N]; [intros ? [<-|[]]; exact Logic.I|exact HE|]. cbn [fold_left app]. apply pend_rets. exact N.
Qed.

Lemma fell_asleep w e c w' ev : step w (ARun c e) = Ok (w', ev) -> asleep w c = false -> asleep w' c = true -> adding w' c <> [] ->
  ev = [] /\ adding w' c = adding w c /\ c_live (cli w c) = true /\ e_lock e = true /\ exists k len, c_pc (cli w c) = RunW k (adding w c) len false.
Proof.
  intros HS As As' NE. apply step_inv in HS. unfold asleep in As'. unfold adding in *.
  inversion HS; subst; try (match goal with H : ARun _ _ = _ /\ _ \/ _ |- _ => destruct H as [[? _]|[[? ?] _]]; discriminate end);
    try (exfalso; unfold asleep in As; congruence);
    try (match goal with H : ?x = w \/ _ |- _ => destruct H as [->|(? & ? & _ & _ & ->)] end);
    try (rewrite cli_setc_same in As', NE |- * by (apply live_bound; assumption); cbn [c_pc set] in *; try discriminate As'; try contradiction; eauto 8).
  5: { exfalso. rewrite cli_setc_same in As' by (destruct (e_lock e); rewrite ?close_handles_cl; apply live_bound; assumption). discriminate. }
  2: { match goal with H : c_pc (cli w c) = _ |- _ => rewrite H end. eauto 8. }
  all: exfalso; match goal with H : end_write _ _ _ _ = _ |- _ => apply end_write_notSl in H | H : flush_write _ _ _ = _ |- _ => apply flush_write_notSl in H end;
    destruct (c_pc cl'); try discriminate As'; assumption.
Qed.
Section Run.
Variables (r : ring) (W : nat -> world) (D : nat -> deed) (V : nat -> list event) (i0 : nat).
Hypothesis FV : kforever steady r W D V.
Hypothesis NK : no_kills D i0.
Notation unread j := (ring_unread (w_ring (W j))).
Notation kfits := (kfits W). Notation ready := (ready W). Notation kavail := (kavail W). Notation shrunk := (shrunk W).

Lemma nk j : (i0 <= j)%nat -> exists a, D j = Acts a /\ steady (W j) a /\ step (W j) a = Ok (W (S j), V j).
Proof. intros H. destruct (NK j H) as [a E]. pose proof (kf_does _ _ _ _ _ FV j) as Q. rewrite E in Q. destruct Q as [Q1 Q2]. eauto. Qed.
Lemma nk_effect j : (i0 <= j)%nat -> exists g, effect g (w_ring (W j)) (committed (upto V j)) (V j) (w_ring (W (S j))).
Proof.
  intros H. destruct (nk j H) as (a & E & Q1 & Q2). destruct (kf_facts _ _ _ _ FV j) as (fsz & F & WW & HP & HB & _).
  eexists. apply (step_effect _ _ _ a _ _ WW HB (steady_contract _ _ Q1) Q2).
Qed.
Lemma na_avail j d : r_farm r = false -> kavail j d = unread j.
Proof. intros Hf. unfold KillFair.kavail, available. destruct (kf_facts _ _ _ _ FV j) as (? & _ & _ & _ & _ & _ & E & _). rewrite E, Hf. reflexivity. Qed.
Lemma grown j : (i0 <= j)%nat -> unread j = [] -> unread (S j) <> [] -> exists c ms, In (ECommit c ms) (V j).
Proof.
  intros H E N. destruct (nk_effect j H) as [g EE]. revert E N.
  destruct EE as [ev r' D1 D2 D3 U RT _|c v so t r' U RT _ _ _ _|c iov0 rs dropped wok r' D1 D2 D3 D4 D5 D6 U RT _|c v buf iov0 av ln niov r' D1 D2 D3 taken D4 D5 D6 U RT _]; intros E N.
  - congruence.
  - congruence.
  - exists c, iov0. left. reflexivity.
  - rewrite U, E in N. destruct (r_farm _); [contradiction|]. rewrite skipn_nil in N. contradiction.
Qed.
Lemma roomy j iov : (i0 <= j)%nat -> r_drop r = false -> room (r_n (w_ring (W j))) (r_mm (w_ring (W j))) iov (unread j) = false ->
  room (r_n (w_ring (W (S j)))) (r_mm (w_ring (W (S j)))) iov (unread (S j)) = true -> exists c v b io, In (ERet c (RetRead v b io)) (V j) /\ 0 < v.
Proof.
  intros H Hd E N. destruct (kf_facts _ _ _ _ FV j) as (fsz & F & WW & HP & HB & _ & EF & ED & En & Em & _). destruct (kf_facts _ _ _ _ FV (S j)) as (fsz' & _ & _ & _ & _ & _ & _ & _ & En' & Em' & _).
  rewrite En, Em in E. rewrite En', Em' in N. pose proof (wi_ring _ _ _ WW) as I. destruct (nk_effect j H) as [g EE]. revert I E N. rewrite <- ED in Hd. revert Hd.
  destruct EE as [ev r' D1 D2 D3 U RT _|c v so t r' U RT _ _ _ _|c iov0 rs dropped wok r' D1 D2 D3 D4 D5 D6 U RT _|c v buf iov0 av ln niov r' D1 D2 D3 taken D4 D5 D6 U RT _]; intros Hd I E N.
  - congruence.
  - congruence.
  - exfalso. destruct (D5 Hd) as [RM _]. rewrite U, (fit_room _ _ _ _ RM) in N. apply room_iff in N. apply room_false in E. apply E. rewrite nbytes_app, zlen_app in N.
    assert (0 <= nbytes iov0) by apply zlen_nonneg. pose proof (zlen_nonneg iov0). lia.
  - destruct taken as [|m t] eqn:T.
    + exfalso. rewrite U in N. destruct (r_farm (w_ring (W j))); cbn in N; congruence.
    + exists c, v, buf, iov0. split; [left; reflexivity|]. rewrite D5. subst taken. rewrite <- T. apply (taken_pos _ _ _ _ _ I D2). rewrite T. discriminate.
Qed.

(** *** nobody is left asleep *)
Lemma read_asleep j d buf niov : pending d (upto V j) = Some (CRead buf niov) -> asleep (W j) d = true -> exists n s p, c_w2r (cli (W j) d) = Some (Wait n s p) /\ wait_sid (cli (W j) d) = Some (s, p).
Proof.
  intros P As. destruct (kf_facts _ _ _ _ FV j) as (fsz & F & WW & HP & _). pose proof (pend_live _ _ _ _ _ WW HP P) as L. specialize (HP d). rewrite P in HP.
  unfold wait_sid. unfold asleep in As. destruct (c_pc (cli (W j) d)) as [ |[| | |] ? ? ?|[| | |] ? ? ?|? ?|? ?| | |?|g0 s0 z0] eqn:Hpc; cbn [pc_for] in HP; try discriminate As;
    try (destruct HP as (? & HP & _); discriminate); try (destruct HP as [HP _]; discriminate).
  destruct (wi_cl _ _ _ WW d L) as [m C]. pose proof (ci_pc _ _ _ _ C) as Q. unfold pc_ok in Q. rewrite Hpc in Q. destruct Q as (Hr & _).
  destruct (ci_rd _ _ _ _ C Hr) as [(n & s & p & Ew) _]. rewrite Ew. eauto.
Qed.
Lemma write_asleep j c : adding (W j) c <> [] -> asleep (W j) c = true -> r_drop r = false /\ exists n s p, c_r2w (cli (W j) c) = Some (Wait n s p) /\ wait_sid (cli (W j) c) = Some (s, p).
Proof.
  intros NE As. destruct (kf_facts _ _ _ _ FV j) as (fsz & F & WW & HP & _ & _ & _ & ED & _ & _ & SW & _). specialize (SW c). unfold sleepW in SW.
  unfold wait_sid. unfold adding in NE. unfold asleep in As. destruct (c_pc (cli (W j) c)); try contradiction; try discriminate As.
  destruct SW as (_ & ND & n & s & p & Ew). split; [congruence|]. rewrite Ew. eauto.
Qed.
Lemma read_run_ends j d buf niov e : pending d (upto V j) = Some (CRead buf niov) -> D j = Acts (ARun d e) -> asleep (W j) d = false -> unread j <> [] -> r_farm r = false -> ends d (V j).
Proof.
  intros Pd Ea As NA Hf. destruct (kf_facts _ _ _ _ FV j) as (fsz & F & WW & HP & HB & _).
  pose proof (kf_does _ _ _ _ _ FV j) as H. rewrite Ea in H. destruct H as [H1 HS]. destruct (e_lock e) eqn:He.
  - destruct (read_step _ _ _ _ _ _ _ _ _ WW HP HB Pd As HS He) as (_ & _ & _ & _ & _ & _ & [(EA & _)|(_ & _ & _ & ->)]); [|left; eexists; left; reflexivity].
    elim NA. change (kavail j d = []) in EA. rewrite (na_avail _ _ Hf) in EA. exact EA.
  - pose proof (run_pc _ _ _ _ _ HP Pd As) as Hpc. cbn [step] in HS. rewrite (pend_live _ _ _ _ _ WW HP Pd) in HS. unfold run_client, crit_read in HS. rewrite Hpc, He in HS. cbn in HS. injection HS as _ <-.
    left. eexists. left. reflexivity.
Qed.
Lemma resume_awake w w' c : asleep w c = true -> cli w' c = resume (cli w c) -> asleep w' c = false.
Proof. intros As E. unfold asleep in *. rewrite E. unfold resume. destruct (c_pc (cli w c)) eqn:Hp; cbn; rewrite ?Hp; try reflexivity; discriminate As. Qed.
Lemma rs d : r_farm r = false -> pending d (upto V i0) = None -> (forall j x, (i0 <= j)%nat -> pending d (upto V j) = Some x -> exists buf niov, x = CRead buf niov) ->
  forall j, (i0 <= j)%nat -> pending d (upto V j) <> None -> unread j <> [] -> ready j d.
Proof.
  intros Hf P0 CR. induction 1 as [|j H IH]; [congruence|]. intros Pd NA As.
  destruct (pending d (upto V (S j))) as [x|] eqn:Px; [|contradiction]. destruct (CR (S j) x ltac:(lia) Px) as (buf & niov & ->).
  destruct (read_asleep _ _ _ _ Px As) as (n & s & p & Ew & Ws). pose proof (kf_live _ _ _ _ FV _ _ _ Px) as L'.
  destruct (nk j H) as (a & Ea & Ha & HS).
  destruct (pending d (upto V j)) as [y|] eqn:Py.
  2: { destruct (idle_next _ _ _ _ _ d HS Py) as [Q|Q]; [cbn [upto] in Px; congruence|congruence]. }
  destruct (unread j) eqn:EU.
  - exists s, p. split; [exact Ws|]. destruct (grown j H EU NA) as (c' & ms & HI).
    apply (k_wake_readers r _ (upto V j) a _ (V j) c' ms (steady_reach_flaky _ _ _ (kf_reach _ _ _ _ FV j)) (steady_flaky _ _ Ha) HS HI) with (c' := d); [left; apply Ha|].
    unfold data_sock. rewrite L', Ew. reflexivity.
  - destruct (CR j y H Py) as (b0 & n0 & ->).
    assert (R0 : ready j d) by (apply IH; discriminate).
    assert (NU : unread j <> []) by (rewrite EU; discriminate).
    destruct (kf_in_call _ _ _ _ FV j d _ Py) as [E|(P' & [(E & R1 & _)|[(_ & As0 & E & _)|[(e & E & As0)|(_ & E)]]])].
    + pose proof (ends_none _ _ _ _ (upto V j) _ HS E) as Q. cbn [upto] in Px. congruence.
    + apply R1; assumption.
    + rewrite (resume_awake _ _ _ As0 E) in As. discriminate.
    + pose proof (read_run_ends _ _ _ _ _ Py E As0 NU Hf) as Q. pose proof (ends_none _ _ _ _ (upto V j) _ HS Q) as Q'. cbn [upto] in Px. congruence.
    + unfold asleep in As. rewrite E in As. discriminate.
Qed.
Lemma ws c : pending c (upto V i0) = None -> forall j, (i0 <= j)%nat -> adding (W j) c <> [] -> kfits j (adding (W j) c) -> ready j c.
Proof.
  intros P0. induction 1 as [|j H IH]; intros NE FT As; [destruct (kw_pend _ _ _ _ FV i0 c NE) as [x Px]; congruence|].
  destruct (write_asleep _ _ NE As) as (Hd & n & s & p & Ew & Ws). destruct (kw_pend _ _ _ _ FV _ c NE) as [x Px]. pose proof (kf_live _ _ _ _ FV _ _ _ Px) as L'.
  set (iov := adding (W (S j)) c) in *.
  assert (RM : room (r_n (w_ring (W (S j)))) (r_mm (w_ring (W (S j)))) iov (unread (S j)) = true).
  { destruct FT as [FT|FT]; [|exact FT]. destruct (kf_facts _ _ _ _ FV (S j)) as (? & _ & _ & _ & _ & _ & _ & ED & _). congruence. }
  destruct (nk j H) as (a & Ea & Ha & HS).
  destruct (room (r_n (w_ring (W j))) (r_mm (w_ring (W j))) iov (unread j)) eqn:R0.
  2: { destruct (roomy j iov H Hd R0 RM) as (c' & v & b & io & HI & Hv). exists s, p. split; [exact Ws|].
       apply (k_wake_writers r _ (upto V j) a _ (V j) c' v b io (steady_reach_flaky _ _ _ (kf_reach _ _ _ _ FV j)) (steady_flaky _ _ Ha) HS HI Hv) with (c' := c); [apply Ha|].
       unfold space_sock. rewrite L', Ew. reflexivity. }
  destruct (pending c (upto V j)) as [y|] eqn:Py.
  2: { destruct (idle_next _ _ _ _ _ c HS Py) as [Q|Q]; [cbn [upto] in Px; congruence|congruence]. }
  destruct (kf_in_call _ _ _ _ FV j c _ Py) as [E|(P' & [(E & R1 & _)|[(_ & As0 & E & _)|[(e & E & As0)|(_ & E)]]])].
  - pose proof (ends_none _ _ _ _ (upto V j) _ HS E) as Q. cbn [upto] in Px. congruence.
  - assert (EI : adding (W j) c = iov) by (unfold iov, adding; rewrite E; reflexivity).
    apply R1; [|exact As]. apply IH; rewrite EI; [exact NE|right; exact R0].
  - rewrite (resume_awake _ _ _ As0 E) in As. discriminate.
  - rewrite E in Ea. injection Ea as <-. destruct (fell_asleep _ _ _ _ _ HS As0 As NE) as (EV & EA & L & He & k & len & Hpc).
    destruct (kf_facts _ _ _ _ FV j) as (fsz & F & WW & _). exfalso.
    destruct (write_crit _ _ _ _ _ _ _ _ _ _ _ WW L Hpc HS He) as (_ & _ & [(_ & D2 & _)|(_ & _ & _ & hw' & cl' & rs0 & v & _ & EV' & _)]); [|congruence].
    fold iov in EA. rewrite <- EA in D2. congruence.
  - unfold asleep in As. rewrite E in As. discriminate.
Qed.

(** *** the reader *)
Lemma stay j : unread j <> [] -> shrunk j \/ unread (S j) <> [].
Proof. intros NE. destruct (unread (S j)) eqn:E; [left|right; discriminate]. unfold Fair.shrunk. rewrite E. destruct (unread j); [contradiction|]. cbn. lia. Qed.
Section Reader.
Variable d : nat.
Hypothesis K : reads_on r W D V d i0.
Hypothesis Hf : r_farm r = false.
Definition nrp buf niov j := (i0 <= j)%nat /\ pending d (upto V j) = Some (CRead buf niov) /\ unread j <> [].
Definition nrq j := ends d (V j) \/ shrunk j.
Lemma n_ready j : (i0 <= j)%nat -> pending d (upto V j) <> None -> unread j <> [] -> ready j d.
Proof.
  apply rs; [exact Hf|exact (ro_rest _ _ _ _ _ _ K)|]. intros k x Hk P. destruct (ro_calls _ _ _ _ _ _ K k x Hk P) as (b & n & E & _). eauto.
Qed.
Lemma nrp_step buf niov i : nrp buf niov i -> nrq i \/
  (nrp buf niov (S i) /\ (asleep (W i) d = false -> asleep (W (S i)) d = false /\ forall e, D i <> Acts (ARun d e))
    /\ (D i = Acts (AWake d) -> asleep (W (S i)) d = false)).
Proof.
  intros (Hi & Pd & NA). destruct (stay i NA) as [Q|NA']; [left; right; exact Q|].
  assert (RD : ready i d) by (apply n_ready; [exact Hi|congruence|exact NA]).
  destruct (kf_in_call _ _ _ _ FV i d _ Pd) as [E|(Pd' & HD)]; [left; left; exact E|].
  destruct HD as [(E & R1 & R2 & R3)|[(Ea & As & E & Er)|[(e & Ea & As)|(As & E)]]].
  - assert (EA : asleep (W (S i)) d = asleep (W i) d) by (unfold asleep; rewrite E; reflexivity).
    right. split; [split; [lia|split; assumption]|]. split.
    + intros As. split; [congruence|]. intros e Q'. rewrite R2 in As by eauto. discriminate.
    + intros Ea. rewrite EA. destruct (asleep (W i) d) eqn:As; [|reflexivity]. elim (R3 Ea eq_refl RD).
  - right. pose proof (resume_awake _ _ _ As E) as NS. split; [split; [lia|split; assumption]|]. split; [congruence|auto].
  - left. left. apply (read_run_ends i d buf niov e); assumption.
  - exfalso. destruct (kf_facts _ _ _ _ FV (S i)) as (_ & _ & _ & HP & _). specialize (HP d). rewrite E, Pd' in HP. cbn in HP. discriminate.
Qed.
Lemma n_awake buf niov i : nrp buf niov i -> asleep (W i) d = false -> exists j, (i <= j)%nat /\ nrp buf niov j /\ asleep (W j) d = false /\ nrq j.
Proof.
  intros R As. destruct (ro_fair _ _ _ _ _ _ K) as [F1 _]. destruct (F1 i) as (j & Hj & H).
  destruct (until (fun k => nrp buf niov k /\ asleep (W k) d = false) (fun k => nrp buf niov k /\ asleep (W k) d = false /\ nrq k)) with (n := (j - i)%nat) (i := i) as [(k & Hk & Q)|[Rj Aj]].
  - intros k [Rk Ak]. destruct (nrp_step _ _ _ Rk) as [Q|(R' & A' & _)]; [left; auto|right]. split; [exact R'|apply A'; exact Ak].
  - split; assumption.
  - exists k. split; [lia|exact Q].
  - replace (i + (j - i))%nat with j in * by lia. destruct H as [H|[H|(e & H & _)]].
    + destruct Rj as (_ & Rj & _). congruence.
    + congruence.
    + destruct (nrp_step _ _ _ Rj) as [Q|(_ & A' & _)]; [exists j; auto|]. destruct (A' Aj) as [_ Q]. elim (Q e H).
Qed.
Lemma n_read buf niov i : nrp buf niov i -> exists j, (i <= j)%nat /\ nrp buf niov j /\ nrq j.
Proof.
  intros R. destruct (asleep (W i) d) eqn:As.
  2: { destruct (n_awake _ _ _ R As) as (j & H1 & H2 & _ & H3). eauto. }
  destruct (ro_fair _ _ _ _ _ _ K) as [_ F2]. destruct (F2 i) as (j & Hj & H).
  assert (AWAKE : forall k, (i <= k)%nat -> nrp buf niov k -> asleep (W k) d = false -> exists j, (i <= j)%nat /\ nrp buf niov j /\ nrq j).
  { intros k Hk Rk Ak. destruct (n_awake _ _ _ Rk Ak) as (j' & H1 & H2 & _ & H3). exists j'. split; [lia|auto]. }
  destruct (until (fun k => nrp buf niov k /\ asleep (W k) d = true) (fun k => (nrp buf niov k /\ nrq k) \/ (nrp buf niov (S k) /\ asleep (W (S k)) d = false))) with (n := (j - i)%nat) (i := i) as [(k & Hk & [Q|[Q1 Q2]])|[Rj Aj]].
  - intros k [Rk Ak]. destruct (nrp_step _ _ _ Rk) as [Q|(R' & _ & _)]; [left; left; auto|]. destruct (asleep (W (S k)) d) eqn:As'; [right; auto|left; right; auto].
  - split; assumption.
  - exists k. split; [lia|exact Q].
  - apply (AWAKE (S k)); [lia|assumption|assumption].
  - replace (i + (j - i))%nat with j in * by lia. destruct H as [H|[H|H]]; [congruence| |].
    + exfalso. destruct Rj as (Hj0 & Pj & NAj). destruct (n_ready j Hj0) as (s & p & Ws & Rd); [congruence|exact NAj|exact Aj|]. exact (H s p Ws Rd).
    + destruct (nrp_step _ _ _ Rj) as [Q|(R' & _ & AW)]; [exists j; auto|]. apply (AWAKE (S j)); [lia|exact R'|exact (AW H)].
Qed.

(** the read of a client that keeps reading ends well, or is interrupted in its sleep *)
Lemma n_end buf niov j : nrp buf niov j -> ends d (V j) ->
  shrunk j \/ (asleep (W j) d = true /\ pending d (upto V (S j)) = None).
Proof.
  intros (Hj & Pd & NA) HE. destruct (nk j Hj) as (a & Ea & Ha & HS). pose proof (ends_actor _ _ _ _ _ HS HE) as AC.
  destruct (ro_live _ _ _ _ _ _ K j Hj) as [L _]. destruct (ro_live _ _ _ _ _ _ K (S j) ltac:(lia)) as [L' _].
  destruct (ro_calls _ _ _ _ _ _ K j _ Hj Pd) as (b0 & n0 & E & Hb & Hn). injection E as <- <-.
  destruct (kf_facts _ _ _ _ FV j) as (fsz & F & WW & HP & HB & _).
  assert (NI : c_pc (cli (W j) d) <> Idle) by (intros E; specialize (HP d); rewrite E, Pd in HP; discriminate).
  destruct a as [e fl pid|c1 y|c1 e|c1|c1|c1 fd|c1]; cbn [actor] in AC; try discriminate AC; injection AC as ->.
  - cbn [step] in HS. rewrite L in HS. cbn [negb] in HS. exfalso. destruct (c_pc (cli (W j) d)); try contradiction; injection HS as _ EV; rewrite <- EV in HE; destruct HE as [[x []]|[]].
  - destruct (asleep (W j) d) eqn:As.
    { exfalso. cbn [step] in HS. rewrite L in HS. unfold run_client in HS. unfold asleep in As. destruct (c_pc (cli (W j) d)); try discriminate As; injection HS as _ EV; rewrite <- EV in HE; destruct HE as [[x []]|[]]. }
    left. pose proof (ro_lock _ _ _ _ _ _ K j e Hj Ea) as He.
    destruct (read_step _ _ _ _ _ _ _ _ _ WW HP HB Pd As HS He) as (_ & _ & _ & _ & _ & _ & [(EA & _)|(_ & EA & _ & _)]); [change (kavail j d = []) in EA; rewrite (na_avail _ _ Hf) in EA; contradiction|].
    change (kavail (S j) d = skipn (length (take_fit (Z.to_nat niov) (usable buf) (kavail j d))) (kavail j d)) in EA. rewrite !(na_avail _ _ Hf) in EA.
    unfold Fair.shrunk. rewrite EA, skipn_length.
    destruct (ring_unread (w_ring (W j))) as [|m t] eqn:EU; [contradiction|].
    assert (Hm : zlen m <= usable buf).
    { pose proof (unread_bounds _ _ (i_inv0 _ _ (wi_ring _ _ _ WW))) as [UB _]. rewrite EU in UB. unfold nbytes in UB. cbn [concat] in UB. rewrite zlen_app in UB. pose proof (zlen_nonneg (concat t)).
      destruct (wi_dims _ _ _ WW) as (_ & E2 & _). cbn in E2. lia. }
    replace (Z.to_nat niov) with (S (Z.to_nat (niov - 1))) by lia. cbn [take_fit length]. apply Z.leb_le in Hm. rewrite Hm. cbn [length]. lia.
  - exfalso. apply step_inv in HS. inversion HS; subst;
      try (match goal with H : AWake _ = _ /\ _ \/ _ |- _ => destruct H as [[? _]|[[? ?] _]]; discriminate end);
      match goal with H : [] = V j |- _ => rewrite <- H in HE; destruct HE as [[x []]|[]] end.
  - right. cbn [step] in HS. unfold wait_failed in HS. specialize (HP d). unfold asleep. destruct (c_pc (cli (W j) d)) as [ |k iov len nb|k iov len nb|? ?|? ?| | |?|g0 s0 z0] eqn:Epc;
      try (exfalso; injection HS as _ EV; rewrite <- EV in HE; destruct HE as [[x []]|[]]; fail).
    + exfalso. cbn [pc_for] in HP. rewrite Pd in HP. destruct k; destruct HP as [? ?]; try discriminate. destruct H; discriminate.
    + split; [reflexivity|]. injection HS as _ EV. cbn [upto]. rewrite <- EV, pending_app. cbn [fold_left]. rewrite is_refl. reflexivity.
  - right. cbn [step] in HS. destruct (wait_sid (cli (W j) d)) as [[s p]|]; [|exfalso; injection HS as _ EV; rewrite <- EV in HE; destruct HE as [[x []]|[]]].
    destruct (existsb _ p); [|exfalso; injection HS as _ EV; rewrite <- EV in HE; destruct HE as [[x []]|[]]].
    unfold wait_failed in HS. specialize (HP d). unfold asleep. destruct (c_pc (cli (W j) d)) as [ |k iov len nb|k iov len nb|? ?|? ?| | |?|g0 s0 z0] eqn:Epc;
      try (exfalso; injection HS as _ EV; rewrite <- EV in HE; destruct HE as [[x []]|[]]; fail).
    + exfalso. cbn [pc_for] in HP. rewrite Pd in HP. destruct k; destruct HP as [? ?]; try discriminate. destruct H; discriminate.
    + split; [reflexivity|]. injection HS as _ EV. cbn [upto]. rewrite <- EV, pending_app. cbn [fold_left]. rewrite is_refl. reflexivity.
  - exfalso. cbn [step] in HS. rewrite L in HS. cbn [negb] in HS. injection HS as EW _. rewrite <- EW in L'. rewrite cli_setc_same in L' by (apply live_bound; exact L). discriminate.
Qed.

Lemma n_drain j : (i0 <= j)%nat -> unread j <> [] -> exists k, (j <= k)%nat /\ shrunk k.
Proof.
  revert j.
  assert (B2 : forall j, (i0 <= j)%nat -> ring_unread (w_ring (W j)) <> [] -> pending d (upto V j) <> None -> asleep (W j) d = false -> exists k, (j <= k)%nat /\ shrunk k).
  { intros j Hj NE Pd As. destruct (pending d (upto V j)) as [x|] eqn:Px; [|contradiction]. destruct (ro_calls _ _ _ _ _ _ K j x Hj Px) as (buf & niov & -> & _).
    destruct (n_awake buf niov j) as (k & Hk & Rk & Ak & [Q|Q]); [split; [exact Hj|split; [exact Px|exact NE]]|exact As| |exists k; auto].
    destruct (n_end buf niov k Rk Q) as [Q'|[Q' _]]; [exists k; auto|congruence]. }
  assert (B1 : forall j, (i0 <= j)%nat -> ring_unread (w_ring (W j)) <> [] -> pending d (upto V j) = None -> exists k, (j <= k)%nat /\ shrunk k).
  { intros j Hj NE Pd. destruct (ro_again _ _ _ _ _ _ K j) as (k & Hk & D0).
    assert (ST : forall n, (i0 <= n)%nat -> ring_unread (w_ring (W n)) <> [] -> pending d (upto V n) = None -> (exists k, (n <= k)%nat /\ shrunk k) \/ (ring_unread (w_ring (W (S n))) <> [] /\ pending d (upto V (S n)) = None)).
    { intros n Hn NEn Pn. destruct (stay n NEn) as [Q|NE']; [left; exists n; auto|].
      destruct (pending d (upto V (S n))) as [x|] eqn:Px; [left|right; auto].
      destruct (nk n Hn) as (a0 & _ & _ & HS0). destruct (idle_next _ _ _ _ _ d HS0 Pn) as [Q|Q]; [cbn [upto] in Px; congruence|].
      destruct (B2 (S n)) as (k' & Hk' & Q'); [lia|exact NE'|congruence|exact Q|exists k'; split; [lia|exact Q']]. }
    destruct (until (fun n => (i0 <= n)%nat /\ ring_unread (w_ring (W n)) <> [] /\ pending d (upto V n) = None) (fun n => exists k, (n <= k)%nat /\ shrunk k)) with (n := (k - j)%nat) (i := j) as [(n & Hn & k' & Hk' & Q)|(Hn & NEk & Pk)].
    - intros n (Hn & NEn & Pn). destruct (ST n Hn NEn Pn) as [Q|Q]; [left; exact Q|right; split; [lia|exact Q]].
    - auto.
    - exists k'. split; [lia|exact Q].
    - replace (j + (k - j))%nat with k in * by lia. destruct D0 as [D0|[(a & Da & buf & niov & Ea & Hb & Hn')|D0]]; [contradiction| |elim NEk; rewrite <- (na_avail k d Hf); exact D0].
      destruct (ST k Hn NEk Pk) as [(k' & Hk' & Q)|[NE' P']]; [exists k'; split; [lia|exact Q]|]. exfalso.
      destruct (ro_live _ _ _ _ _ _ K k Hn) as [L RD]. pose proof (kf_does _ _ _ _ _ FV k) as HS. rewrite Da, Ea in HS. destruct HS as [_ HS]. cbn [step] in HS. rewrite L in HS. cbn [negb] in HS.
      destruct (kf_facts _ _ _ _ FV k) as (fsz & F & WW & HP & _). pose proof (wi_ring _ _ _ WW) as J. specialize (HP d). rewrite Pk in HP.
      destruct (c_pc (cli (W k) d)) as [ |[| | |] ? ? ?|[| | |] ? ? ?|? ?|? ?| | |?|g0 s0 z0] eqn:Hpc; cbn [pc_for] in HP; try discriminate; try (destruct HP as [? ?]; discriminate); try (destruct HP as (? & ? & ?); discriminate).
      cbn [start_call] in HS. rewrite RD in HS.
      assert (RN : 0 < r_n r).
      { destruct (wi_dims _ _ _ WW) as (_ & E2 & _). cbn in E2.
        destruct (ring_unread (w_ring (W k))) as [|m t] eqn:EU; [contradiction|].
        pose proof (unread_bounds _ _ (i_inv0 _ _ J)) as [UB _]. rewrite EU in UB. unfold nbytes in UB. cbn [concat] in UB. rewrite zlen_app in UB. pose proof (zlen_nonneg (concat t)).
        assert (0 < zlen m); [|lia]. assert (HI : In m (committed (upto V k))).
        { rewrite (unread_eq _ _ (i_inv0 _ _ J)) in EU. unfold lastn in EU. rewrite <- (firstn_skipn (Z.to_nat (zlen (committed (upto V k)) - r_m (w_ring (W k)))) (committed (upto V k))). apply in_or_app. right. rewrite EU. left. reflexivity. }
        pose proof (w_ne _ _ _ (i_win _ _ (i_inv0 _ _ J))) as NN. unfold nonempty in NN. rewrite Forall_forall in NN. apply (NN _ HI). }
      assert (ZB : (zlen buf =? 0) || (niov =? 0) = false).
      { apply orb_false_intro; apply Z.eqb_neq; [unfold usable in Hb|]; lia. }
      rewrite ZB in HS. cbn [obind] in HS. injection HS as _ EV. cbn [upto] in P'. rewrite <- EV, pending_app in P'. cbn [fold_left rets map] in P'. rewrite is_refl in P'. discriminate. }
  intros j Hj NE. destruct (pending d (upto V j)) as [x|] eqn:Px; [|apply B1; assumption].
  destruct (ro_calls _ _ _ _ _ _ K j x Hj Px) as (buf & niov & -> & _).
  destruct (n_read buf niov j) as (k & Hk & Rk & [Q|Q]); [split; [exact Hj|split; [exact Px|exact NE]]| |exists k; auto].
  destruct (n_end buf niov k Rk Q) as [Q'|[_ Q']]; [exists k; auto|].
  destruct (stay k) as [Q2|Q2]; [destruct Rk as (_ & _ & Rk); exact Rk|exists k; auto|].
  destruct (B1 (S k)) as (k' & Hk' & Q3); [lia|exact Q2|exact Q'|exists k'; split; [lia|exact Q3]].
Qed.
End Reader.

(** *** the writer *)
Notation rk c i := (rank (c_pc (cli (W i) c))).
Notation len i := (length (ring_unread (w_ring (W i)))).
Lemma n_rank c x k : (i0 <= k)%nat -> (forall b n, x <> CRead b n) -> pending c (upto V k) = Some x ->
  ends c (V k) \/ (pending c (upto V (S k)) = Some x /\ (rk c (S k) <= rk c k)%nat
     /\ ((exists ms, In (ECommit c ms) (V k)) \/ ((exists e, D k = Acts (ARun c e)) /\ asleep (W k) c = false /\ isW (c_pc (cli (W k) c)) = false) -> (rk c (S k) < rk c k)%nat)).
Proof.
  intros Hk0 NR Pd. destruct (nk k Hk0) as (a & Ea0 & Ha & HS). destruct (kf_in_call _ _ _ _ FV k c x Pd) as [E|[P' HD]]; [left; exact E|].
  pose proof (kf_live _ _ _ _ FV _ _ _ Pd) as L. destruct (kf_facts _ _ _ _ FV k) as (_ & _ & _ & HP & _). specialize (HP c). rewrite Pd in HP.
  assert (RUN : forall e, D k = Acts (ARun c e) -> asleep (W k) c = false -> ends c (V k) \/ (pending c (upto V (S k)) = Some x /\ (rk c (S k) <= rk c k)%nat
     /\ ((exists ms, In (ECommit c ms) (V k)) \/ ((exists e, D k = Acts (ARun c e)) /\ asleep (W k) c = false /\ isW (c_pc (cli (W k) c)) = false) -> (rk c (S k) < rk c k)%nat))).
  { intros e Ea As. rewrite Ea in Ea0. injection Ea0 as <-. destruct (run_rank0 _ _ _ _ _ _ NR L As HP HS) as [Q|[Q1 Q2]]; [left; exact Q|right]. split; [exact P'|]. split; [exact Q1|]. intros [H|(_ & _ & H)]; apply Q2; auto. }
  destruct (asleep (W k) c) eqn:As.
  - right. split; [exact P'|]. assert (NC : ~ exists ms, In (ECommit c ms) (V k)).
    { intros (ms & HI). destruct (commit_run _ _ _ _ _ _ HS HI) as (e & kk & ln & nb & _ & _ & Hpc). unfold asleep in As. rewrite Hpc in As. discriminate. }
    split; [|intros [H|(_ & H & _)]; [contradiction|discriminate]].
    destruct HD as [(E & _)|[(_ & _ & E & _)|[(e & _ & E)|(_ & E)]]].
    + rewrite E. lia.
    + rewrite E. unfold resume. unfold asleep in As. destruct (c_pc (cli (W k) c)) as [ |[| | |] ? ? ?|[| | |] ? ? ?|? ?|? ?| | |?|g0 s0 z0] eqn:Hpc; try discriminate As; cbn; rewrite ?Hpc; cbn; lia.
    + discriminate.
    + rewrite E. unfold asleep in As. destruct (c_pc (cli (W k) c)) as [ |[| | |] ? ? ?|[| | |] ? ? ?|? ?|? ?| | |?|g0 s0 z0] eqn:Hpc; try discriminate As; cbn [rank]; try lia. cbn [pc_for] in HP. injection HP as HP. elim (NR _ _ HP).
  - destruct HD as [(E & _)|[(_ & E & _)|[(e & Ea & _)|(E & _)]]]; try discriminate; [|apply (RUN e Ea eq_refl)].
    assert (HA : (exists e, D k = Acts (ARun c e)) \/ ~ exists e, D k = Acts (ARun c e)).
    { rewrite Ea0. destruct a as [| |c1 e1| | | |]; try (right; intros [? ?]; discriminate). destruct (Nat.eq_dec c1 c) as [->|N]; [left; eauto|right; intros [? ?]; congruence]. }
    destruct HA as [[e Ea]|HA]; [apply (RUN e Ea eq_refl)|]. right. split; [exact P'|]. split; [rewrite E; lia|].
    intros [(ms & HI)|(H & _)]; [|contradiction]. destruct (commit_run _ _ _ _ _ _ HS HI) as (e & _ & _ & _ & Ea & _). elim HA. exists e. congruence.
Qed.

Lemma n_len k : (i0 <= k)%nat -> (forall c ms, ~ In (ECommit c ms) (V k)) -> (len (S k) <= len k)%nat.
Proof.
  intros Hk0 NC. destruct (nk_effect k Hk0) as [g EE]. revert NC.
  destruct EE as [ev r' D1 D2 D3 U RT _|c v so t r' U RT _ _ _ _|c iov0 rs dropped wok r' D1 D2 D3 D4 D5 D6 U RT _|c v buf iov0 av ln niov r' D1 D2 D3 taken D4 D5 D6 U RT _]; intros NC.
  - rewrite U. lia.
  - rewrite U. lia.
  - elim (NC c iov0). left. reflexivity.
  - rewrite U. destruct (r_farm _); [lia|]. rewrite skipn_length. lia.
Qed.

Lemma n_track c x i n : (forall b m, x <> CRead b m) -> (forall j, (i0 <= j)%nat -> ~ written_by_other c (V j)) -> (i0 <= i)%nat -> pending c (upto V i) = Some x ->
  (exists k, (i <= k < i + n)%nat /\ (ends c (V k) \/ (pending c (upto V (S k)) = Some x /\ (rk c (S k) < rk c i)%nat)))
  \/ (pending c (upto V (i + n)) = Some x /\ (rk c (i + n) <= rk c i)%nat /\ (len (i + n) <= len i)%nat).
Proof.
  intros NR ONLY Hi Pd.
  destruct (until (fun k => (i <= k)%nat /\ pending c (upto V k) = Some x /\ (rk c k <= rk c i)%nat /\ (len k <= len i)%nat)
    (fun k => ends c (V k) \/ (pending c (upto V (S k)) = Some x /\ (rk c (S k) < rk c i)%nat))) with (n := n) (i := i) as [Q|(_ & Q)]; [|auto|left; exact Q|right; exact Q].
  intros k (Hk & Pk & Rk & Lk). destruct (n_rank c x k ltac:(lia) NR Pk) as [Q|(P' & R' & S')]; [left; left; exact Q|].
  destruct (commit_or (V k)) as [(c' & ms & HI)|HC].
  - destruct (Nat.eq_dec c' c) as [->|N].
    + left. right. split; [exact P'|]. assert (rk c (S k) < rk c k)%nat by (apply S'; left; eauto). lia.
    + elim (ONLY k ltac:(lia)). exists c', ms. auto.
  - right. split; [lia|]. split; [exact P'|]. split; [lia|]. assert (len (S k) <= len k)%nat; [|lia]. apply n_len; [lia|].
    intros c' ms HI. destruct (nk k ltac:(lia)) as (a0 & _ & _ & HS0). revert HC HI. intros HC HI.
    destruct (commit_run _ _ _ _ _ _ HS0 HI) as (e & kk & ln & nb & Ea & L & Hpc).
    destruct (kf_facts _ _ _ _ FV k) as (fsz & F & WW & _). destruct (wi_cl _ _ _ WW c' L) as [ms' C]. pose proof (ci_pc _ _ _ _ C) as P. unfold pc_ok in P. rewrite Hpc in P.
    destruct P as (_ & (NE & _) & _). apply in_split in HI. destruct HI as (l1 & l2 & HI). rewrite HI, committed_app in HC. apply app_eq_nil in HC. destruct HC as [_ HC]. cbn in HC. apply app_eq_nil in HC. destruct HC as [HC _]. contradiction.
Qed.

Theorem n_pipe c d : reads_on r W D V d i0 -> kfair W D V c -> pending c (upto V i0) = None -> (forall j, (i0 <= j)%nat -> ~ written_by_other c (V j)) ->
  forall x i, (forall b n, x <> CRead b n) -> (i0 <= i)%nat -> pending c (upto V i) = Some x -> exists j, (i <= j)%nat /\ ends c (V j).
Proof.
  intros K F PC0 ONLY x.
  assert (MAIN : forall n m i, (forall b n, x <> CRead b n) -> (i0 <= i)%nat -> pending c (upto V i) = Some x -> (rk c i < n)%nat -> (len i < m)%nat -> exists j, (i <= j)%nat /\ ends c (V j)).
  2: { intros i NR Hi Pd. apply (MAIN (S (rk c i)) (S (len i)) i); auto. }
  induction n as [|n IHn]; [intros; lia|]. induction m as [|m IHm]; [intros; lia|]. intros i NR Hi Pd Hr Hm.
  (* what to do when the rank has gone down *)
  assert (DOWN : forall k, (i <= k)%nat -> pending c (upto V (S k)) = Some x -> (rk c (S k) < rk c i)%nat -> exists j, (i <= j)%nat /\ ends c (V j)).
  { intros k Hk Pk Rk. destruct (IHn (S (len (S k))) (S k) NR ltac:(lia) Pk ltac:(lia) ltac:(lia)) as (j & Hj & Q). exists j. split; [lia|exact Q]. }
  destruct (kf_facts _ _ _ _ FV i) as (fsz & F0 & WW & HP & _ & _ & EF & ED & _). pose proof (pend_live _ _ _ _ _ WW HP Pd) as L.
  assert (TURN : asleep (W i) c = false -> isW (c_pc (cli (W i) c)) = false -> exists j, (i <= j)%nat /\ ends c (V j)).
  { intros As NW. destruct (kl_turn _ _ _ _ FV c x i F Pd As) as (j & Hj & [Q|(Pj & Ej & e & Ea)]); [eauto|].
    destruct (n_rank c x j ltac:(lia) NR Pj) as [Q|(P' & _ & S')]; [eauto|]. apply (DOWN j Hj P').
    assert (rk c (S j) < rk c j)%nat; [|rewrite Ej in *; assumption]. apply S'. right. unfold asleep in *. rewrite Ej. eauto. }
  specialize (HP c). rewrite Pd in HP.
  assert (WR : adding (W i) c <> [] -> exists j, (i <= j)%nat /\ ends c (V j)).
  { intros NE. assert (DEC : kfits i (adding (W i) c) \/ (r_drop (w_ring (W i)) = false /\ room (r_n (w_ring (W i))) (r_mm (w_ring (W i))) (adding (W i) c) (ring_unread (w_ring (W i))) = false)).
    { unfold KillFair.kfits. destruct (r_drop (w_ring (W i))); [left; left; reflexivity|]. destruct (room _ _ _ _); auto. }
    destruct DEC as [FT|[D1 D2]].
    - destruct (kl_write _ _ _ _ FV c i F NE FT (ws c PC0 i Hi NE FT)) as (j & Hj & Q). destruct (n_track c x i (j - i) NR ONLY Hi Pd) as [(k & Hk & [T|[T1 T2]])|(T1 & T2 & _)].
      + exists k. split; [lia|exact T].
      + apply (DOWN k); [lia|exact T1|exact T2].
      + replace (i + (j - i))%nat with j in * by lia. destruct Q as [Q|[Q|Q]]; [|eauto|elim (ONLY j ltac:(lia) Q)].
        destruct (n_rank c x j ltac:(lia) NR T1) as [Q'|(P' & _ & S')]; [eauto|]. apply (DOWN j Hj P'). assert (rk c (S j) < rk c j)%nat by (apply S'; left; eauto). lia.
    - assert (Hf : r_farm r = false).
      { destruct (r_farm r) eqn:Hf; [|reflexivity]. destruct (i_farm _ _ (wi_ring _ _ _ WW) EF) as [_ Q]. congruence. }
      assert (NU : ring_unread (w_ring (W i)) <> []).
      { intros E. rewrite E in D2. destruct (wi_cl _ _ _ WW c L) as [ms C]. pose proof (ci_pc _ _ _ _ C) as P. unfold pc_ok in P. unfold adding in *.
        assert (I : iov_ok (r_n (w_ring (W i))) (r_mm (w_ring (W i))) (match c_pc (cli (W i) c) with RunW _ iov _ _ | WaitW _ iov _ _ => iov | _ => [] end)) by (destruct (c_pc (cli (W i) c)); try contradiction; apply P).
        destruct I as (_ & _ & I1 & I2). assert (room (r_n (w_ring (W i))) (r_mm (w_ring (W i))) (match c_pc (cli (W i) c) with RunW _ iov _ _ | WaitW _ iov _ _ => iov | _ => [] end) [] = true); [|congruence].
        apply room_iff. change (nbytes []) with 0. change (zlen (@nil bytes)) with 0. lia. }
      destruct (n_drain d K Hf i Hi NU) as (k & Hk & SH).
      destruct (n_track c x i (k - i) NR ONLY Hi Pd) as [(k' & Hk' & [T|[T1 T2]])|(T1 & T2 & T3)].
      + exists k'. split; [lia|exact T].
      + apply (DOWN k'); [lia|exact T1|exact T2].
      + replace (i + (k - i))%nat with k in * by lia. destruct (n_rank c x k ltac:(lia) NR T1) as [Q'|(P' & R' & _)]; [eauto|].
        unfold Fair.shrunk in SH. destruct (IHm (S k) NR ltac:(lia) P' ltac:(lia) ltac:(lia)) as (j & Hj & Q). exists j. split; [lia|exact Q]. }
  unfold asleep in TURN. unfold adding in WR. destruct (wi_cl _ _ _ WW c L) as [ms C]. pose proof (ci_pc _ _ _ _ C) as P. unfold pc_ok in P.
  destruct (c_pc (cli (W i) c)) as [ |k iov ln nb|k iov ln nb|b n0|b n0| | |t|g0 s0 z0] eqn:Hpc; cbn [pc_for] in HP; try discriminate HP; try (apply TURN; reflexivity).
  - apply WR. destruct P as (_ & (NE & _) & _). exact NE.
  - apply WR. destruct P as (_ & (NE & _) & _). exact NE.
  - exfalso. injection HP as E. apply (NR _ _ E).
Qed.


(** *** delivery *)
Lemma n_fifo j : r_drop r = false -> r_farm r = false -> (i0 <= j)%nat -> delivered (upto V (S j)) ++ unread (S j) = delivered (upto V j) ++ unread j ++ committed (V j).
Proof.
  intros Hd Hf H. destruct (kf_facts _ _ _ _ FV j) as (fsz & F & WW & HP & HB & _ & EF & ED & _). rewrite <- EF in Hf. rewrite <- ED in Hd.
  cbn [upto]. rewrite delivered_app, <- app_assoc. f_equal. destruct (nk_effect j H) as [g EE]. revert Hd Hf.
  destruct EE as [ev r' D1 D2 D3 U RT _|c v so t r' U RT _ _ _ _|c iov rs0 dropped wok r' D1 D2 D3 D4 D5 D6 U RT _|c v buf iov av ln niov r' D1 D2 D3 taken D4 D5 D6 U RT _]; intros Hd Hf.
  - rewrite D1, D2, U, app_nil_r. reflexivity.
  - rewrite U. cbn. rewrite app_nil_r. reflexivity.
  - destruct (D5 Hd) as [RM _]. rewrite U, (fit_room _ _ _ _ RM).
    change (delivered (ECommit c iov :: rets c rs0)) with (delivered (rets c rs0)). rewrite D1.
    change (committed (ECommit c iov :: rets c rs0)) with (iov ++ committed (rets c rs0)). rewrite committed_rets, app_nil_r. reflexivity.
  - rewrite U, Hf. change (delivered [ERet c (RetRead v buf iov)]) with (read_msgs (RetRead v buf iov) ++ []). rewrite app_nil_r, D4.
    change (committed [ERet c (RetRead v buf iov)]) with (@nil bytes). rewrite app_nil_r.
    destruct (take_fit_prefix niov ln av) as [rest E]. fold taken in E. rewrite (D1 Hf) in E. rewrite E. unfold zlen. rewrite Nat2Z.id, skipn_app, skipn_all, Nat.sub_diag. reflexivity.
Qed.
Theorem n_delivery d : reads_on r W D V d i0 -> r_drop r = false -> forall i, (i0 <= i)%nat ->
  exists j more, (i <= j)%nat /\ delivered (upto V j) = delivered (upto V i) ++ unread i ++ more.
Proof.
  intros K Hd i Hi.
  assert (Hf : r_farm r = false).
  { destruct (kf_facts _ _ _ _ FV i) as (fsz & _ & WW & _ & _ & _ & EF & ED & _). destruct (r_farm r) eqn:Hf; [|reflexivity]. destruct (i_farm _ _ (wi_ring _ _ _ WW) EF) as [_ Q]. congruence. }
  assert (FF : forall j, (i <= j)%nat -> exists l, delivered (upto V j) ++ unread j = delivered (upto V i) ++ unread i ++ l /\ committed (upto V j) = committed (upto V i) ++ l).
  { induction 1 as [|j H (l & IH & IC)]; [exists []; rewrite !app_nil_r; auto|]. exists (l ++ committed (V j)). split.
    - rewrite n_fifo by (auto; lia). rewrite app_assoc, IH, <- !app_assoc. reflexivity.
    - cbn [upto]. rewrite committed_app, IC, app_assoc. reflexivity. }
  set (N := (length (delivered (upto V i)) + length (unread i))%nat).
  assert (MAIN : forall n j, (i <= j)%nat -> (N <= length (delivered (upto V j)) + n)%nat -> exists k, (j <= k)%nat /\ (N <= length (delivered (upto V k)))%nat).
  { induction n as [|n IH]; intros j Hj HL; [exists j; split; lia|].
    destruct (unread j) eqn:EU.
    - exists j. split; [lia|]. destruct (FF j Hj) as (l & E & _). rewrite EU, app_nil_r in E. rewrite E, !app_length. unfold N. lia.
    - destruct (n_drain d K Hf j ltac:(lia)) as (k & Hk & SH); [congruence|]. unfold Fair.shrunk in SH.
      pose proof (f_equal (@length _) (n_fifo k Hd Hf ltac:(lia))) as E. rewrite !app_length in E.
      destruct (upto_app V j k Hk) as (l' & E'). assert (length (delivered (upto V j)) <= length (delivered (upto V k)))%nat by (rewrite E', delivered_app, app_length; lia).
      destruct (IH (S k)) as (k' & Hk' & Q); [lia|lia|]. exists k'. split; [lia|exact Q]. }
  destruct (MAIN N i) as (k & Hk & Q); [lia|lia|]. exists k. destruct (FF k Hk) as (l & E & _).
  exists (skipn N (delivered (upto V k))). split; [exact Hk|].
  rewrite <- (firstn_skipn N (delivered (upto V k))) at 1. rewrite app_assoc. f_equal.
  apply (f_equal (firstn N)) in E. rewrite app_assoc in E. rewrite !firstn_app in E. replace (N - length (delivered (upto V k)))%nat with O in E by lia.
  replace (N - length (delivered (upto V i) ++ unread i))%nat with O in E by (rewrite app_length; unfold N; lia). rewrite !firstn_O, !app_nil_r in E. rewrite E, <- firstn_app. apply firstn_all2. rewrite app_length. unfold N. lia.
Qed.
End Run.
