(** * Facts about Disk.v, continued: whole executions (C83) *)
From Verif Require Import MicroFacts Crash Effects Final Pending PollFacts StepInv WorldFacts FineSect.
From Verif Require Export DiskFacts.

Lemma do_open_ring e w flags pid w' o : do_open e w flags pid = Ok (w', o) -> has flags SHR_RDONLY && has flags SHR_WRONLY = false -> LI w -> w_ring w' = w_ring w.
Proof.
  intros E X L. pose proof (open_exec _ _ _ _ _ _ L X E) as H.
  assert (R : forall (p : prog shm unit), each (fun a b => sh_ring b = sh_ring a) p -> forall m m' x, exec_all p m = Ok (m', x) -> sh_ring m' = sh_ring m).
  { intros p EP. apply (each_exec (fun a b => sh_ring b = sh_ring a)); [reflexivity|congruence|exact EP]. }
  apply (R (open_section e w flags pid)) in H; [exact H|]. clear.
  assert (B : forall A b (p : prog bks A), each (fun a b : shm => sh_ring b = sh_ring a) (on_bw b p)).
  { intros A b p. apply (each_lift (fun _ _ => True)); [|apply each_any; auto]. intros t s _. destruct b; reflexivity. }
  unfold open_section, fail_open, close_opt. repeat first [apply ea_ret|apply B|apply each_bind; [|intro]|match goal with |- each _ (match ?x with _ => _ end) => destruct x end].
Qed.
Theorem dopen_exec e w flags pid w' ev u : LI w -> has flags SHR_RDONLY && has flags SHR_WRONLY = false -> step w (AOpen e flags pid) = Ok (w', ev) ->
  w_ring w' = w_ring w /\ exists u', exec_all (dopen e w flags pid) (shared w, u) = Ok ((shared w', u'), tt)
  /\ ((has (r_gflags (w_ring w)) SHR_SYNC = true /\ u' = Some [im (shared w')])
      \/ quiet (w_ring w) u u' /\ (has (r_gflags (w_ring w)) SHR_SYNC = true -> forall c, ~ In (EOpen flags (Some c)) ev)).
Proof.
  intros L X S. cbn [step] in S. apply obind_ok in S. destruct S as ([w1 o] & E & S).
  pose proof (do_open_ring _ _ _ _ _ _ E X L) as R1. pose proof (open_exec _ _ _ _ _ _ L X E) as Ex.
  assert (SH : shared w' = shared w1) by (destruct o; injection S as <- _; reflexivity).
  assert (R : w_ring w' = w_ring w) by (destruct o; injection S as <- _; exact R1). split; [exact R|].
  unfold dopen. rewrite exec_bind, mem_exec, Ex. cbn [obind]. unfold opened. rewrite E. rewrite SH.
  destruct o as [cl|].
  - rewrite exec_msync. eexists. split; [reflexivity|]. cbn [shared sh_ring]. rewrite R1.
    assert (SY : shr_sync e (w_ring w) = true).
    { unfold do_open in E. repeat match type of E with (if ?b then Ok _ else _) = Ok _ => destruct b; [discriminate E|] end.
      apply obind_ok in E. destruct E as ([w2 hs] & _ & E). destruct hs as [[a b]|]; [|discriminate E]. destruct (init_cache _ _ _); [|discriminate E]. destruct (shr_sync e (w_ring w)); [reflexivity|discriminate E]. }
    unfold shr_sync in SY. destruct (has (r_gflags (w_ring w)) SHR_SYNC); cbn [negb orb andb] in *.
    + rewrite SY. left. split; reflexivity.
    + right. split; [|discriminate]. eapply quiet_open; [exact Ex|exact R1].
  - cbn [exec_all]. eexists. split; [reflexivity|]. right. split; [eapply quiet_open; [exact Ex|exact R1]|].
    intros _ c Hc. injection S as _ <-. destruct Hc as [Hc|[]]. discriminate Hc.
Qed.
Lemma no_open : forall f c, ~ In (EOpen f c) [].
Proof. intros f c []. Qed.
Lemma other_ring w a w' ev : step w a = Ok (w', ev) -> (forall e f p, a <> AOpen e f p) -> (forall c e, a <> ARun c e) ->
  w_ring w' = w_ring w /\ (forall f c, ~ In (EOpen f c) ev).
Proof.
  intros S N1 N2.
  assert (RT : forall (P : ret -> event) l f c, (forall x, P x <> EOpen f c) -> ~ In (EOpen f c) (map P l)) by (intros P l f c H I; apply in_map_iff in I; destruct I as (x & E & _); exact (H x E)).
  destruct a as [e f p|c x|c e|c|c|c fd|c]; try (exfalso; eapply N1; reflexivity); try (exfalso; eapply N2; reflexivity); cbn [step] in S.
  - destruct (c_live (cli w c)); cbn [negb] in S; [|injection S as <- <-; split; [reflexivity|exact no_open]].
    destruct (c_pc (cli w c)); try (injection S as <- <-; split; [reflexivity|exact no_open]).
    apply obind_ok in S. destruct S as ([cl1 rs] & _ & S). injection S as <- <-. split; [reflexivity|]. intros f k [H|H]; [discriminate H|]. revert H. apply RT. discriminate.
  - destruct (wait_sid (cli w c)) as [[s p]|]; [destruct (k_pend (sk (w_ks w) s) >? 0)|]; injection S as <- <-; (split; [reflexivity|exact no_open]).
  - unfold wait_failed in S. destruct (c_pc (cli w c)); try (injection S as <- <-; split; [reflexivity|exact no_open]).
    + apply obind_ok in S. destruct S as ([cl1 rs] & _ & S). injection S as <- <-. split; [reflexivity|]. intros g kk. apply RT. discriminate.
    + injection S as <- <-. split; [reflexivity|]. intros ? ? [H|[]]. discriminate H.
  - destruct (wait_sid (cli w c)) as [[s p]|]; [|injection S as <- <-; split; [reflexivity|exact no_open]].
    destruct (existsb _ _); [|injection S as <- <-; split; [reflexivity|exact no_open]].
    unfold wait_failed in S. destruct (c_pc (cli w c)); try (injection S as <- <-; split; [reflexivity|exact no_open]).
    + apply obind_ok in S. destruct S as ([cl1 rs] & _ & S). injection S as <- <-. split; [reflexivity|]. intros g kk. apply RT. discriminate.
    + injection S as <- <-. split; [reflexivity|]. intros ? ? [H|[]]. discriminate H.
  - destruct (c_live (cli w c)); cbn [negb] in S; injection S as <- <-; (split; [reflexivity|]); [|exact no_open]. intros ? ? [H|[]]. discriminate H.
Qed.
Lemma run_no_open e w c w' ev : run_client e w c = Ok (w', ev) -> forall f k, ~ In (EOpen f k) ev.
Proof.
  intros H f k I.
  assert (RT : forall l, ~ In (EOpen f k) (rets c l)) by (intros l J; apply in_map_iff in J; destruct J as (x & E & _); discriminate E).
  unfold run_client in H. cbv zeta in H. destruct (c_pc (cli w c)).
  all: repeat match type of H with
    | obind _ _ = Ok _ => apply obind_ok in H; let y := fresh "y" in destruct H as (y & ? & H)
    | (let '(_, _) := ?x in _) = Ok _ => destruct x
    | match ?x with _ => _ end = Ok _ => destruct x
    end; try discriminate H; injection H as _ <-; try (destruct I as [I|[]]; discriminate I); try contradiction;
    try (apply RT in I; contradiction); apply in_app_or in I; destruct I as [I|I]; try (apply RT in I; contradiction);
    match type of I with In _ (if ?b then _ else _) => destruct b end; try contradiction; destruct I as [I|[]]; discriminate I.
Qed.

(** ** executions *)
Lemma dexec_exec P w0 w evs u : dexec P w0 w evs u -> exec P w0 w evs.
Proof. induction 1; [constructor|econstructor; eassumption]. Qed.
Lemma exec_kexec P w0 w evs : exec P w0 w evs -> kexec P w0 w evs.
Proof. induction 1; [constructor|econstructor; eassumption]. Qed.
Lemma dexec_LI P r fsz w evs u : dexec P (world0 r fsz) w evs u -> LI w.
Proof. intros H. eapply kexec_LI, exec_kexec, dexec_exec, H. Qed.
Lemma dreach_reach P r w evs u : dreach P r w evs u -> reach P r w evs.
Proof. intros (fsz & F & H & B). exists fsz. split; [exact F|]. split; [eapply dexec_exec, H|exact B]. Qed.
(** the disk follows every execution *)
Lemma dstep_exists w a w' ev u : LI w -> contract w a -> step w a = Ok (w', ev) -> exists m u', exec_all (dprog w a) (shared w, u) = Ok ((m, u'), tt).
Proof.
  intros L C S. destruct a as [e f p|c x|c e|c|c|c fd|c]; cbn [dprog]; try (eexists _, _; reflexivity).
  - destruct C as (_ & _ & X). destruct (dopen_exec _ _ _ _ _ _ u L X S) as (_ & u' & E & _). eauto.
  - cbn [step] in S. destruct (c_live (cli w c)); [|eexists _, _; reflexivity]. destruct (dsection_exec _ _ _ _ _ u L S) as (u' & E & _). eauto.
Qed.
Theorem d_exists (P : world -> action -> Prop) r w evs : (forall w a, P w a -> contract w a) -> reach P r w evs -> exists u, dreach P r w evs u.
Proof.
  intros HP (fsz & F & H & B). assert (X : exists u, dexec P (world0 r fsz) w evs u); [|destruct X as [u X]; exists u, fsz; auto].
  clear B. induction H as [|w evs a w' ev H IH Pa S]; [exists None; constructor|]. destruct IH as [u IH].
  destruct (dstep_exists w a w' ev u) as (m & u' & E); [eapply dexec_LI, IH|auto|exact S|]. exists u'. econstructor; eassumption.
Qed.

(** ** the disk has what is in memory *)
Definition synced (w : world) (u : store) : Prop := match u with None => True | Some l => forall s, In s l -> im_ring s = w_ring w end.
Lemma synced_quiet w w' u u' : w_ring w' = w_ring w -> synced w u -> quiet (w_ring w) u u' -> synced w' u'.
Proof.
  intros R S Q. destruct u as [l|]; cbn [quiet] in Q; [|subst; exact Logic.I]. destruct Q as (l' & -> & Q). cbn [synced] in *. rewrite R.
  intros s Hs. destruct (Q s Hs) as [H|H]; [apply S, H|exact H].
Qed.
Lemma quiet_some r u u' : quiet r u u' -> u <> None -> u' <> None.
Proof. destruct u as [l|]; [|congruence]. intros (l' & -> & _) _. discriminate. Qed.
Lemma gflags_reach r w evs : reach contract r w evs -> r_gflags (w_ring w) = r_gflags r.
Proof. intros H. destruct (reach_inv _ _ _ _ id_contract H) as (fsz & _ & _ & _ & W & _). destruct (wi_dims _ _ _ W) as (E & _). exact E. Qed.
Lemma seq_bound_app r e1 e2 : seq_bound r (e1 ++ e2) -> seq_bound r e1.
Proof.
  intros H F. specialize (H F). revert H. unfold committed. rewrite flat_map_app, zlen_app. pose proof (zlen_nonneg (flat_map (fun e => match e with ECommit _ ms => ms | _ => [] end) e2)). lia.
Qed.
Lemma faultless_contract w a : faultless w a -> contract w a. Proof. intros [[H _] _]. exact H. Qed.
Lemma synced_step w u a w' ev m u' : LI w -> has (r_gflags (w_ring w)) SHR_SYNC = true -> has (r_gflags (w_ring w')) SHR_SYNC = true ->
  faultless w a -> step w a = Ok (w', ev) -> exec_all (dprog w a) (shared w, u) = Ok ((m, u'), tt) -> synced w u ->
  synced w' u' /\ (u <> None -> u' <> None) /\ (forall f c, In (EOpen f (Some c)) ev -> u' <> None).
Proof.
  intros L G1 G2 [[C GE] MS] S D IS.
  assert (Q : w_ring w' = w_ring w -> quiet (w_ring w) u u' -> (forall f c, ~ In (EOpen f (Some c)) ev) -> synced w' u' /\ (u <> None -> u' <> None) /\ (forall f c, In (EOpen f (Some c)) ev -> u' <> None)).
  { intros R Q NO. split; [eapply synced_quiet; eassumption|]. split; [apply (quiet_some _ _ _ Q)|]. intros f c I. exfalso. exact (NO _ _ I). }
  assert (A : u' = Some [im (shared w')] -> synced w' u' /\ (u <> None -> u' <> None) /\ (forall f c, In (EOpen f (Some c)) ev -> u' <> None)).
  { intros ->. split; [|split; discriminate]. intros s [<-|[]]. reflexivity. }
  destruct a as [e f p|c x|c e|c|c|c fd|c];
    try (cbn [dprog exec_all] in D; injection D as _ <-; apply other_ring in S; [|discriminate..]; destruct S as [R NO]; apply Q; [exact R|apply quiet_refl|intros; apply NO]).
  + destruct C as (C1 & C2 & C3). destruct (dopen_exec _ _ _ _ _ _ u L C3 S) as (R & u1 & E & K). cbn [dprog] in D. rewrite D in E. injection E as _ <-.
    destruct K as [[_ K]|[K NO]]; [apply A, K|]. apply Q; [exact R|exact K|]. intros g c I.
    assert (g = f) as -> by (cbn [step] in S; apply obind_ok in S; destruct S as ([w1 o] & _ & S); destruct o; injection S as _ <-; destruct I as [I|[]]; injection I as ->; reflexivity).
    exact (NO G1 c I).
  + cbn [dprog step] in D, S. destruct (c_live (cli w c)).
    2:{ injection S as <- <-. injection D as _ <-. apply Q; [reflexivity|apply quiet_refl|intros f k; apply no_open]. }
    destruct (dsection_exec _ _ _ _ _ u L S) as (u1 & E & K). rewrite D in E. injection E as _ <-.
    destruct K as [[_ K]|[(R & K & _)|(K & _)]]; [apply A, K|apply Q; [exact R|exact K|intros f k; exact (run_no_open _ _ _ _ _ S f (Some k))]|].
    exfalso. cbn in MS, GE. destruct K as [K|K]; [rewrite G2, MS in K; discriminate K|exact (K GE)].
Qed.
Theorem synced_inv r w evs u : dreach faultless r w evs u -> has (r_gflags r) SHR_SYNC = true -> synced w u /\ (was_opened evs -> u <> None).
Proof.
  intros (fsz & F & H & B) SY. induction H as [|w evs u a w' ev m u' H IH Pa S D].
  - split; [exact Logic.I|]. intros (f & c & []).
  - specialize (IH (seq_bound_app _ _ _ B)). destruct IH as [IS IO].
    assert (G : forall w1 evs1, exec faultless (world0 r fsz) w1 evs1 -> seq_bound r evs1 -> has (r_gflags (w_ring w1)) SHR_SYNC = true).
    { intros w1 evs1 X1 B1. rewrite (gflags_reach r w1 evs1); [exact SY|]. exists fsz. split; [exact F|]. split; [|exact B1]. eapply exec_mono; [|exact X1]. intros; apply faultless_contract; assumption. }
    pose proof (dexec_exec _ _ _ _ _ H) as X. pose proof (dexec_LI _ _ _ _ _ _ H) as L.
    assert (G1 := G _ _ X (seq_bound_app _ _ _ B)). assert (G2 : has (r_gflags (w_ring w')) SHR_SYNC = true) by (apply (G w' (evs ++ ev)); [econstructor; eassumption|exact B]).
    destruct (synced_step _ _ _ _ _ _ _ L G1 G2 Pa S D IS) as (K1 & K2 & K3). split; [exact K1|].
    intros (f & c & I). apply in_app_or in I. destruct I as [I|I]; [apply K2, IO; exists f, c; exact I|apply (K3 f c I)].
Qed.
(** ** a file of which every page is known *)
Lemma zget_ext {A} : forall l l' : list A, (forall k, 0 <= k -> zget l k = zget l' k) -> l = l'.
Proof.
  induction l as [|x l IH]; intros [|y l'] H; [reflexivity|..].
  - specialize (H 0 ltac:(lia)). discriminate H.
  - specialize (H 0 ltac:(lia)). discriminate H.
  - f_equal; [specialize (H 0 ltac:(lia)); cbn in H; congruence|]. apply IH. intros k Hk. specialize (H (k + 1) ltac:(lia)). unfold zget in *.
    replace (0 <=? k + 1) with true in H by (symmetry; apply Z.leb_le; lia). replace (0 <=? k) with true by (symmetry; apply Z.leb_le; lia).
    replace (Z.to_nat (k + 1)) with (Datatypes.S (Z.to_nat k)) in H by lia. exact H.
Qed.
Lemma slot_ext (a b : outcome slot) : omap sl_pos a = omap sl_pos b -> omap sl_len a = omap sl_len b -> a = b.
Proof. destruct a as [[p l]| | |], b as [[p' l']| | |]; cbn; congruence. Qed.
Lemma survives_ring l x r : 0 <= r_n r -> 0 <= r_pad_len r -> 0 <= r_mv_len r -> (forall s, In s l -> im_ring s = r) -> survives (Some l) x -> im_ring x = r.
Proof.
  intros N1 N2 N3 A S. cbn [survives] in S.
  assert (P : forall p, 0 <= p -> same_page p x (mkim r (im_w2r x) (im_r2w x)) \/ exists s, In s l /\ im_ring s = r /\ same_page p x s).
  { intros p Hp. destruct (S p Hp) as (s & I & K). right. exists s. auto. }
  clear S. assert (K : forall p, 0 <= p -> exists s, im_ring s = r /\ same_page p x s).
  { intros p Hp. destruct (P p Hp) as [K|(s & _ & E & K)]; [exists (mkim r (im_w2r x) (im_r2w x)); split; [reflexivity|exact K]|eauto]. }
  assert (C : 0 <= SIZEOF_CTRL) by (cbv; discriminate). assert (M : 0 <= SIZEOF_MSG) by (cbv; discriminate).
  destruct (K 0 ltac:(lia)) as (s & E & (C0 & _)). rewrite E in C0. specialize (C0 eq_refl). decompose [and] C0. clear C0.
  assert (D : r_d (im_ring x) = r_d r).
  { apply zget_ext. intros k Hk. destruct (K ((SIZEOF_CTRL + k) / PAGE)) as (s1 & E1 & (_ & K1 & _)); [apply Z.div_pos; [lia|reflexivity]|]. rewrite E1 in K1. apply K1; [exact Hk|reflexivity]. }
  assert (V : r_mv (im_ring x) = r_mv r).
  { apply zget_ext. intros k Hk. apply slot_ext.
    - destruct (K ((SIZEOF_CTRL + r_n r + r_pad_len r + SIZEOF_MSG * k) / PAGE)) as (s1 & E1 & (_ & _ & K1 & _)); [apply Z.div_pos; [nia|reflexivity]|]. rewrite E1 in K1. apply K1; [exact Hk|reflexivity].
    - destruct (K ((SIZEOF_CTRL + r_n r + r_pad_len r + SIZEOF_MSG * k + 8) / PAGE)) as (s1 & E1 & (_ & _ & _ & K1 & _)); [apply Z.div_pos; [nia|reflexivity]|]. rewrite E1 in K1. apply K1; [exact Hk|reflexivity]. }
  assert (Q : r_app (im_ring x) = r_app r).
  { apply zget_ext. intros k Hk. destruct (K ((SIZEOF_CTRL + r_n r + r_pad_len r + r_mv_len r + k) / PAGE)) as (s1 & E1 & (_ & _ & _ & _ & K1)); [apply Z.div_pos; [nia|reflexivity]|]. rewrite E1 in K1. apply K1; [exact Hk|reflexivity]. }
  clear K P A E C M N1 N2 N3. revert D V Q. repeat match goal with H : _ = _ |- _ => revert H end. clear. destruct (im_ring x), r. cbn. intros. subst. reflexivity.
Qed.

(** ** the theorems *)
Lemma fresh_sizes r fsz : fresh r fsz -> 0 < r_n r /\ 0 <= r_pad_len r /\ 0 <= r_mv_len r /\ SIZEOF_CTRL + r_n r + r_pad_len r + r_mv_len r + r_app_len r <= fsz
  /\ r_mv_len r = SIZEOF_MSG * r_mm r /\ zlen (r_app r) = r_app_len r.
Proof.
  intros F. pose proof (fresh_app _ _ F) as FA. destruct F as [(data_sz & flags & appsize & maxarg & l & app & E & -> & H1 & H2 & H3 & H4 & H5 & H6 & H7)].
  cbn [r_mm ring_of_layout] in H6. destruct (init_layout_ok _ _ _ _ _ E H1 H3 H4 H6) as (D0 & D1 & D2 & D3 & D4 & D5 & D6 & D7 & D8 & D9 & D10).
  change SIZEOF_CTRL with 1784 in *. change SIZEOF_PTR with 8 in *. change SIZEOF_MSG with 16 in *. cbn [r_n r_pad_len r_mv_len r_app_len ring_of_layout r_mm] in *.
  repeat split; try lia; exact FA.
Qed.
Lemma reach_sizes r w evs : reach contract r w evs -> 0 <= r_n (w_ring w) /\ 0 <= r_pad_len (w_ring w) /\ 0 <= r_mv_len (w_ring w).
Proof.
  intros H. destruct (reach_inv _ _ _ _ id_contract H) as (fsz & F & _ & _ & W & _). destruct (fresh_sizes _ _ F) as (A & B & C & _).
  destruct (wi_dims _ _ _ W) as (_ & En & _ & Ev & Ep & _). cbn [world0 w_ring] in *. rewrite En, Ev, Ep. lia.
Qed.
Lemma faultless_reach r w evs : reach faultless r w evs -> reach contract r w evs.
Proof. intros (fsz & F & X & B). exists fsz. split; [exact F|]. split; [|exact B]. eapply exec_mono; [|exact X]. intros; apply faultless_contract; assumption. Qed.
Theorem d_nothing_lost r w evs u x : dreach faultless r w evs u -> has (r_gflags r) SHR_SYNC = true -> was_opened evs -> survives u x -> im_ring x = w_ring w.
Proof.
  intros D SY O S. destruct (synced_inv _ _ _ _ D SY) as [I J]. specialize (J O). destruct u as [l|]; [|congruence].
  destruct (reach_sizes r w evs (faultless_reach _ _ _ (dreach_reach _ _ _ _ _ D))) as (A & B & C). exact (survives_ring l x (w_ring w) A B C I S).
Qed.
Theorem d_fifo r w evs u x : dreach faultless r w evs u -> has (r_gflags r) SHR_SYNC = true -> was_opened evs -> survives u x -> r_drop r = false ->
  committed evs = delivered evs ++ ring_unread (im_ring x).
Proof. intros D SY O S DR. rewrite (d_nothing_lost _ _ _ _ _ D SY O S). apply (f_fifo r); [exact (faultless_reach _ _ _ (dreach_reach _ _ _ _ _ D))|exact DR]. Qed.
Lemma dreach_step r w evs u a w' ev : dreach contract r w evs u -> contract w a -> step w a = Ok (w', ev) -> seq_bound r (evs ++ ev) -> reach contract r w' (evs ++ ev).
Proof. intros (fsz & F & X & _) C S B. exists fsz. split; [exact F|]. split; [|exact B]. econstructor; [eapply dexec_exec, X|exact C|exact S]. Qed.
Lemma single w evs r x : reach contract r w evs -> survives (Some [im (shared w)]) x -> im_ring x = w_ring w.
Proof.
  intros R S. destruct (reach_sizes _ _ _ R) as (A & B & C). apply (survives_ring [im (shared w)] x (w_ring w) A B C); [|exact S]. intros s [<-|[]]. reflexivity.
Qed.
Theorem d_success r w evs u c e w' ev m u' x y : dreach contract r w evs u -> has (r_gflags r) SHR_SYNC = true ->
  step w (ARun c e) = Ok (w', ev) -> seq_bound r (evs ++ ev) -> exec_all (dprog w (ARun c e)) (shared w, u) = Ok ((m, u'), tt) ->
  In (ERet c x) ev -> safe_result ev x -> survives u' y -> im_ring y = w_ring w'.
Proof.
  intros D SY S B E I SF SV. pose proof (dreach_step _ _ _ _ (ARun c e) _ _ D Logic.I S B) as R. 
  assert (L : LI w) by (destruct D as (fsz & _ & D & _); eapply dexec_LI, D).
  assert (G : has (r_gflags (w_ring w')) SHR_SYNC = true) by (rewrite (gflags_reach _ _ _ R); exact SY).
  cbn [dprog step] in E, S. destruct (c_live (cli w c)); [|injection S as _ <-; contradiction].
  destruct (dsection_exec _ _ _ _ _ u L S) as (u1 & E1 & K). rewrite E in E1. injection E1 as _ <-.
  destruct K as [[_ ->]|[(_ & _ & K)|(_ & _ & K)]]; [exact (single _ _ _ _ R SV)|exfalso; refine (K x I _); destruct x; exact SF || contradiction|exfalso; refine (K G x I _); destruct x; exact SF || contradiction].
Qed.
Theorem d_read r w evs u c e w' ev m u' y v b io : dreach contract r w evs u -> has (r_gflags r) SHR_SYNC = true ->
  step w (ARun c e) = Ok (w', ev) -> seq_bound r (evs ++ ev) -> exec_all (dprog w (ARun c e)) (shared w, u) = Ok ((m, u'), tt) ->
  In (ERet c (RetRead v b io)) ev -> 0 < v -> e_msync e = true -> survives u' y -> im_ring y = w_ring w'.
Proof.
  intros D SY S B E I V M SV. pose proof (dreach_step _ _ _ _ (ARun c e) _ _ D Logic.I S B) as R. 
  assert (L : LI w) by (destruct D as (fsz & _ & D & _); eapply dexec_LI, D).
  assert (G : has (r_gflags (w_ring w')) SHR_SYNC = true) by (rewrite (gflags_reach _ _ _ R); exact SY).
  cbn [dprog step] in E, S. destruct (c_live (cli w c)); [|injection S as _ <-; contradiction].
  destruct (dsection_exec _ _ _ _ _ u L S) as (u1 & E1 & K). rewrite E in E1. injection E1 as _ <-.
  destruct K as [[_ ->]|[(_ & _ & K)|(_ & _ & K)]]; [exact (single _ _ _ _ R SV)|exfalso; exact (K _ I (conj V M))|exfalso; exact (K G _ I (conj V M))].
Qed.
Theorem d_open r w evs u e flags pid w' ev m u' c y : dreach contract r w evs u -> contract w (AOpen e flags pid) -> has (r_gflags r) SHR_SYNC = true ->
  step w (AOpen e flags pid) = Ok (w', ev) -> seq_bound r (evs ++ ev) -> exec_all (dprog w (AOpen e flags pid)) (shared w, u) = Ok ((m, u'), tt) ->
  In (EOpen flags (Some c)) ev -> survives u' y -> im_ring y = w_ring w'.
Proof.
  intros D C SY S B E I SV. pose proof (dreach_step _ _ _ _ _ _ _ D C S B) as R.
  assert (L : LI w) by (destruct D as (fsz & _ & D & _); eapply dexec_LI, D).
  pose proof (dreach_reach _ _ _ _ _ D) as R0.
  assert (G : has (r_gflags (w_ring w)) SHR_SYNC = true) by (rewrite (gflags_reach _ _ _ R0); exact SY).
  destruct C as (_ & _ & X). destruct (dopen_exec _ _ _ _ _ _ u L X S) as (_ & u1 & E1 & K). cbn [dprog] in E. rewrite E in E1. injection E1 as _ <-.
  destruct K as [[_ ->]|[_ K]]; [exact (single _ _ _ _ R SV)|exfalso; exact (K G c I)].
Qed.
