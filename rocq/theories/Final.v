(** * The call-level facts restated for reachable states, in the vocabulary
    of Spec.v only. *)
From Verif Require Export Witness.

Lemma reach_inv (P : world -> action -> Prop) r w evs : (forall w a, P w a -> contract w a) -> reach P r w evs ->
  exists fsz, fresh r fsz /\ exec P (world0 r fsz) w evs /\ seq_bound r evs /\ WI (world0 r fsz) w evs /\ PI w evs
  /\ seq_bound (w_ring w) evs /\ r_farm (w_ring w) = r_farm r /\ r_drop (w_ring w) = r_drop r.
Proof.
  intros HP (fsz & F & X & B). exists fsz. split; [exact F|]. split; [exact X|]. split; [exact B|].
  pose proof (exec_WI P _ _ _ _ HP F X B) as W. split; [exact W|]. split; [apply (exec_PI P r fsz); assumption|].
  destruct (same_farm_exec P _ _ _ _ W) as [SF SD]. split; [intros H; apply B; congruence|]. auto.
Qed.
Lemma id_contract : forall w a, contract w a -> contract w a.
Proof. auto. Qed.

Lemma room_iff n mm iov ms : room n mm iov ms = true <-> nbytes ms + nbytes iov <= n /\ zlen ms + zlen iov <= mm.
Proof. unfold room. rewrite andb_true_iff, !Z.leb_le. reflexivity. Qed.
Lemma room_false n mm iov ms : room n mm iov ms = false <-> ~ (nbytes ms + nbytes iov <= n /\ zlen ms + zlen iov <= mm).
Proof. rewrite <- room_iff. destruct (room n mm iov ms); split; congruence. Qed.
Lemma fit_suffix_spec n mm iov : nbytes iov <= n -> zlen iov <= mm -> forall ms,
  room n mm iov (fit_suffix n mm iov ms) = true
  /\ forall p s, ms = p ++ s -> room n mm iov s = true -> zlen s <= zlen (fit_suffix n mm iov ms).
Proof.
  intros H1 H2. induction ms as [|m t [IH1 IH2]].
  - cbn [fit_suffix]. assert (R : room n mm iov [] = true) by (apply room_iff; split; cbn; assumption).
    rewrite R. split; [exact R|]. intros p s E _. symmetry in E. apply app_eq_nil in E. destruct E as [_ ->]. lia.
  - cbn [fit_suffix]. destruct (room n mm iov (m :: t)) eqn:R.
    + split; [exact R|]. intros p s E _. rewrite E, zlen_app. pose proof (zlen_nonneg p). lia.
    + split; [exact IH1|]. intros p s E Hs. destruct p as [|x p]; [cbn in E; congruence|].
      cbn in E. injection E as _ E. apply (IH2 p s E Hs).
Qed.
Lemma fit_least_drop n mm iov ms : nbytes iov <= n -> zlen iov <= mm ->
  least_drop n mm iov ms (fit_suffix n mm iov ms ++ iov).
Proof.
  intros H1 H2. destruct (fit_suffix_suffix n mm iov ms) as [pre E]. destruct (fit_suffix_spec n mm iov H1 H2 ms) as [F1 F2].
  apply room_iff in F1. exists pre, (fit_suffix n mm iov ms). repeat (split; [first [exact E|reflexivity|apply F1]|]).
  intros p s Es B1 B2. apply (F2 p s Es). apply room_iff. auto.
Qed.
Lemma fit_room n mm iov ms : room n mm iov ms = true -> fit_suffix n mm iov ms = ms.
Proof. intros H. destruct ms; cbn [fit_suffix]; rewrite H; reflexivity. Qed.
Lemma take_fit_max : forall niov len ms, 0 <= len -> exists rest, longest_fit (Z.of_nat niov) len ms (take_fit niov len ms) rest.
Proof.
  induction niov as [|n IH]; intros len ms L.
  - exists ms. repeat split; try (cbn; lia). destruct ms; [exact Logic.I|]. left. reflexivity.
  - destruct ms as [|m t]; [exists []; repeat split; cbn; lia|]. cbn [take_fit]. destruct (Z.leb_spec (zlen m) len) as [L1|L1].
    + destruct (IH (len - zlen m) t ltac:(lia)) as (rest & E & B1 & B2 & M). exists rest. split; [cbn [app]; rewrite <- E; reflexivity|].
      rewrite nbytes_cons, zlen_cons. split; [lia|]. split; [lia|]. destruct rest; [exact Logic.I|]. lia.
    + exists (m :: t). split; [reflexivity|]. split; [cbn; lia|]. split; [cbn; lia|]. right. cbn. lia.
Qed.
Lemma taken_fit niov buf ms : 0 <= niov -> exists rest,
  longest_fit niov (usable buf) ms (take_fit (Z.to_nat niov) (usable buf) ms) rest
  /\ rest = skipn (length (take_fit (Z.to_nat niov) (usable buf) ms)) ms.
Proof.
  intros H. destruct (take_fit_max (Z.to_nat niov) (usable buf) ms) as [rest R].
  { unfold usable. pose proof (zlen_nonneg buf). lia. }
  rewrite Z2Nat.id in R by exact H. exists rest. split; [exact R|]. destruct R as [E _].
  rewrite E at 2. rewrite skipn_app, skipn_all, Nat.sub_diag. reflexivity.
Qed.

(** ** history *)
Lemma f_fifo r w evs : reach contract r w evs -> r_drop r = false ->
  committed evs = delivered evs ++ ring_unread (w_ring w).
Proof. intros (fsz & F & X & _) Hd. apply (fifo_exactly_once contract r fsz w evs id_contract F Hd X). Qed.

Lemma f_drop_history r w evs : reach contract r w evs -> r_farm r = false ->
  exists gone dropped, committed evs = gone ++ ring_unread (w_ring w) /\ merge (delivered evs) dropped gone.
Proof.
  intros (fsz & F & X & _) Hf. destruct (queue_history contract r fsz w evs id_contract F Hf X) as (g & d & A & B & _). eauto.
Qed.
Lemma f_boundaries r w evs pre c x post : reach contract r w evs -> evs = pre ++ ERet c x :: post -> read_msgs x <> [] ->
  exists before after, committed pre = before ++ read_msgs x ++ after.
Proof. intros (fsz & F & X & B). apply (reads_are_history contract r fsz w evs id_contract F X B). Qed.

(** ** writes *)
Lemma unread_bounds r h : Inv0 r h -> nbytes (ring_unread r) <= r_n r /\ zlen (ring_unread r) <= r_mm r.
Proof.
  intros I0. rewrite (unread_bytes _ _ I0), (unread_len _ _ I0). pose proof (i_m _ _ I0). pose proof (w_cnt _ _ _ (i_win _ _ I0)).
  pose proof (inv_u_le _ _ I0). lia.
Qed.
Lemma committed_in c ms ev : committed ev = [] -> In (ECommit c ms) ev -> ms = [].
Proof.
  induction ev as [|e ev IH]; intros E H; [destruct H|]. cbn [committed flat_map] in E. apply app_eq_nil in E. destruct E as [E1 E2].
  destruct H as [->|H]; [exact E1|]. apply IH; assumption.
Qed.
Lemma f_step_content r w evs a w' ev : reach contract r w evs -> contract w a -> step w a = Ok (w', ev) ->
  (forall c ms, In (ECommit c ms) ev -> committed ev = ms
     /\ (if r_drop r then least_drop (r_n r) (r_mm r) ms (ring_unread (w_ring w)) (ring_unread (w_ring w'))
         else ring_unread (w_ring w') = ring_unread (w_ring w) ++ ms))
  /\ (committed ev = [] ->
      (r_farm r = true -> ring_unread (w_ring w') = ring_unread (w_ring w))
      /\ (r_farm r = false -> ring_unread (w_ring w) = delivered ev ++ ring_unread (w_ring w'))
      /\ ring_retained (w_ring w') = ring_retained (w_ring w)).
Proof.
  intros R HC HS. destruct (reach_inv _ _ _ _ id_contract R) as (fsz & F & X & B & W & HP & HB & SF & SD).
  destruct (wi_dims _ _ _ W) as (_ & En & Em & _). cbn [w_ring world0] in En, Em.
  pose proof (step_effect _ _ _ _ _ _ W HB HC HS) as E. rewrite <- SF, <- SD, <- En, <- Em.
  assert (NR : forall c c' ms rs, In (ECommit c ms) (rets c' rs) -> False).
  { intros c c' ms rs H. apply in_map_iff in H. destruct H as (? & H & _). discriminate. }
  destruct (inv_bounds _ _ (wi_ring _ _ _ W)) as [Bn Bm].
  destruct E as [ev r' C D _ U RT _|c v so t r' U RT _ _ _ _|c iov rs dropped wok r' D _ _ OK ND UD U RT _|c v buf iov avail len niov r' A1 A2 A3 taken A4 A5 A6 U RT _].
  - split.
    + intros c ms Hi. rewrite C. rewrite (committed_in _ _ _ C Hi). split; [reflexivity|]. rewrite U.
      destruct (r_drop (w_ring w)); [|rewrite app_nil_r; reflexivity].
      exists [], (ring_unread (w_ring w)). rewrite app_nil_r. split; [reflexivity|]. split; [reflexivity|].
      destruct (unread_bounds _ _ (i_inv0 _ _ (wi_ring _ _ _ W))) as [U1 U2]. cbn. split; [lia|]. split; [lia|].
      intros p s E _ _. rewrite E, zlen_app. pose proof (zlen_nonneg p). lia.
    + intros _. rewrite D, U. auto.
  - split; [intros c0 ms [H|[]]; discriminate|]. intros _. cbn. rewrite U. auto.
  - split.
    + intros c0 ms Hi. destruct Hi as [Hi|Hi]; [|apply NR in Hi; contradiction]. injection Hi as -> ->.
      change (ECommit c0 ms :: rets c0 rs) with ([ECommit c0 ms] ++ rets c0 rs). rewrite committed_app, committed_rets. cbn. rewrite !app_nil_r.
      split; [reflexivity|]. destruct OK as (_ & _ & O1 & O2). rewrite U. destruct (r_drop (w_ring w)) eqn:Hd.
      * apply fit_least_drop; assumption.
      * destruct (ND eq_refl) as [HR _]. rewrite (fit_room _ _ _ _ HR). reflexivity.
    + cbn [committed flat_map]. intros H. apply app_eq_nil in H. destruct OK as [O _]. destruct H. contradiction.
  - split; [intros c0 ms [H|[]]; discriminate|]. intros _. cbn [delivered flat_map]. rewrite A4, app_nil_r, U. split; [intros ->; reflexivity|].
    split; [|exact RT]. intros Hf. specialize (A1 Hf). rewrite Hf. subst avail.
    destruct (take_fit_prefix niov len (ring_unread (w_ring w))) as [rest ER]. fold taken in ER. rewrite ER at 2. unfold zlen.
    rewrite Nat2Z.id, skipn_app, skipn_all, Nat.sub_diag. cbn. rewrite ER at 1. reflexivity.
Qed.

(** one unbuffered write that holds the lock: what it does, in every mode *)
Lemma f_write_pass r w evs c e iov w' ev : reach contract r w evs ->
  pending c evs = Some (CWrite iov) -> unbuffered w c -> asleep w c = false ->
  step w (ARun c e) = Ok (w', ev) -> e_lock e = true ->
  nbytes iov <= r_n r /\ zlen iov <= r_mm r /\
  ((r_drop r = false /\ ~ (nbytes (ring_unread (w_ring w)) + nbytes iov <= r_n r /\ zlen (ring_unread (w_ring w)) + zlen iov <= r_mm r)
    /\ w_ring w' = w_ring w
    /\ (if nonblocking w c then ev = [ERet c (RetWrite iov 0)] else ev = [] /\ asleep w' c = true))
   \/ ((r_drop r = true \/ (nbytes (ring_unread (w_ring w)) + nbytes iov <= r_n r /\ zlen (ring_unread (w_ring w)) + zlen iov <= r_mm r))
    /\ (exists v, ev = [ECommit c iov; ERet c (RetWrite iov v)] /\ (v = nbytes iov \/ v = -1)
         /\ (faultless w (ARun c e) -> v = nbytes iov))
    /\ least_drop (r_n r) (r_mm r) iov (ring_unread (w_ring w)) (ring_unread (w_ring w'))
    /\ least_drop (r_n r) (r_mm r) iov (ring_retained (w_ring w)) (ring_retained (w_ring w')))).
Proof.
  intros R Pd Hb Ha HS He. destruct (reach_inv _ _ _ _ id_contract R) as (fsz & F & X & B & W & HP & HB & SF & SD).
  destruct (wi_dims _ _ _ W) as (_ & En & Em & _). cbn [w_ring world0] in En, Em. rewrite <- SD, <- En, <- Em.
  destruct (write_pc _ _ _ _ _ W HP Pd Hb) as [Hpc Hi]. rewrite Ha in Hpc.
  pose proof (pend_live _ _ _ _ _ W HP Pd) as Hl.
  destruct (write_crit _ _ _ _ _ _ _ _ _ _ _ W Hl Hpc HS He) as (_ & _ & K).
  pose proof Hi as (_ & _ & I1 & I2). split; [exact I1|]. split; [exact I2|].
  rewrite <- room_iff. rewrite room_iff.
  destruct K as [(K1 & K2 & K3 & K4)|(K1 & K2 & K3 & hw' & cl' & rs & v & K4 & K5 & K6 & K7 & K8)].
  - left. split; [exact K1|]. split; [apply room_false; exact K2|]. split; [exact K3|]. unfold nonblocking.
    destruct (has (c_flags (cli w c)) SHR_NONBLOCK).
    + destruct K4 as (cl' & rs & K4 & -> & _). cbn [end_write] in K4. injection K4 as _ <-. reflexivity.
    + destruct K4 as (K4 & K5 & _). auto.
  - right. split; [rewrite <- room_iff; exact K1|]. cbn [end_write] in K4. injection K4 as _ <-.
    split; [|rewrite K2, K3; split; apply fit_least_drop; assumption].
    exists v. split; [exact K5|]. split; [exact K7|]. intros [[_ G] M]. apply K8; assumption.
Qed.
Lemma f_write_outcomes r w evs a w' ev c iov : reach contract r w evs -> contract w a -> step w a = Ok (w', ev) ->
  pending c evs = Some (CWrite iov) -> unbuffered w c ->
  (pending c (evs ++ ev) = Some (CWrite iov) /\ committed_by c ev = [] /\ accepted_by c ev = [])
  \/ (ev = [ECrash c] /\ w_ring w' = w_ring w)
  \/ (exists v, v <= 0 /\ ev = [ERet c (RetWrite iov v)] /\ w_ring w' = w_ring w)
  \/ (exists v kept, ev = [ECommit c iov; ERet c (RetWrite iov v)]
      /\ (v = nbytes iov \/ v = -1) /\ (faultless w a -> v = nbytes iov)
      /\ ring_unread (w_ring w') = kept ++ iov).
Proof.
  intros R HC HS Pd Hb. destruct (reach_inv _ _ _ _ id_contract R) as (fsz & F & X & B & W & HP & HB & SF & SD).
  destruct (write_outcomes _ _ _ _ _ _ _ _ W HP HC HS Pd Hb) as [H|[H|[H|(v & H1 & H2 & H3 & H4 & H5 & H6)]]]; auto.
  right. right. right. eauto 8.
Qed.
Lemma idle_pc w0 w evs c : WI w0 w evs -> PI w evs -> idle w evs c -> c_live (cli w c) = true /\ c_pc (cli w c) = Idle.
Proof.
  intros W HP [Hl Pd]. split; [exact Hl|]. specialize (HP c). rewrite Pd in HP.
  destruct (c_pc (cli w c)) as [ |[| | |] ? ? ?|[| | |] ? ? ?|? ?| | | | |]; cbn [pc_for] in HP; try reflexivity; try discriminate;
    try (destruct HP as (? & HP & ?); discriminate); try (destruct HP as [HP ?]; discriminate).
Qed.
Lemma refused_iff n mm iov : Forall (fun b => 0 < zlen b) (tl iov) -> (iov_ok n mm iov <-> ~ refused n mm iov).
Proof.
  intros Hne. unfold iov_ok, refused. split.
  - intros (A & B & D & E) [H|[H|[H|H]]]; [contradiction| |lia|lia]. destruct iov as [|b t]; [contradiction|]. cbn [hd] in H. subst b.
    apply Forall_inv in B. cbn in B. lia.
  - intros H. assert (A : iov <> []) by tauto. split; [exact A|]. destruct iov as [|b t]; [contradiction|]. cbn [hd tl] in *.
    split; [constructor; [destruct b; [exfalso; apply H; tauto|rewrite zlen_cons; pose proof (zlen_nonneg b); lia]|exact Hne]|].
    split; [destruct (Z.leb_spec (nbytes (b :: t)) n); [assumption|exfalso; apply H; right; right; left; lia]|].
    destruct (Z.leb_spec (zlen (b :: t)) mm); [assumption|exfalso; apply H; right; right; right; lia].
Qed.
Lemma f_refused r w evs c iov w' ev : reach contract r w evs -> contract w (ACall c (CWrite iov)) ->
  idle w evs c -> step w (ACall c (CWrite iov)) = Ok (w', ev) ->
  (refused (r_n r) (r_mm r) iov -> ev = [ECall c (CWrite iov); ERet c (RetWrite iov (-1))] /\ w' = w)
  /\ (~ refused (r_n r) (r_mm r) iov ->
      (ev = [ECall c (CWrite iov)] \/ ev = [ECall c (CWrite iov); ERet c (RetWrite iov (nbytes iov))])
      /\ 0 < nbytes iov /\ w_ring w' = w_ring w /\ asleep w' c = false).
Proof.
  intros R HC HI HS. destruct (reach_inv _ _ _ _ id_contract R) as (fsz & F & X & B & W & HP & HB & SF & SD).
  destruct (wi_dims _ _ _ W) as (_ & En & Em & _). cbn [w_ring world0] in En, Em. rewrite <- En, <- Em.
  destruct (idle_pc _ _ _ _ W HP HI) as [Hl Hpc]. pose proof (HC Hl Hpc) as (Hw & Hb & Hne).
  destruct (write_start _ _ _ _ _ _ _ W HC Hl Hpc HS) as [S1 _]. split; [exact S1|].
  intros NR. assert (Hi : iov_ok (r_n (w_ring w)) (r_mm (w_ring w)) iov) by (apply refused_iff; assumption).
  destruct (wi_cl _ _ _ W c Hl) as [ms C]. destruct (inv_bounds _ _ (wi_ring _ _ _ W)) as [Bn Bm].
  cbn [step] in HS. rewrite Hl, Hpc in HS. cbn [negb start_call] in HS. unfold start_write in HS. rewrite Hw in HS.
  rewrite (ci_n _ _ _ _ C), (ci_mm _ _ _ _ C) in HS.
  destruct (wr_check_iff (r_n (w_ring w)) (r_mm (w_ring w)) iov ltac:(lia) Hb Hne) as [[_ E]|[Hi' E]]; [|contradiction]. rewrite E in HS.
  destruct (iov_ok_pos _ _ _ Hi) as [Hp _].
  pose proof (live_bound _ _ Hl) as LB.
  destruct (go_write_ok _ _ _ _ _ (wi_ring _ _ _ W) (CI_CIi _ _ _ _ C) Hw Hi) as [(cl' & E2 & _ & E3 & _)|(k & iov1 & E2 & _ & _)];
    rewrite E2 in HS; cbn [obind] in HS; injection HS as <- <-.
  - split; [right; reflexivity|]. split; [lia|]. split; [reflexivity|]. unfold asleep. rewrite cli_setc_same by exact LB. rewrite E3. reflexivity.
  - split; [left; reflexivity|]. split; [lia|]. split; [reflexivity|]. unfold asleep. rewrite cli_setc_same by exact LB. reflexivity.
Qed.

(** ** reads *)
(** one pass of shr_readv that holds the lock *)
Lemma f_read_pass r w evs c e buf niov w' ev : reach contract r w evs ->
  pending c evs = Some (CRead buf niov) -> asleep w c = false ->
  step w (ARun c e) = Ok (w', ev) -> e_lock e = true ->
  let av := available (w_ring w) (c_q (cli w c)) in
  let av' := available (w_ring w') (c_q (cli w' c)) in
  (av = [] /\ av' = [] /\ w_ring w' = w_ring w
     /\ (if nonblocking w c then ev = [ERet c (RetRead 0 buf [])] /\ asleep w' c = false
         else ev = [] /\ asleep w' c = true))
  \/ (exists taken, asleep w' c = false /\ av <> [] /\ longest_fit niov (usable buf) av taken av'
       /\ ev = [ERet c (RetRead (match taken with [] => -2 | _ => nbytes taken end)
                         (concat taken ++ skipn (length (concat taken)) buf) (tile 0 taken))]).
Proof.
  intros R Pd Ha HS He av av'. destruct (reach_inv _ _ _ _ id_contract R) as (fsz & F & X & B & W & HP & HB & SF & SD).
  destruct (read_step _ _ _ _ _ _ _ _ _ W HP HB Pd Ha HS He) as (N1 & N2 & N3 & N4 & N5 & N6 & [(A1 & A2 & A3 & A4)|(A1 & A2 & A3 & A4)]).
  - left. fold av in A1. split; [exact A1|]. split; [|auto].
    unfold av'. rewrite A2. unfold av in A1. unfold available in *. destruct (r_farm (w_ring w)) eqn:Hf; [|exact A1].
    pose proof (i_inv0 _ _ (wi_ring _ _ _ W)) as I0. rewrite (A3 eq_refl), (rq_eq _ _ I0 (HB Hf)).
    apply skipn_all2. rewrite (retained_eq _ _ I0). unfold lastn. rewrite skipn_length.
    pose proof (w_old _ _ _ (i_win _ _ I0)). pose proof (i_m _ _ I0). unfold zlen in *. lia.
  - right. destruct (taken_fit niov buf av ltac:(lia)) as (rest & LF & ER). fold av in A1, A2, A4.
    eexists. split; [exact A3|]. split; [exact A1|]. split; [|exact A4]. unfold av'. rewrite A2, <- ER. exact LF.
Qed.
Lemma f_read_zero r w evs c buf niov w' ev : reach contract r w evs -> contract w (ACall c (CRead buf niov)) ->
  idle w evs c -> step w (ACall c (CRead buf niov)) = Ok (w', ev) ->
  (buf = [] \/ niov = 0 -> ev = [ECall c (CRead buf niov); ERet c (RetRead (-1) buf [])] /\ w' = w)
  /\ (buf <> [] /\ niov <> 0 -> ev = [ECall c (CRead buf niov)] /\ w_ring w' = w_ring w /\ asleep w' c = false).
Proof.
  intros R HC HI HS. destruct (reach_inv _ _ _ _ id_contract R) as (fsz & F & X & B & W & HP & HB & SF & SD).
  destruct (idle_pc _ _ _ _ W HP HI) as [Hl Hpc]. pose proof (HC Hl Hpc) as (Hr & Hn).
  cbn [step] in HS. rewrite Hl, Hpc in HS. cbn [negb start_call] in HS. rewrite Hr in HS.
  assert (SETC : setc w c (cli w c) = w).
  { unfold setc, cli. replace (set_nat (w_cl w) c (nth c (w_cl w) client0)) with (w_cl w); [destruct w; reflexivity|].
    clear. generalize (w_cl w). intros l. revert c. induction l as [|x l IH]; intros [|c]; cbn; try reflexivity. f_equal. apply IH. }
  assert (Z0 : zlen buf = 0 <-> buf = []) by (destruct buf; [split; reflexivity|rewrite zlen_cons; pose proof (zlen_nonneg buf); split; [lia|discriminate]]).
  destruct (Z.eqb_spec (zlen buf) 0) as [E1|E1]; destruct (Z.eqb_spec niov 0) as [E2|E2]; cbn [orb obind] in HS; injection HS as <- <-;
    (split; [intros H; rewrite ?SETC|intros H]); try (split; reflexivity); try tauto.
  split; [reflexivity|]. split; [reflexivity|]. unfold asleep. rewrite cli_setc_same by (apply live_bound; exact Hl). reflexivity.
Qed.

(** ** FARM *)
Lemma f_follow r w evs c : reach contract r w evs -> r_farm r = true -> c_live (cli w c) = true ->
  exists pre flags post w1, evs = pre ++ EOpen flags (Some c) :: post /\ reach contract r w1 pre
    /\ follow (committed evs) (eldest evs (w_ring w)) (eldest pre (w_ring w1))
         (delivered_to c evs) (lost_reported c evs + c_md (cli w c)) (c_q (cli w c)).
Proof.
  intros R Hf Hl. destruct R as (fsz & F & X & B).
  destruct (farm_follow contract r fsz w evs id_contract F Hf X B c Hl) as (pre & post & flags & w1 & E & _ & X1 & FO).
  exists pre, flags, post, w1. split; [exact E|]. split; [|exact FO]. exists fsz. split; [exact F|]. split; [exact X1|].
  apply (seq_bound_app _ _ (EOpen flags (Some c) :: post)). rewrite <- E. exact B.
Qed.
Lemma eldest_mp w0 w evs : WI w0 w evs -> eldest evs (w_ring w) = zlen (committed evs) - r_mp (w_ring w).
Proof.
  intros W. pose proof (i_inv0 _ _ (wi_ring _ _ _ W)) as I0. unfold eldest. f_equal. rewrite (retained_eq _ _ I0). unfold lastn, zlen.
  rewrite skipn_length. pose proof (w_old _ _ _ (i_win _ _ I0)). pose proof (i_m _ _ I0). unfold zlen in *. lia.
Qed.
(** what a FARM reader gets next *)
Lemma f_next r w evs c : reach contract r w evs -> r_farm r = true -> c_live (cli w c) = true ->
  available (w_ring w) (c_q (cli w c)) =
  skipn (Z.to_nat (Z.max (c_q (cli w c)) (eldest evs (w_ring w)))) (committed evs).
Proof.
  intros R Hf Hl. destruct (reach_inv _ _ _ _ id_contract R) as (fsz & F & X & B & W & HP & HB & SF & SD).
  rewrite Hf in SF. destruct (wi_cl _ _ _ W c Hl) as [ms C].
  rewrite (available_eq _ (committed evs) _ (i_inv0 _ _ (wi_ring _ _ _ W))).
  - unfold rpos. rewrite SF, (eldest_mp _ _ _ W). reflexivity.
  - intros H. split; [apply HB; exact H|]. apply (ci_q _ _ _ _ C H).
Qed.
Lemma f_farm_stat r w evs c reset w' ev : reach contract r w evs -> contract w (ACall c (CFarmStat reset)) ->
  idle w evs c -> step w (ACall c (CFarmStat reset)) = Ok (w', ev) ->
  ev = [ECall c (CFarmStat reset); ERet c (RetFarm reset (c_md (cli w c)))]
  /\ c_md (cli w' c) = (if reset then 0 else c_md (cli w c)) /\ w_ring w' = w_ring w /\ c_q (cli w' c) = c_q (cli w c).
Proof.
  intros R HC HI HS. destruct (reach_inv _ _ _ _ id_contract R) as (fsz & F & X & B & W & HP & HB & SF & SD).
  destruct (idle_pc _ _ _ _ W HP HI) as [Hl Hpc]. pose proof (HC Hl Hpc) as Hr. cbn [call_ok] in Hr.
  cbn [step] in HS. rewrite Hl, Hpc in HS. cbn [negb start_call] in HS. unfold do_farm_stat in HS. rewrite Hr in HS.
  cbn [obind] in HS. injection HS as <- <-. rewrite cli_setc_same by (apply live_bound; exact Hl).
  split; [reflexivity|]. destruct reset; repeat split.
Qed.
(** a read that finds nothing leaves the reader at the end of the history *)
Lemma f_caught_up r w evs c e buf niov w' : reach contract r w evs -> r_farm r = true ->
  pending c evs = Some (CRead buf niov) -> e_lock e = true ->
  step w (ARun c e) = Ok (w', [ERet c (RetRead 0 buf [])]) -> c_q (cli w' c) = zlen (committed evs).
Proof.
  intros R Hf Pd He HS. destruct (reach_inv _ _ _ _ id_contract R) as (fsz & F & X & B & W & HP & HB & SF & SD).
  rewrite Hf in SF.
  destruct (asleep w c) eqn:Ha.
  { exfalso. pose proof (pend_live _ _ _ _ _ W HP Pd) as Hl. cbn [step] in HS. rewrite Hl in HS. unfold run_client in HS. unfold asleep in Ha.
    destruct (c_pc (cli w c)); discriminate. }
  destruct (read_step _ _ _ _ _ _ _ _ _ W HP HB Pd Ha HS He) as (N1 & N2 & N3 & N4 & N5 & N6 & [(A1 & A2 & A3 & A4)|(A1 & A2 & A3 & A4)]).
  - apply A3, SF.
  - exfalso. injection A4 as A4 _ A5. destruct (take_fit _ _ _) as [|m t]; [discriminate|]. discriminate A5.
Qed.
Lemma reach_step (P : world -> action -> Prop) r w evs a w' ev : (forall w a, P w a -> contract w a) -> reach P r w evs -> P w a -> step w a = Ok (w', ev) ->
  seq_bound r (evs ++ ev) -> reach P r w' (evs ++ ev).
Proof. intros HP (fsz & F & X & B) Pa HS HB. exists fsz. split; [exact F|]. split; [econstructor; eassumption|exact HB]. Qed.
Lemma f_independent r w evs a w' ev c : reach contract r w evs -> contract w a -> step w a = Ok (w', ev) -> r_farm r = true ->
  committed ev = [] -> actor a <> Some c -> c_live (cli w c) = true ->
  ring_unread (w_ring w') = ring_unread (w_ring w) /\ ring_retained (w_ring w') = ring_retained (w_ring w)
  /\ available (w_ring w') (c_q (cli w' c)) = available (w_ring w) (c_q (cli w c)) /\ c_md (cli w' c) = c_md (cli w c).
Proof.
  intros R HC HS Hf NC HA Hl. destruct (reach_inv _ _ _ _ id_contract R) as (fsz & F & X & B & W & HP & HB & SF & SD).
  destruct (f_step_content _ _ _ _ _ _ R HC HS) as [_ S2]. destruct (S2 NC) as (U & _ & RT). specialize (U Hf).
  assert (B' : seq_bound r (evs ++ ev)). { intros H. rewrite committed_app, NC, app_nil_r. apply B, H. }
  destruct (reach_inv _ _ _ _ id_contract (reach_step contract r _ _ _ _ _ id_contract R HC HS B')) as (fsz' & F' & X' & _ & W' & HP' & HB' & SF' & SD').
  destruct (step_other _ _ _ _ _ _ _ W HC HS HA (live_bound _ _ Hl)) as (EC & _). rewrite EC.
  split; [exact U|]. split; [exact RT|]. split; [|reflexivity].
  unfold available. rewrite SF, SF', Hf, RT. f_equal. f_equal. f_equal.
  assert (LB : zlen (committed evs) < W64) by (apply B, Hf).
  rewrite (rq_eq _ _ (i_inv0 _ _ (wi_ring _ _ _ W)) LB).
  rewrite (rq_eq _ _ (i_inv0 _ _ (wi_ring _ _ _ W'))) by (rewrite committed_app, NC, app_nil_r; exact LB).
  rewrite <- (eldest_mp _ _ _ W), <- (eldest_mp _ _ _ W'). unfold eldest. rewrite committed_app, NC, app_nil_r, RT. reflexivity.
Qed.
Lemma f_farm_unread r w evs : reach contract r w evs -> r_farm r = true -> ring_unread (w_ring w) = ring_retained (w_ring w).
Proof.
  intros R Hf. destruct (reach_inv _ _ _ _ id_contract R) as (fsz & F & X & B & W & HP & HB & SF & SD). rewrite Hf in SF.
  pose proof (wi_ring _ _ _ W) as I. destruct (i_farm _ _ I SF) as [E _]. rewrite (unread_eq _ _ (i_inv0 _ _ I)), (retained_eq _ _ (i_inv0 _ _ I)), E. reflexivity.
Qed.
(** what a process that opens the ring can read *)
Lemma f_open_reads r w evs e flags pid w' ev c : reach contract r w evs -> contract w (AOpen e flags pid) ->
  step w (AOpen e flags pid) = Ok (w', ev) -> In (EOpen flags (Some c)) ev ->
  ring_unread (w_ring w') = ring_unread (w_ring w)
  /\ available (w_ring w') (c_q (cli w' c)) = (if r_farm r then ring_retained (w_ring w) else ring_unread (w_ring w))
  /\ c_md (cli w' c) = 0 /\ c_live (cli w' c) = true /\ c_flags (cli w' c) = flags /\ c_pid (cli w' c) = pid.
Proof.
  intros R HC HS Hi. destruct (reach_inv _ _ _ _ id_contract R) as (fsz & F & X & B & W & HP & HB & SF & SD).
  cbn [step] in HS. apply obind_ok in HS. destruct HS as ([w1 o] & E & HS).
  destruct (do_open_ok e w flags pid _ (wi_ring _ _ _ W) HC) as (w2 & o2 & E' & E1 & E2 & E3 & Ho).
  rewrite E in E'. injection E' as <- <-.
  destruct o as [cl|]; injection HS as <- <-; [|destruct Hi as [Hi|[]]; discriminate].
  destruct Hi as [Hi|[]]. injection Hi as <-.
  cbn [w_ring set]. rewrite E1. unfold cli. cbn [w_cl set]. rewrite E2, app_nth2, Nat.sub_diag by lia. cbn [nth].
  assert (D : c_q cl = r_q (w_ring w) /\ c_md cl = 0 /\ c_live cl = true /\ c_flags cl = flags /\ c_pid cl = pid).
  { clear - E. unfold do_open in E. destruct (negb (validate_flags flags)); [discriminate|]. destruct (negb (e_lock e)); [discriminate|].
    destruct (_ <? 0); [discriminate|]. destruct (_ && _); [discriminate|]. apply obind_ok in E. destruct E as ([w2 hs] & _ & E).
    destruct hs as [[a b]|]; [|discriminate]. destruct (init_cache _ _ _); [|discriminate]. destruct (shr_sync _ _); [|discriminate].
    injection E as _ <-. repeat split. }
  destruct D as (D1 & D2 & D3 & D4 & D5). split; [reflexivity|]. split; [|auto].
  unfold available. rewrite SF, D1, Z.sub_diag. reflexivity.
Qed.

(** ** flush, cache *)
Lemma f_cache_fits r w evs c : reach contract r w evs -> c_live (cli w c) = true ->
  let ms := cache_msgs (c_cache (cli w c)) in
  nbytes ms <= r_n r /\ zlen ms <= r_mm r /\ Forall (fun b => 0 < zlen b) ms.
Proof.
  intros R Hl ms. destruct (reach_inv _ _ _ _ id_contract R) as (fsz & F & X & B & W & HP & HB & SF & SD).
  destruct (wi_dims _ _ _ W) as (_ & En & Em & _). cbn [w_ring world0] in En, Em. rewrite <- En, <- Em.
  destruct (cache_bounds _ _ _ _ W Hl) as (A & B1 & C & _). auto.
Qed.
(** a flush pass that holds the lock *)
Lemma f_flush_pass r w evs c e wait w' ev : reach contract r w evs ->
  pending c evs = Some (CFlush wait) -> wait = false \/ nonblocking w c = false -> asleep w c = false ->
  step w (ARun c e) = Ok (w', ev) -> e_lock e = true ->
  let ms := cache_msgs (c_cache (cli w c)) in
  let ms' := cache_msgs (c_cache (cli w' c)) in
  let u := ring_unread (w_ring w) in
  ms <> [] /\
  ((r_drop r = false /\ ~ (nbytes u + nbytes ms <= r_n r /\ zlen u + zlen ms <= r_mm r)
    /\ w_ring w' = w_ring w /\ ms' = ms
    /\ (if nonblocking w c then ev = [ERet c (RetFlush 0)] else ev = [] /\ asleep w' c = true))
   \/ ((r_drop r = true \/ (nbytes u + nbytes ms <= r_n r /\ zlen u + zlen ms <= r_mm r))
    /\ (exists v, ev = [ECommit c ms; ERet c (RetFlush v)]
         /\ ((v = nbytes ms /\ ms' = []) \/ (v = -1 /\ ms' = ms))
         /\ (faultless w (ARun c e) -> v = nbytes ms))
    /\ least_drop (r_n r) (r_mm r) ms u (ring_unread (w_ring w')))).
Proof.
  intros R Pd Hw Ha HS He ms ms' u. destruct (reach_inv _ _ _ _ id_contract R) as (fsz & F & X & B & W & HP & HB & SF & SD).
  destruct (wi_dims _ _ _ W) as (_ & En & Em & _). cbn [w_ring world0] in En, Em. rewrite <- SD, <- En, <- Em.
  pose proof (pend_live _ _ _ _ _ W HP Pd) as Hl. destruct (wi_cl _ _ _ W c Hl) as [ms0 C].
  pose proof (CI_msgs _ _ _ _ C) as EM. fold ms in EM. subst ms0.
  pose proof (ci_pc _ _ _ _ C) as PC. unfold pc_ok in PC. pose proof (HP c) as HPc. rewrite Pd in HPc.
  assert (K : exists len nb, c_pc (cli w c) = RunW KFlush ms len nb /\ nb = nonblocking w c && negb wait /\ iov_ok (r_n (w_ring w)) (r_mm (w_ring w)) ms).
  { unfold asleep in Ha. destruct (c_pc (cli w c)) as [ |[| | |] iov len nb|[| | |] ? ? ?|? ?| | | | |] eqn:Hpc; cbn [pc_for] in HPc; try discriminate;
      try (destruct HPc as (? & HPc & ?); discriminate); try (destruct HPc as [HPc ?]; discriminate).
    - destruct HPc as (wt & E1 & E2). injection E1 as <-. destruct PC as (_ & P1 & _ & P2 & _). cbn [kont_ok] in P2.
      rewrite P2 in P1 |- *. exists len, nb. split; [reflexivity|]. split; [exact E2|exact P1].
    - destruct HPc as [E1 E2]. injection E1 as ->. unfold nonblocking in Hw. destruct Hw; congruence. }
  destruct K as (len & nb & Hpc & Enb & Hi). pose proof Hi as (I0 & _ & I1 & I2). split; [exact I0|].
  assert (Enb' : nb = nonblocking w c) by (destruct Hw as [Hw|Hw]; rewrite Hw in Enb; rewrite Enb; [rewrite andb_true_r; reflexivity|symmetry; exact Hw]).
  destruct (write_crit _ _ _ _ _ _ _ _ _ _ _ W Hl Hpc HS He) as (_ & _ & K). destruct (iov_ok_pos _ _ _ Hi) as [Hp _].
  pose proof (live_bound _ _ Hl) as LB.
  destruct K as [(K1 & K2 & K3 & K4)|(K1 & K2 & K3 & hw' & cl' & rs & v & K4 & K5 & K6 & K7 & K8)].
  - left. split; [exact K1|]. split; [apply room_false; exact K2|]. split; [exact K3|]. rewrite <- Enb'. destruct nb.
    + destruct K4 as (cl' & rs & K4 & -> & K5 & _). cbn [end_write] in K4. injection K4 as <- <-.
      split; [|reflexivity]. unfold ms'. rewrite K5. reflexivity.
    + destruct K4 as (K4 & K5 & K6). split; [|auto]. unfold ms'. rewrite K6. reflexivity.
  - right. split; [rewrite <- room_iff; exact K1|]. cbn [end_write] in K4. injection K4 as <- <-.
    split; [|rewrite K2; apply fit_least_drop; assumption].
    exists v. split; [exact K5|]. split; [|intros [[_ G] M]; apply K8; assumption].
    unfold ms'. rewrite K6. destruct K7 as [->| ->]; [left|right]; (split; [reflexivity|]).
    + replace (nbytes ms >? 0) with true by (symmetry; apply Z.gtb_lt; lia). reflexivity.
    + reflexivity.
Qed.
Lemma f_flush_start r w evs c wait w' ev : reach contract r w evs -> contract w (ACall c (CFlush wait)) ->
  idle w evs c -> step w (ACall c (CFlush wait)) = Ok (w', ev) ->
  (cache_msgs (c_cache (cli w c)) = [] -> ev = [ECall c (CFlush wait); ERet c (RetFlush 0)] /\ w' = w)
  /\ (cache_msgs (c_cache (cli w c)) <> [] ->
      ev = [ECall c (CFlush wait)] /\ w_ring w' = w_ring w /\ cache_msgs (c_cache (cli w' c)) = cache_msgs (c_cache (cli w c))
      /\ asleep w' c = false).
Proof.
  intros R HC HI HS. destruct (reach_inv _ _ _ _ id_contract R) as (fsz & F & X & B & W & HP & HB & SF & SD).
  destruct (idle_pc _ _ _ _ W HP HI) as [Hl Hpc]. apply (flush_start _ _ _ _ _ _ _ W HC Hl Hpc HS).
Qed.
Lemma f_flush_outcomes r w evs a w' ev c wait : reach contract r w evs -> contract w a -> step w a = Ok (w', ev) ->
  pending c evs = Some (CFlush wait) ->
  let ms := cache_msgs (c_cache (cli w c)) in let ms' := cache_msgs (c_cache (cli w' c)) in
  let u := ring_unread (w_ring w) in
  ms <> [] /\
  ((pending c (evs ++ ev) = Some (CFlush wait) /\ committed_by c ev = [] /\ ms' = ms)
  \/ (ev = [ECrash c] /\ w_ring w' = w_ring w)
  \/ (exists v, v <= 0 /\ ev = [ERet c (RetFlush v)] /\ w_ring w' = w_ring w /\ ms' = ms
      /\ (v = 0 -> nonblocking w c = true /\ wait = false
            /\ r_drop r = false /\ ~ (nbytes u + nbytes ms <= r_n r /\ zlen u + zlen ms <= r_mm r)))
  \/ (exists v, ev = [ECommit c ms; ERet c (RetFlush v)]
      /\ ((v = nbytes ms /\ ms' = []) \/ (v = -1 /\ ms' = ms)) /\ (faultless w a -> v = nbytes ms)
      /\ least_drop (r_n r) (r_mm r) ms u (ring_unread (w_ring w')))).
Proof.
  intros R HC HS Pd ms ms' u. destruct (reach_inv _ _ _ _ id_contract R) as (fsz & F & X & B & W & HP & HB & SF & SD).
  destruct (f_cache_fits r w evs c R (pend_live _ _ _ _ _ W HP Pd)) as (I1 & I2 & _). fold ms in I1, I2.
  destruct (wi_dims _ _ _ W) as (_ & En & Em & _). cbn [w_ring world0] in En, Em. rewrite <- En in I1. rewrite <- Em in I2.
  rewrite <- SD, <- En, <- Em.
  destruct (flush_outcomes _ _ _ _ _ _ _ _ W HP HC HS Pd) as [N [H|[H|[(v & H1 & H2 & H3 & H4 & H5)|(v & H1 & H2 & H3 & H4 & H5)]]]];
    (split; [exact N|]); auto.
  - right. right. left. exists v. repeat (split; [assumption|]). intros Hv. destruct (H5 Hv) as (A1 & A2 & A3 & A4).
    repeat (split; [assumption|]). apply room_false. exact A4.
  - right. right. right. exists v. repeat (split; [assumption|]). rewrite H5. apply fit_least_drop; assumption.
Qed.
Lemma f_flags_fixed r w evs a w' ev c : reach contract r w evs -> contract w a -> step w a = Ok (w', ev) ->
  (c < length (w_cl w))%nat -> c_live (cli w' c) = true ->
  c_live (cli w c) = true /\ c_flags (cli w' c) = c_flags (cli w c) /\ c_pid (cli w' c) = c_pid (cli w c).
Proof.
  intros R HC HS L Hl. destruct (reach_inv _ _ _ _ id_contract R) as (fsz & F & X & B & W & HP & HB & SF & SD).
  destruct (step_ids _ _ _ _ _ _ W HC HS) as (_ & KIN & _). destruct (KIN c L Hl) as (A & B1 & C). rewrite <- A. auto.
Qed.
Lemma f_close r w evs a w' ev c : reach undisturbed r w evs -> undisturbed w a -> step w a = Ok (w', ev) ->
  In (ERet c RetClosed) ev -> must_flush w c -> accepted_by c (evs ++ ev) = committed_by c (evs ++ ev).
Proof. intros (fsz & F & X & B) Pa HS. apply (close_flushes r fsz w evs a w'); assumption. Qed.
Lemma f_account r w evs c : reach faultless r w evs -> account w evs c.
Proof. intros (fsz & F & X & B). apply (exec_account r fsz); assumption. Qed.

(** ** counters, stat *)
Lemma f_counters r w evs : reach contract r w evs ->
  let s := r_stat (w_ring w) in let P := since_reset evs in
  st_mr s = u64 (zlen (delivered P)) /\ st_br s = u64 (nbytes (delivered P))
  /\ (exists D, 0 <= D /\ st_md s = u64 D
       /\ unread_at_reset evs + zlen (committed P) = (if r_farm r then 0 else zlen (delivered P)) + D + zlen (ring_unread (w_ring w)))
  /\ (exists D, 0 <= D /\ st_bd s = u64 D
       /\ bytes_at_reset evs + nbytes (committed P) = (if r_farm r then 0 else nbytes (delivered P)) + D + nbytes (ring_unread (w_ring w))).
Proof.
  intros R s P. destruct (reach_inv _ _ _ _ id_contract R) as (fsz & F & X & B & W & HP & HB & SF & SD).
  destruct (counters_hold contract r fsz w evs id_contract F X B) as [C1 C2 (D1 & C3 & C4 & C5) (D2 & C6 & C7 & C8)].
  rewrite SF in C5, C8. split; [exact C1|]. split; [exact C2|]. split; [exists D1|exists D2]; auto.
Qed.
Lemma f_write_counters r w evs : reach reliable r w evs ->
  st_mw (r_stat (w_ring w)) = u64 (zlen (committed (since_reset evs)))
  /\ st_bw (r_stat (w_ring w)) = u64 (nbytes (committed (since_reset evs))).
Proof. intros (fsz & F & X & B). apply (write_counters_hold r fsz); assumption. Qed.
(** the reconciliation as one equation between what shr_stat reports *)
Lemma f_reconcile r w evs : reach reliable r w evs ->
  let s := r_stat (w_ring w) in
  u64 (st_mw s + unread_at_reset evs) = u64 ((if r_farm r then 0 else st_mr s) + st_md s + zlen (ring_unread (w_ring w)))
  /\ u64 (st_bw s + bytes_at_reset evs) = u64 ((if r_farm r then 0 else st_br s) + st_bd s + nbytes (ring_unread (w_ring w))).
Proof.
  intros R s. destruct (f_write_counters _ _ _ R) as [W1 W2].
  assert (RC : reach contract r w evs).
  { destruct R as (fsz & F & X & B). exists fsz. split; [exact F|]. split; [|exact B]. apply (exec_mono reliable); [intros ? ? [? _]; assumption|exact X]. }
  destruct (f_counters _ _ _ RC) as (C1 & C2 & (D1 & _ & C3 & C4) & (D2 & _ & C5 & C6)).
  unfold s. rewrite W1, W2, C1, C2, C3, C5. unfold u64 in *. destruct (r_farm r).
  - split.
    + rewrite Zplus_mod_idemp_l. replace (0 + D1 mod W64 + zlen (ring_unread (w_ring w))) with (D1 mod W64 + zlen (ring_unread (w_ring w))) by lia.
      rewrite Zplus_mod_idemp_l. f_equal. lia.
    + rewrite Zplus_mod_idemp_l. replace (0 + D2 mod W64 + nbytes (ring_unread (w_ring w))) with (D2 mod W64 + nbytes (ring_unread (w_ring w))) by lia.
      rewrite Zplus_mod_idemp_l. f_equal. lia.
  - split.
    + rewrite Zplus_mod_idemp_l, <- Z.add_assoc, Zplus_mod_idemp_l, (Z.add_comm (D1 mod _)), Z.add_assoc, Zplus_mod_idemp_r. f_equal. lia.
    + rewrite Zplus_mod_idemp_l, <- Z.add_assoc, Zplus_mod_idemp_l, (Z.add_comm (D2 mod _)), Z.add_assoc, Zplus_mod_idemp_r. f_equal. lia.
Qed.
Lemma f_stat r w evs c e o w' ev : reach contract r w evs -> pending c evs = Some (CStat o) ->
  step w (ARun c e) = Ok (w', ev) -> e_lock e = true ->
  exists v so, ev = [ERet c (RetStat (match o with Some _ => true | None => false end) v (Some so))]
    /\ (e_msync e = true -> v = 0)
    /\ so_mu so = zlen (ring_unread (w_ring w)) /\ so_bu so = nbytes (ring_unread (w_ring w))
    /\ so_mu so <= so_mm so /\ so_bu so <= so_bn so /\ so_mm so = r_mm r /\ so_bn so = r_n r
    /\ so_cm so = zlen (cache_msgs (c_cache (cli w c))) /\ so_cb so = nbytes (cache_msgs (c_cache (cli w c)))
    /\ so_stat so = r_stat (w_ring w)
    /\ r_stat (w_ring w') = match o with Some t => mkstat t 0 0 0 0 0 0 | None => r_stat (w_ring w) end
    /\ ring_unread (w_ring w') = ring_unread (w_ring w) /\ ring_retained (w_ring w') = ring_retained (w_ring w)
    /\ r_app (w_ring w') = r_app (w_ring w)
    /\ (forall c', c_live (cli w c') = true -> available (w_ring w') (c_q (cli w' c')) = available (w_ring w) (c_q (cli w c'))).
Proof.
  intros R Pd HS He. destruct (reach_inv _ _ _ _ id_contract R) as (fsz & F & X & B & W & HP & HB & SF & SD).
  destruct (wi_dims _ _ _ W) as (_ & En & Em & _). cbn [w_ring world0] in En, Em.
  assert (FARM : r_farm (w_ring w') = r_farm (w_ring w)).
  { destruct (exec_total contract r fsz w evs (ARun c e) id_contract F X B Logic.I) as (w1 & ev1 & E).
    assert (BB : seq_bound r (evs ++ ev)).
    { intros H. rewrite committed_app. destruct (stat_call _ _ _ _ _ _ _ _ W HP Pd HS) as (_ & _ & _ & _ & _ & _ & [(_ & _ & ->)|(_ & v & so & -> & _)]); cbn; rewrite app_nil_r; apply B, H. }
    destruct (reach_inv _ _ _ _ id_contract (reach_step contract r _ _ (ARun c e) _ _ id_contract R Logic.I HS BB)) as (? & _ & _ & _ & _ & _ & _ & E2 & _). congruence. }
  destruct (stat_call _ _ _ _ _ _ _ _ W HP Pd HS) as (S1 & S2 & S3 & S4 & S5 & S6 & [(S7 & _)|(_ & v & so & K)]); [congruence|].
  destruct K as (K1 & K2 & K3 & K4 & K5 & K6 & K7 & K8 & K9 & K10 & K11 & K12).
  exists v, so. rewrite En in K6. rewrite Em in K5. repeat (split; [first [assumption|destruct o; exact K12]|]).
  intros c' _. unfold available. rewrite FARM, S3, S5, S2. destruct (Nat.eq_dec c' c) as [->|N]; [rewrite S6; reflexivity|rewrite (S1 c' N); reflexivity].
Qed.

(** ** appdata *)
Lemma f_app_history r w evs : reach faultless r w evs -> r_app (w_ring w) = app_now (r_app r) evs.
Proof. intros (fsz & F & X & B). apply (app_history r fsz); assumption. Qed.
Lemma f_app_call r w evs c e g s z w' ev : reach contract r w evs -> pending c evs = Some (CApp g s z) ->
  step w (ARun c e) = Ok (w', ev) ->
  let app := r_app (w_ring w) in let app' := r_app (w_ring w') in
  exists v out z', ev = [ERet c (RetApp v out z')] /\ (v = 0 \/ v = -1)
  /\ ring_unread (w_ring w') = ring_unread (w_ring w) /\ ring_retained (w_ring w') = ring_retained (w_ring w)
  /\ match g, s with
     | GAlloc, None | GBuf _, None => app' = app /\ (v = 0 -> out = Some app /\ z' = zlen app)
     | GNull, Some s | GBuf _, Some s =>
         (zlen s <> zlen app -> v = -1 /\ app' = app)
         /\ (v = 0 -> app' = s /\ (g = GNull \/ out = Some app))
         /\ (v = -1 -> e_msync e = true -> app' = app)
     | _, _ => app' = app
     end
  /\ (e_lock e = true -> e_alloc e = true -> e_msync e = true -> app <> [] ->
      match g, s with
      | GBuf b, None => zlen b = zlen app
      | GBuf b, Some s => zlen b = zlen app /\ zlen s = zlen app
      | GNull, Some s => zlen s = zlen app
      | _, _ => True
      end -> v = 0).
Proof.
  intros R Pd HS app app'. destruct (reach_inv _ _ _ _ id_contract R) as (fsz & F & X & B & W & HP & HB & SF & SD).
  destruct (app_call _ _ _ _ _ _ _ _ _ _ W HP Pd HS) as (v & out & z' & A1 & A2 & A3 & A4 & A5 & A6).
  exists v, out, z'. split; [exact A1|]. split; [exact A2|].
  split; [rewrite A4; apply unread_ext; reflexivity|]. split; [rewrite A4; apply retained_ext; reflexivity|]. split; [exact A5|exact A6].
Qed.

(** ** safety, persistence *)
Lemma f_total r w evs a : reach contract r w evs -> contract w a -> exists w' ev, step w a = Ok (w', ev).
Proof. intros (fsz & F & X & B) HC. apply (exec_total contract r fsz w evs a id_contract F X B HC). Qed.
Lemma f_valid r w evs : reach contract r w evs -> validate_ring (w_fsz w) true (w_ring w) = 0.
Proof.
  intros R. destruct (reach_inv _ _ _ _ id_contract R) as (fsz & F & X & B & W & _). apply (WI_validate r fsz w evs F W).
Qed.
