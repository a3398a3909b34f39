(** * API calls one by one: what each action means for the client concerned
    and for the others (C03-C06, C12, C14, C16-C18, C36). *)
From Verif Require Export Farm.

Definition actor (a : action) : option nat :=
  match a with
  | AOpen _ _ _ => None
  | ACall c _ | ARun c _ | AWake c | AEintr c | APoll c _ | ACrash c => Some c
  end.

(** an action of one client leaves the others' handles alone *)
Lemma step_other w0 w evs a w' ev c : WI w0 w evs -> contract w a -> step w a = Ok (w', ev) ->
  actor a <> Some c -> (c < length (w_cl w))%nat ->
  cli w' c = cli w c /\ pending c (evs ++ ev) = pending c evs /\ committed_by c ev = [] /\ accepted_by c ev = []
  /\ delivered_to c ev = [].
Proof.
  intros W HC HS HA L. pose proof (wi_ring _ _ _ W) as I. apply step_inv in HS.
  assert (GO : forall w1 c1 cl1 ev1, Some c1 <> Some c -> w_cl w1 = w_cl w -> Forall (tagged c1) ev1 ->
    cli (setc w1 c1 cl1) c = cli w c /\ pending c (evs ++ ev1) = pending c evs /\ committed_by c ev1 = [] /\ accepted_by c ev1 = []
    /\ delivered_to c ev1 = []).
  { intros w1 c1 cl1 ev1 N E T. assert (N' : c <> c1) by congruence.
    destruct (accepted_other c1 c ev1 N' T) as [A B]. destruct (tagged_other_farm c1 c ev1 N' T) as [D _].
    rewrite cli_setc_other by exact N'. unfold cli. rewrite E. split; [reflexivity|].
    split; [apply (pending_other c1 c evs ev1 N' T)|]. auto. }
  destruct HS as
   [ a
   | e flags pid w' E
   | e flags pid w' cl E
   | c1 x cl' rs Hl Hpc E
   | c1 e k iov len nb v cl' rs Hl Hpc Hv E
   | c1 e k iov len n s p Hl Hpc He E Er
   | c1 e k iov len nb r1 hw ks bh hw' wok r2 rv cl' rs Hl Hpc He E Ew Eb E2 Ev Ee
   | c1 e buf niov Hl Hpc He
   | c1 e buf niov q md h ks ok Hl Hpc He Hnb E Eh Ef
   | c1 e buf niov q md n s p Hl Hpc He Hnb E Eh
   | c1 e buf niov q md x cur' hr r2w' ks1 bh1 ks2 ok h Hl Hpc He E Eh Er Hn0 Hn1 Ef
   | c1 e w' Hl Hpc Hw'
   | c1 e ks h b cl' rs Hl Hpc He E Ee
   | c1 e Hl Hpc
   | c1 e reset r x Hl Hpc E
   | c1 e get st sz r x Hl Hpc E
   | c1 sid polls Hs Hp
   | a c1 sc k iov len nb cl' rs Ha Hpc E
   | a c1 sc buf niov Ha Hpc
   | c1 Hl ]; cbn [actor] in HA; try (destruct Ha as [[-> _]|[[fd ->] _]]; cbn [actor] in HA);
   try (apply GO; [exact HA|reflexivity|first [apply tagged_rets|repeat constructor; apply tagged_rets]]).
  - rewrite app_nil_r. auto.
  - destruct (do_open_ok e w flags pid _ I HC) as (w1 & o & E' & E1 & E2 & E3 & _).
    rewrite E in E'. injection E' as <- <-. unfold cli. rewrite E2, pending_app. auto.
  - destruct (do_open_ok e w flags pid _ I HC) as (w1 & o & E' & E1 & E2 & E3 & Ho).
    rewrite E in E'. injection E' as <- <-. unfold cli. cbn [w_cl set]. rewrite E2, app_nth1 by exact L. rewrite pending_app. auto.
  - apply GO; [exact HA| |repeat constructor]. destruct Hw' as [->|(ks & h & _ & _ & ->)]; reflexivity.
  - apply GO; [exact HA| |repeat constructor]. destruct (e_lock e); [apply close_handles_cl|reflexivity].
Qed.

(** ** writing without a cache *)
Lemma write_pc w0 w evs c iov : WI w0 w evs -> PI w evs -> pending c evs = Some (CWrite iov) ->
  has (c_flags (cli w c)) SHR_BUFFERED = false ->
  c_pc (cli w c) = (if asleep w c then WaitW else RunW) KDirect iov (nbytes iov) (has (c_flags (cli w c)) SHR_NONBLOCK)
  /\ iov_ok (r_n (w_ring w)) (r_mm (w_ring w)) iov.
Proof.
  intros W HP Pd Hb. pose proof (pend_live _ _ _ _ _ W HP Pd) as Hl.
  destruct (wi_cl _ _ _ W c Hl) as [ms C]. pose proof (ci_pc _ _ _ _ C) as P. unfold pc_ok in P.
  specialize (HP c). rewrite Pd in HP. unfold asleep.
  destruct (c_pc (cli w c)) as [ |k i l nb|k i l nb|? ?|? ?| | |? |? ? ?] eqn:Hpc; cbn [pc_for] in HP; try discriminate;
    try (destruct HP as [HP _]; discriminate).
  - destruct k; try (destruct HP as [HP ?]; congruence).
    + destruct HP as [HP ->]. injection HP as <-. destruct P as (_ & Hi & -> & _). auto.
    + destruct P as (_ & _ & _ & (_ & X & _) & _). congruence.
    + destruct HP as (? & HP & _). discriminate.
  - destruct k; try (destruct HP as [HP ?]; congruence).
    + destruct HP as [HP ->]. injection HP as <-. destruct P as (_ & Hi & -> & _). auto.
    + destruct P as (_ & _ & _ & (_ & X & _) & _). congruence.
    + destruct HP as (? & HP & _). discriminate.
Qed.

Theorem write_outcomes w0 w evs a w' ev c iov :
  WI w0 w evs -> PI w evs -> contract w a -> step w a = Ok (w', ev) ->
  pending c evs = Some (CWrite iov) -> has (c_flags (cli w c)) SHR_BUFFERED = false ->
  let r := w_ring w in
  (pending c (evs ++ ev) = Some (CWrite iov) /\ committed_by c ev = [] /\ accepted_by c ev = [])
  \/ (ev = [ECrash c] /\ w_ring w' = r)
  \/ (exists v, v <= 0 /\ ev = [ERet c (RetWrite iov v)] /\ w_ring w' = r)
  \/ (exists v, ev = [ECommit c iov; ERet c (RetWrite iov v)]
      /\ (v = nbytes iov \/ v = -1) /\ (faultless w a -> v = nbytes iov)
      /\ (r_drop r = true \/ room (r_n r) (r_mm r) iov (ring_unread r) = true)
      /\ ring_unread (w_ring w') = fit_suffix (r_n r) (r_mm r) iov (ring_unread r) ++ iov
      /\ ring_retained (w_ring w') = fit_suffix (r_n r) (r_mm r) iov (ring_retained r) ++ iov).
Proof.
  intros W HP HC HS Pd Hb r. pose proof (pend_live _ _ _ _ _ W HP Pd) as Hl.
  destruct (write_pc _ _ _ _ _ W HP Pd Hb) as [Hpc Hi]. pose proof (live_bound _ _ Hl) as LB.
  assert (SKIP : ev = [] -> pending c (evs ++ ev) = Some (CWrite iov) /\ committed_by c ev = [] /\ accepted_by c ev = []).
  { intros ->. rewrite app_nil_r. auto. }
  assert (OTHER : actor a <> Some c -> pending c (evs ++ ev) = Some (CWrite iov) /\ committed_by c ev = [] /\ accepted_by c ev = []).
  { intros N. destruct (step_other _ _ _ _ _ _ _ W HC HS N LB) as (_ & E & B & A & _). rewrite E. auto. }
  set (nb := has (c_flags (cli w c)) SHR_NONBLOCK) in *.
  destruct a as [e fl pid|c1 x|c1 e|c1|c1|c1 fd|c1]; try (left; apply OTHER; cbn [actor]; discriminate);
    (destruct (Nat.eq_dec c1 c) as [->|N]; [|left; apply OTHER; cbn [actor]; congruence]).
  - left. apply SKIP. cbn [step] in HS. rewrite Hl, Hpc in HS. cbn [negb] in HS. destruct (asleep w c); inj HS; reflexivity.
  - destruct (asleep w c) eqn:As.
    + left. apply SKIP. cbn [step] in HS. rewrite Hl in HS. unfold run_client in HS. rewrite Hpc in HS. inj HS. reflexivity.
    + destruct (e_lock e) eqn:He.
      * destruct (write_crit _ _ _ _ _ _ _ _ _ _ _ W Hl Hpc HS He) as (_ & _ & [(D1 & D2 & D3 & D4)|(D & U & RT & hw' & cl' & rs & v & E & -> & _ & V1 & V2)]).
        -- destruct nb.
           ++ destruct D4 as (cl' & rs & E & -> & _). cbn [end_write] in E. inj E. right. right. left. exists 0. split; [lia|]. split; [reflexivity|]. rewrite D3. reflexivity.
           ++ destruct D4 as [-> _]. left. apply SKIP. reflexivity.
        -- cbn [end_write] in E. inj E. right. right. right. exists v. split; [reflexivity|]. split; [exact V1|].
           split; [intros [[_ G] M]; apply V2; assumption|]. auto.
      * cbn [step] in HS. rewrite Hl in HS. unfold run_client in HS. rewrite Hpc in HS. unfold crit_write in HS. rewrite He in HS.
        cbn [negb obind end_write] in HS. inj HS. right. right. left. exists (-1). split; [lia|]. split; reflexivity.
  - left. apply SKIP. cbn [step] in HS. destruct (wait_sid (cli w c)) as [[s p]|]; [|inj HS; reflexivity].
    destruct (_ >? 0); inj HS; reflexivity.
  - cbn [step] in HS. unfold wait_failed in HS. rewrite Hpc in HS. destruct (asleep w c).
    + cbn [end_write obind] in HS. inj HS. right. right. left. exists (-1). split; [lia|]. split; reflexivity.
    + inj HS. left. apply SKIP. reflexivity.
  - cbn [step] in HS. destruct (wait_sid (cli w c)) as [[s p]|]; [|inj HS; left; apply SKIP; reflexivity].
    destruct (existsb _ _); [|inj HS; left; apply SKIP; reflexivity].
    unfold wait_failed in HS. rewrite Hpc in HS. destruct (asleep w c).
    + cbn [end_write obind] in HS. inj HS. right. right. left. exists (-3). split; [lia|]. split; reflexivity.
    + inj HS. left. apply SKIP. reflexivity.
  - cbn [step] in HS. rewrite Hl in HS. cbn [negb] in HS. inj HS. right. left. split; reflexivity.
Qed.

(** the start of a write (C04) *)
Theorem write_start w0 w evs c iov w' ev : WI w0 w evs -> contract w (ACall c (CWrite iov)) ->
  c_live (cli w c) = true -> c_pc (cli w c) = Idle -> step w (ACall c (CWrite iov)) = Ok (w', ev) ->
  let n := r_n (w_ring w) in let mm := r_mm (w_ring w) in
  (iov = [] \/ hd [] iov = [] \/ nbytes iov > n \/ zlen iov > mm ->
     ev = [ECall c (CWrite iov); ERet c (RetWrite iov (-1))] /\ w' = w)
  /\ (~ (iov = [] \/ hd [] iov = [] \/ nbytes iov > n \/ zlen iov > mm) ->
     has (c_flags (cli w c)) SHR_BUFFERED = false ->
     ev = [ECall c (CWrite iov)] /\ w_ring w' = w_ring w /\ asleep w' c = false).
Proof.
  intros W HC Hl Hpc HS n mm. destruct (HC Hl Hpc) as (Hw & Hb & Hne).
  destruct (wi_cl _ _ _ W c Hl) as [ms C]. destruct (inv_bounds _ _ (wi_ring _ _ _ W)) as [Bn Bm].
  cbn [step] in HS. rewrite Hl, Hpc in HS. cbn [negb start_call] in HS. unfold start_write in HS. rewrite Hw in HS.
  rewrite (ci_n _ _ _ _ C), (ci_mm _ _ _ _ C) in HS. fold n mm in HS.
  assert (EQ : iov_ok n mm iov <-> ~ (iov = [] \/ hd [] iov = [] \/ nbytes iov > n \/ zlen iov > mm)).
  { unfold iov_ok. split.
    - intros (A & B & D & E) [H|[H|[H|H]]]; [contradiction| |lia|lia]. destruct iov as [|b t]; [contradiction|]. cbn [hd] in H. subst b.
      apply Forall_inv in B. cbn in B. lia.
    - intros H. assert (A : iov <> []) by tauto. split; [exact A|]. destruct iov as [|b t]; [contradiction|]. cbn [hd tl] in *.
      split; [constructor; [destruct b; [exfalso; apply H; tauto|rewrite zlen_cons; pose proof (zlen_nonneg b); lia]|exact Hne]|].
      split; [destruct (Z.leb_spec (nbytes (b :: t)) n); [assumption|exfalso; apply H; right; right; left; lia]|].
      destruct (Z.leb_spec (zlen (b :: t)) mm); [assumption|exfalso; apply H; right; right; right; lia]. }
  assert (SETC : setc w c (cli w c) = w).
  { unfold setc, cli. replace (set_nat (w_cl w) c (nth c (w_cl w) client0)) with (w_cl w); [destruct w; reflexivity|].
    clear. generalize (w_cl w). intros l. revert c. induction l as [|x l IH]; intros [|c]; cbn; try reflexivity. f_equal. apply IH. }
  destruct (wr_check_iff n mm iov ltac:(subst n; lia) Hb Hne) as [[Hi E]|[Hi E]]; rewrite E in HS.
  - split; [intros H; exfalso; apply EQ in Hi; tauto|]. intros _ Hbu. unfold go_write in HS. rewrite Hbu in HS. cbn [obind] in HS. inj HS.
    split; [reflexivity|]. split; [reflexivity|]. unfold asleep. rewrite cli_setc_same by (apply live_bound; exact Hl). reflexivity.
  - split; [|intros H; exfalso; apply EQ in H; contradiction]. intros _. cbn [obind] in HS. inj HS. rewrite SETC. split; reflexivity.
Qed.

(** ** the cache and its flushing (C17, C18) *)
Lemma cache_bounds w0 w evs c : WI w0 w evs -> c_live (cli w c) = true ->
  let ms := cache_msgs (c_cache (cli w c)) in
  nbytes ms <= r_n (w_ring w) /\ zlen ms <= r_mm (w_ring w) /\ Forall (fun b => 0 < zlen b) ms
  /\ ca_n (c_cache (cli w c)) = nbytes ms /\ ca_vm (c_cache (cli w c)) = zlen ms.
Proof.
  intros W Hl ms. destruct (wi_cl _ _ _ W c Hl) as [ms' C]. pose proof (CI_msgs _ _ _ _ C) as E. fold ms in E. subst ms'.
  destruct (ci_ca _ _ _ _ C) as [? ? ? ? ? ? ? ? ?]. pose proof (ci_sz _ _ _ _ C). pose proof (ci_vt _ _ _ _ C).
  split; [lia|]. split; [lia|]. auto.
Qed.

Lemma cached_msgs w0 w evs c : WI w0 w evs -> c_live (cli w c) = true ->
  cached (c_cache (cli w c)) = Ok (cache_msgs (c_cache (cli w c))).
Proof.
  intros W Hl. destruct (wi_cl _ _ _ W c Hl) as [ms' C]. rewrite (CI_msgs _ _ _ _ C). apply cached_ok, (ci_ca _ _ _ _ C).
Qed.
(** what the flush's own length check says of a cache that is not empty *)
Lemma cache_check w0 w evs c : WI w0 w evs -> c_live (cli w c) = true ->
  cache_msgs (c_cache (cli w c)) <> [] ->
  wr_check (map zlen (cache_msgs (c_cache (cli w c)))) (c_n (cli w c)) (c_mm (cli w c))
    = Some (nbytes (cache_msgs (c_cache (cli w c))))
  /\ iov_ok (r_n (w_ring w)) (r_mm (w_ring w)) (cache_msgs (c_cache (cli w c))).
Proof.
  intros W Hl Hne. destruct (cache_bounds _ _ _ _ W Hl) as (A & B & D & _).
  destruct (wi_cl _ _ _ W c Hl) as [ms' C]. destruct (inv_bounds _ _ (wi_ring _ _ _ W)) as [Bn Bm].
  rewrite (ci_n _ _ _ _ C), (ci_mm _ _ _ _ C).
  assert (OK : iov_ok (r_n (w_ring w)) (r_mm (w_ring w)) (cache_msgs (c_cache (cli w c)))).
  { split; [exact Hne|]. split; [exact D|]. auto. }
  split; [|exact OK]. apply iov_ok_check; [lia|exact OK].
Qed.
Lemma cache_zero w0 w evs c : WI w0 w evs -> c_live (cli w c) = true ->
  (ca_n (c_cache (cli w c)) =? 0) = match cache_msgs (c_cache (cli w c)) with [] => true | _ => false end.
Proof.
  intros W Hl. destruct (cache_bounds _ _ _ _ W Hl) as (_ & _ & D & E & _). rewrite E.
  destruct (cache_msgs (c_cache (cli w c))) as [|b t]; [reflexivity|]. rewrite nbytes_cons. pose proof (nbytes_nonneg t).
  apply Forall_inv in D. destruct (Z.eqb_spec (zlen b + nbytes t) 0); [lia|reflexivity].
Qed.
Lemma setc_same w c : setc w c (cli w c) = w.
Proof.
  unfold setc, cli. replace (set_nat (w_cl w) c (nth c (w_cl w) client0)) with (w_cl w); [destruct w; reflexivity|].
  generalize (w_cl w). intros l. revert c. induction l as [|x l IH]; intros [|c]; cbn; try reflexivity. f_equal. apply IH.
Qed.

Theorem flush_start w0 w evs c wait w' ev : WI w0 w evs -> contract w (ACall c (CFlush wait)) ->
  c_live (cli w c) = true -> c_pc (cli w c) = Idle -> step w (ACall c (CFlush wait)) = Ok (w', ev) ->
  (cache_msgs (c_cache (cli w c)) = [] -> ev = [ECall c (CFlush wait); ERet c (RetFlush 0)] /\ w' = w)
  /\ (cache_msgs (c_cache (cli w c)) <> [] ->
      ev = [ECall c (CFlush wait)] /\ w_ring w' = w_ring w /\ cache_msgs (c_cache (cli w' c)) = cache_msgs (c_cache (cli w c))
      /\ asleep w' c = false).
Proof.
  intros W HC Hl Hpc HS. pose proof (HC Hl Hpc) as Hw. cbn [call_ok] in Hw.
  cbn [step] in HS. rewrite Hl, Hpc in HS. cbn [negb start_call] in HS. unfold start_flush in HS. rewrite Hw in HS.
  rewrite (cache_zero _ _ _ _ W Hl) in HS. split; intros Hc.
  - rewrite Hc in HS. cbn [obind] in HS. inj HS. rewrite setc_same. split; reflexivity.
  - pose proof (live_bound _ _ Hl) as LB.
    assert (FW : forall nb w' ev, (do (cl, rs) <- flush_write (cli w c) KFlush nb; Ok (setc w c cl, ECall c (CFlush wait) :: rets c rs)) = Ok (w', ev) ->
       ev = [ECall c (CFlush wait)] /\ w_ring w' = w_ring w /\ cache_msgs (c_cache (cli w' c)) = cache_msgs (c_cache (cli w c)) /\ asleep w' c = false).
    { intros nb w1 ev1 H. unfold flush_write in H. rewrite (cached_msgs _ _ _ _ W Hl) in H. cbn [obind] in H.
      destruct (cache_check _ _ _ _ W Hl Hc) as [E _]. rewrite E in H. cbn [obind] in H. inj H.
      unfold asleep. rewrite cli_setc_same by exact LB. auto. }
    destruct (cache_msgs (c_cache (cli w c))) eqn:EC; [contradiction|]. rewrite <- EC.
    destruct (has (c_flags (cli w c)) SHR_NONBLOCK && wait).
    + destruct (c_r2w (cli w c)); [rewrite EC; apply (FW _ _ _ HS)|]. cbn [obind] in HS. inj HS.
      unfold asleep. rewrite cli_setc_same by exact LB. auto.
    + rewrite EC. apply (FW _ _ _ HS).
Qed.

Theorem flush_outcomes w0 w evs a w' ev c wait :
  WI w0 w evs -> PI w evs -> contract w a -> step w a = Ok (w', ev) ->
  pending c evs = Some (CFlush wait) ->
  let r := w_ring w in let ms := cache_msgs (c_cache (cli w c)) in let ms' := cache_msgs (c_cache (cli w' c)) in
  ms <> [] /\
  ((pending c (evs ++ ev) = Some (CFlush wait) /\ committed_by c ev = [] /\ ms' = ms)
  \/ (ev = [ECrash c] /\ w_ring w' = r)
  \/ (exists v, v <= 0 /\ ev = [ERet c (RetFlush v)] /\ w_ring w' = r /\ ms' = ms
      /\ (v = 0 -> has (c_flags (cli w c)) SHR_NONBLOCK = true /\ wait = false
            /\ r_drop r = false /\ room (r_n r) (r_mm r) ms (ring_unread r) = false))
  \/ (exists v, ev = [ECommit c ms; ERet c (RetFlush v)]
      /\ ((v = nbytes ms /\ ms' = []) \/ (v = -1 /\ ms' = ms)) /\ (faultless w a -> v = nbytes ms)
      /\ (r_drop r = true \/ room (r_n r) (r_mm r) ms (ring_unread r) = true)
      /\ ring_unread (w_ring w') = fit_suffix (r_n r) (r_mm r) ms (ring_unread r) ++ ms)).
Proof.
  intros W HP HC HS Pd r ms ms'. pose proof (pend_live _ _ _ _ _ W HP Pd) as Hl.
  destruct (wi_cl _ _ _ W c Hl) as [mm C]. pose proof (CI_msgs _ _ _ _ C) as EM. fold ms in EM. subst mm.
  pose proof (ci_pc _ _ _ _ C) as P. unfold pc_ok in P. pose proof (HP c) as HPc. rewrite Pd in HPc.
  pose proof (live_bound _ _ Hl) as LB.
  assert (PCS : (exists len nb, (c_pc (cli w c) = RunW KFlush ms len nb \/ c_pc (cli w c) = WaitW KFlush ms len nb)
       /\ nb = has (c_flags (cli w c)) SHR_NONBLOCK && negb wait /\ ms <> [])
     \/ (c_pc (cli w c) = RunOpenR2W /\ wait = true /\ ms <> [])).
  { destruct (c_pc (cli w c)) as [ |k i l nb|k i l nb|? ?|? ?| | |? |? ? ?] eqn:Hpc; cbn [pc_for] in HPc; try discriminate.
    - destruct k; try (destruct HPc as [HPc ?]; discriminate). destruct HPc as (wt & HPc & E). injection HPc as ->.
      destruct P as (_ & Hi & _ & K & _). cbn [kont_ok] in K. subst i. left. exists l, nb. split; [auto|]. split; [exact E|]. apply Hi.
    - destruct k; try (destruct HPc as [HPc ?]; discriminate). destruct HPc as (wt & HPc & E). injection HPc as ->.
      destruct P as (_ & Hi & _ & K & _). cbn [kont_ok] in K. subst i. left. exists l, nb. split; [auto|]. split; [exact E|]. apply Hi.
    - right. destruct HPc as [HPc _]. injection HPc as ->. split; [reflexivity|]. split; [reflexivity|]. apply P. }
  split; [destruct PCS as [(? & ? & _ & _ & H)|(_ & _ & H)]; exact H|].
  assert (SKIP : ev = [] -> cache_msgs (c_cache (cli w' c)) = ms -> pending c (evs ++ ev) = Some (CFlush wait) /\ committed_by c ev = [] /\ ms' = ms).
  { intros -> E. rewrite app_nil_r. auto. }
  assert (OTHER : actor a <> Some c -> pending c (evs ++ ev) = Some (CFlush wait) /\ committed_by c ev = [] /\ ms' = ms).
  { intros N. destruct (step_other _ _ _ _ _ _ _ W HC HS N LB) as (E0 & E & B & A & _). rewrite E. unfold ms'. rewrite E0. auto. }
  destruct a as [e fl pid|c1 x|c1 e|c1|c1|c1 fd|c1]; try (left; apply OTHER; cbn [actor]; discriminate);
    (destruct (Nat.eq_dec c1 c) as [->|N]; [|left; apply OTHER; cbn [actor]; congruence]).
  - cbn [step] in HS. rewrite Hl in HS. cbn [negb] in HS.
    assert (w' = w /\ ev = []) as [-> ->].
    { destruct PCS as [(len & nb & [E|E] & _)|(E & _)]; rewrite E in HS; injection HS as <- <-; auto. }
    left. apply SKIP; reflexivity.
  - destruct PCS as [(len & nb & [Hpc|Hpc] & Enb & Hne)|(Hpc & -> & Hne)].
    + destruct (e_lock e) eqn:He.
      * destruct (write_crit _ _ _ _ _ _ _ _ _ _ _ W Hl Hpc HS He) as (_ & _ & [(D1 & D2 & D3 & D4)|(D & U & RT & hw' & cl' & rs & v & E & -> & E0 & V1 & V2)]).
        -- destruct nb.
           ++ destruct D4 as (cl' & rs & E & -> & E0 & _). cbn [end_write] in E. injection E as E E1. subst rs. rewrite <- E in E0. right. right. left. exists 0. split; [lia|].
              split; [reflexivity|]. split; [rewrite D3; reflexivity|]. split; [unfold ms'; rewrite E0; reflexivity|].
              intros _. symmetry in Enb. apply andb_true_iff in Enb. destruct Enb as [A B]. apply negb_true_iff in B. auto.
           ++ destruct D4 as (-> & _ & E0). left. apply SKIP; [reflexivity|]. rewrite E0. reflexivity.
        -- cbn [end_write] in E. injection E as E E1. subst rs. rewrite <- E in E0. right. right. right. exists v. split; [reflexivity|].
           split; [|split; [intros [[_ G] M]; apply V2; assumption|auto]].
           unfold ms'. rewrite E0. cbn [c_cache set].
           destruct V1 as [->| ->].
           ++ left. split; [reflexivity|]. destruct (Z.gtb_spec (nbytes ms) 0) as [G|G]; [reflexivity|]. exfalso.
              destruct (cache_check _ _ _ _ W Hl Hne) as [_ Hi]. fold ms in Hi. destruct (iov_ok_pos _ _ _ Hi). lia.
           ++ right. split; reflexivity.
      * cbn [step] in HS. rewrite Hl in HS. unfold run_client in HS. rewrite Hpc in HS. unfold crit_write in HS. rewrite He in HS.
        cbn [negb obind end_write] in HS. inj HS. right. right. left. exists (-1). split; [lia|]. split; [reflexivity|]. split; [reflexivity|].
        split; [unfold ms'; rewrite cli_setc_same by exact LB; reflexivity|lia].
    + cbn [step] in HS. rewrite Hl in HS. unfold run_client in HS. rewrite Hpc in HS. inj HS. left. apply SKIP; reflexivity.
    + cbn [step] in HS. rewrite Hl in HS. unfold run_client in HS. rewrite Hpc in HS.
      destruct (e_lock e); cbn [negb] in HS.
      2: { inj HS. right. right. left. exists (-1). split; [lia|]. split; [reflexivity|]. split; [reflexivity|].
           split; [unfold ms'; rewrite cli_setc_same by exact LB; reflexivity|lia]. }
      destruct (bw_open_wait e (w_ks w) (w_r2w w) (c_pid (cli w c)) (e_name e)) as [[ks h] [b|]].
      2: { inj HS. right. right. left. exists (-1). split; [lia|]. split; [reflexivity|]. split; [reflexivity|].
           split; [unfold ms'; rewrite cli_setc_same by exact LB; reflexivity|lia]. }
      unfold flush_write in HS. cbn [c_cache c_n c_mm set] in HS. rewrite (cached_msgs _ _ _ _ W Hl) in HS. cbn [obind] in HS.
      destruct (cache_check _ _ _ _ W Hl Hne) as [E _]. rewrite E in HS. cbn [obind] in HS. inj HS.
      left. apply SKIP; [reflexivity|]. rewrite cli_setc_same by exact LB. reflexivity.
  - cbn [step] in HS. left.
    destruct (wait_sid (cli w c)) as [[s p]|]; [|inj HS; apply SKIP; reflexivity].
    destruct (_ >? 0); inj HS; [|apply SKIP; reflexivity]. apply SKIP; [reflexivity|]. rewrite cli_setc_same by exact LB.
    unfold resume. destruct (c_pc (cli w c)); reflexivity.
  - cbn [step] in HS. unfold wait_failed in HS.
    destruct PCS as [(len & nb & [Hpc|Hpc] & Enb & Hne)|(Hpc & _ & Hne)]; rewrite Hpc in HS;
      try (inj HS; left; apply SKIP; reflexivity).
    cbn [end_write obind] in HS. inj HS. right. right. left. exists (-1). split; [lia|]. split; [reflexivity|]. split; [reflexivity|].
    split; [unfold ms'; rewrite cli_setc_same by exact LB; reflexivity|lia].
  - cbn [step] in HS. destruct (wait_sid (cli w c)) as [[s p]|]; [|inj HS; left; apply SKIP; reflexivity].
    destruct (existsb _ _); [|inj HS; left; apply SKIP; reflexivity].
    unfold wait_failed in HS.
    destruct PCS as [(len & nb & [Hpc|Hpc] & Enb & Hne)|(Hpc & _ & Hne)]; rewrite Hpc in HS;
      try (inj HS; left; apply SKIP; reflexivity).
    cbn [end_write obind] in HS. inj HS. right. right. left. exists (-3). split; [lia|]. split; [reflexivity|]. split; [reflexivity|].
    split; [unfold ms'; rewrite cli_setc_same by exact LB; reflexivity|lia].
  - cbn [step] in HS. rewrite Hl in HS. cbn [negb] in HS. inj HS. right. left. split; reflexivity.
Qed.

(** ** shr_close flushes (C18) *)
Lemma go_write_notclose cl iov len cl' rs : go_write cl iov len = Ok (cl', rs) -> c_pc cl' <> RunClose.
Proof.
  unfold go_write.
  destruct (has (c_flags cl) SHR_BUFFERED); [|intros H; inj H; discriminate].
  destruct (_ && _).
  - intros H. apply obind_ok in H. destruct H as (ca & _ & H). inj H. discriminate.
  - destruct (ca_n (c_cache cl) =? 0); [intros H; inj H; discriminate|].
    intros H. apply obind_ok in H. destruct H as (ms & _ & H).
    destruct (wr_check _ _ _); inj H; discriminate.
Qed.
Lemma end_write_close cl k iov v cl' rs : end_write cl k iov v = Ok (cl', rs) -> c_pc cl' = RunClose ->
  k = KClose /\ (0 < v -> cache_msgs (c_cache cl') = []).
Proof.
  destruct k; cbn [end_write]; intros H Hp.
  - inj H. discriminate.
  - destruct (v <=? 0); [inj H; discriminate|]. exfalso. apply (go_write_notclose _ _ _ _ _ H Hp).
  - inj H. discriminate.
  - injection H as <- _. split; [reflexivity|]. intros Hv. cbn [c_cache set]. destruct (Z.gtb_spec v 0); [reflexivity|lia].
Qed.
Lemma start_call_close cl x cl' rs : start_call cl x = Ok (cl', rs) -> c_pc cl = Idle -> c_pc cl' = RunClose ->
  x = CClose.
Proof.
  destruct x as [buf niov|iov|wait| |reset|reset|get st sz|fd| ]; cbn [start_call]; intros H Hi Hp; try reflexivity; exfalso;
    try (inj H; cbn [c_pc set] in Hp; congruence).
  - destruct (has _ _); [|discriminate]. destruct (_ || _); inj H; cbn [c_pc set] in Hp; congruence.
  - unfold start_write in H. destruct (has _ _); [|discriminate].
    destruct (wr_check _ _ _); [exact (go_write_notclose _ _ _ _ _ H Hp)|inj H; congruence].
  - unfold start_flush in H. destruct (has _ _); [|discriminate].
    assert (FW : forall nb, flush_write cl KFlush nb = Ok (cl', rs) -> False).
    { intros nb E. unfold flush_write in E. apply obind_ok in E. destruct E as (ms & _ & E). destruct (wr_check _ _ _); inj E; discriminate. }
    destruct (_ =? _); [inj H; congruence|].
    destruct (_ && _); [destruct (c_r2w cl)|]; try (eapply FW; eassumption). inj H; discriminate.
  - unfold do_farm_stat in H. destruct (has _ _); [|discriminate]. cbn [obind] in H. inj H. destruct reset; cbn [c_pc set] in Hp; congruence.
  - apply obind_ok in H. destruct H as ([cl1 r] & E & H). inj H. unfold do_ctl in E.
    assert (A : c_pc cl' = c_pc cl); [|congruence].
    apply obind_ok in E. destruct E as ([cl1 o1] & E1 & E2). apply obind_ok in E2. destruct E2 as ([cl2 o2] & E3 & E4). inj E4.
    assert (c_pc cl1 = c_pc cl).
    { destruct (has _ _); [|inj E1; reflexivity]. destruct (c_r2w cl); [|inj E1; reflexivity].
      apply obind_ok in E1. destruct E1 as ([? ?] & _ & E1). inj E1. reflexivity. }
    assert (c_pc cl' = c_pc cl1).
    { destruct (has _ SHR_RDONLY); [|inj E3; reflexivity]. destruct (c_w2r cl1); [|discriminate].
      apply obind_ok in E3. destruct E3 as ([? ?] & _ & E3). inj E3. reflexivity. }
    congruence.
Qed.


Definition close_clean (w : world) : Prop :=
  forall c, c_live (cli w c) = true -> c_pc (cli w c) = RunClose -> must_flush w c -> cache_msgs (c_cache (cli w c)) = [].

Lemma step_close_clean w0 w evs a w' ev : WI w0 w evs -> PI w evs -> WI w0 w' (evs ++ ev) -> undisturbed w a ->
  step w a = Ok (w', ev) -> close_clean w -> close_clean w'.
Proof.
  intros W HP W' [[[HC HG] Hms] HU] HS0 IH. pose proof (wi_ring _ _ _ W) as I. pose proof (step_inv _ _ _ _ HS0) as HS.
  assert (DR : r_drop (w_ring w') = r_drop (w_ring w)).
  { rewrite (same_dims_drop _ _ (wi_dims _ _ _ W)). apply (same_dims_drop _ _ (wi_dims _ _ _ W')). }
  intros c Hl' Hp' MF.
  destruct (Nat.lt_ge_cases c (length (w_cl w))) as [L|L].
  2: { exfalso. destruct (step_ids _ _ _ _ _ _ W HC HS0) as (_ & _ & NEW). destruct (NEW c Hl' L) as (fl & _ & _ & _ & Ec). congruence. }
  destruct (step_ids _ _ _ _ _ _ W HC HS0) as (_ & KIN & _). destruct (KIN c L Hl') as (K1 & K2 & _).
  assert (MF0 : must_flush w c) by (unfold must_flush in *; rewrite K2, DR in MF; exact MF).
  rewrite Hl' in K1. symmetry in K1. rename K1 into Hl.
  assert (OTHER : actor a <> Some c -> cache_msgs (c_cache (cli w' c)) = []).
  { intros N. destruct (step_other _ _ _ _ _ _ _ W HC HS0 N L) as (E & _). rewrite E in *. apply IH; assumption. }
  assert (SAME : cli w' c = cli w c -> cache_msgs (c_cache (cli w' c)) = []).
  { intros E. rewrite E in *. apply IH; assumption. }
  clear HS. rename HS0 into HS.
  destruct a as [e fl pid|c1 x|c1 e|c1|c1|c1 fd|c1]; try (apply OTHER; cbn [actor]; discriminate);
    (destruct (Nat.eq_dec c1 c) as [->|N]; [|apply OTHER; cbn [actor]; congruence]); try contradiction.
  - cbn [step] in HS. rewrite Hl in HS. cbn [negb] in HS.
    destruct (c_pc (cli w c)) eqn:Hpc; try (injection HS as <- <-; apply SAME; reflexivity).
    apply obind_ok in HS. destruct HS as ([cl rs] & E & HS). injection HS as <- <-. rewrite cli_setc_same in * by exact L.
    pose proof (start_call_close _ _ _ _ E Hpc Hp'). subst x. cbn [start_call] in E. unfold start_close in E.
    rewrite (cache_zero _ _ _ _ W Hl) in E. destruct (cache_msgs (c_cache (cli w c))) eqn:EC; [inj E; exact EC|].
    destruct (has _ SHR_WRONLY); [|discriminate]. unfold flush_write in E. rewrite (cached_msgs _ _ _ _ W Hl) in E. cbn [obind] in E.
    destruct (cache_check _ _ _ _ W Hl ltac:(rewrite EC; discriminate)) as [E1 _]. rewrite E1 in E. inj E. discriminate.
  - destruct (c_pc (cli w c)) as [ |k i l nb|k i l nb|? ?|? ?| | |? |? ? ?] eqn:Hpc.
    + cbn [step] in HS. rewrite Hl in HS. unfold run_client in HS. rewrite Hpc in HS. injection HS as <- <-. congruence.
    + destruct HU as (He & _).
      destruct (write_crit _ _ _ _ _ _ _ _ _ _ _ W Hl Hpc HS He) as (Hi & _ & [(D1 & D2 & D3 & D4)|(D & U & RT & hw' & cl' & rs & v & E & -> & E0 & V1 & V2)]).
      * destruct nb.
        -- destruct D4 as (cl' & rs & E & _ & E0 & _). rewrite E0 in Hp'. destruct (end_write_close _ _ _ _ _ _ E Hp') as [-> _].
           pose proof (HP c) as HPc. rewrite Hpc in HPc. destruct HPc as [_ Hnb]. destruct MF0 as [X|X]; congruence.
        -- destruct D4 as (_ & _ & E0). rewrite E0 in Hp'. discriminate.
      * rewrite E0 in *. destruct (end_write_close _ _ _ _ _ _ E Hp') as [-> H]. apply H. rewrite (V2 HG Hms).
        apply (iov_ok_pos _ _ _ Hi).
    + cbn [step] in HS. rewrite Hl in HS. unfold run_client in HS. rewrite Hpc in HS. injection HS as <- <-. congruence.
    + cbn [step] in HS. rewrite Hl in HS. unfold run_client in HS. rewrite Hpc in HS.
      apply obind_ok in HS. destruct HS as (res & E & HS).
      assert (RL : match res with RBlock w1 _ => w_cl w1 = w_cl w | RDone w1 _ _ _ _ => w_cl w1 = w_cl w end).
      { unfold crit_read in E. destruct (negb (e_lock e)); [inj E; reflexivity|].
        apply obind_ok in E. destruct E as ([[q md] o] & _ & E). destruct o as [[x cur']|].
        - apply obind_ok in E. destruct E as ([w1 cl1] & E1 & E).
          assert (W1 : w_cl w1 = w_cl w).
          { destruct (_ >? 0); [|inj E1; reflexivity]. cbn [c_r2w set] in E1. destruct (c_r2w (cli w c)); [|discriminate].
            apply obind_ok in E1. destruct E1 as ([[[? ?] ?] ?] & _ & E1). inj E1. reflexivity. }
          destruct (c_w2r cl1); [|discriminate]. apply obind_ok in E. destruct E as ([? ?] & _ & E). inj E. exact W1.
        - cbn [c_w2r c_flags set] in E. destruct (c_w2r (cli w c)) as [h|]; [|discriminate].
          destruct (has _ SHR_NONBLOCK); [apply obind_ok in E; destruct E as ([? ?] & _ & E); inj E; reflexivity|].
          destruct h; [discriminate|]. inj E. reflexivity. }
      destruct res; injection HS as <- <-; rewrite cli_setc_same in Hp' by (rewrite RL; exact L); discriminate.
    + cbn [step] in HS. rewrite Hl in HS. unfold run_client in HS. rewrite Hpc in HS. injection HS as <- <-. congruence.
    + cbn [step] in HS. rewrite Hl in HS. unfold run_client in HS. rewrite Hpc in HS.
      destruct (e_lock e); cbn [negb] in HS; [|injection HS as <- <-; rewrite cli_setc_same in Hp' by exact L; discriminate].
      destruct (bw_open_wait e (w_ks w) (w_r2w w) (c_pid (cli w c)) (e_name e)) as [[ks h] [b|]].
      2: { injection HS as <- <-. rewrite cli_setc_same in Hp' by exact L. discriminate. }
      apply obind_ok in HS. destruct HS as ([cl rs] & E & HS). injection HS as <- <-. rewrite cli_setc_same in Hp' by exact L.
      unfold flush_write in E. apply obind_ok in E. destruct E as (ms1 & _ & E). destruct (wr_check _ _ _); inj E; discriminate.
    + cbn [step] in HS. rewrite Hl in HS. unfold run_client in HS. rewrite Hpc in HS. injection HS as <- <-.
      rewrite cli_setc_same in Hp'; [discriminate|]. destruct (e_lock e); rewrite ?close_handles_cl; exact L.
    + cbn [step] in HS. rewrite Hl in HS. unfold run_client in HS. rewrite Hpc in HS.
      destruct (do_stat e (w_ring w) (cli w c) reset) as [r1 x]. injection HS as <- <-. rewrite cli_setc_same in Hp' by exact L. discriminate.
    + cbn [step] in HS. rewrite Hl in HS. unfold run_client in HS. rewrite Hpc in HS.
      apply obind_ok in HS. destruct HS as ([r1 x] & _ & HS). injection HS as <- <-. rewrite cli_setc_same in Hp' by exact L. discriminate.
  - cbn [step] in HS.
    destruct (wait_sid (cli w c)) as [[s p]|] eqn:Ws; [|injection HS as <- <-; apply SAME; reflexivity].
    destruct (_ >? 0); injection HS as <- <-; [|apply SAME; reflexivity].
    rewrite cli_setc_same in Hp' by exact L. unfold resume in Hp'. unfold wait_sid in Ws.
    destruct (c_pc (cli w c)); try discriminate.
  - cbn [step] in HS. rewrite Hl in HS. cbn [negb] in HS. injection HS as <- <-. rewrite cli_setc_same in Hl' by exact L. discriminate.
Qed.

(** when shr_close of such a writer returns, all it accepted is in the ring *)
Theorem close_flushes r fsz w evs a w' ev c : fresh r fsz -> exec undisturbed (world0 r fsz) w evs -> seq_bound r evs ->
  undisturbed w a -> step w a = Ok (w', ev) -> In (ERet c RetClosed) ev -> must_flush w c ->
  accepted_by c (evs ++ ev) = committed_by c (evs ++ ev).
Proof.
  intros F X HB HU HS Hin MF.
  assert (HC : forall w a, undisturbed w a -> contract w a) by (intros ? ? [[[H _] _] _]; exact H).
  pose proof (exec_WI _ _ _ _ _ HC F X HB) as W.
  pose proof (exec_PI _ _ _ _ _ HC F X HB) as HP.
  assert (CC : close_clean w).
  { refine (exec_ind_inv undisturbed r fsz (fun w _ => close_clean w) HC F _ _ w evs X HB).
    - intros c1. rewrite world0_cli. discriminate.
    - clear w evs w' ev X HB HU HS Hin MF W HP. intros w evs a1 w' ev X W PI0 W' HB Pa S _ EF IH.
      apply (step_close_clean _ _ _ _ _ _ W PI0 W' Pa S IH). }
  pose proof (exec_account r fsz w evs F (exec_mono _ _ _ _ _ (fun w a H => proj1 H) X) HB c) as AC.
  destruct (step_bracket _ _ _ _ _ _ _ HP HS Hin) as [(k & -> & Hk & Eev)|(NC & k & Pd & Hk)].
  - exfalso. destruct k; try contradiction. cbn [step] in HS. destruct (c_live (cli w c)); cbn [negb] in HS; [|injection HS as _ <-; destruct Hin].
    destruct (c_pc (cli w c)); try (injection HS as _ <-; destruct Hin; fail). apply obind_ok in HS. destruct HS as ([cl rs] & E & HS).
    cbn [start_call] in E. assert (rs = []).
    { unfold start_close in E. destruct (_ =? 0); [inj E; reflexivity|]. destruct (has _ _); [|discriminate].
      apply flush_write_ret in E. destruct E as [->|[H _]]; [reflexivity|congruence]. }
    subst rs. injection HS as _ HS. rewrite Eev in HS. discriminate.
  - destruct k; try contradiction. pose proof (pend_live _ _ _ _ _ W HP Pd) as Hl. unfold account in AC. rewrite Hl in AC.
    assert (HE : c_pc (cli w c) = RunClose /\ ev = [ERet c RetClosed]).
    { apply step_inv in HS. pose proof (HP c) as HPc. rewrite Pd in HPc.
      assert (IR : forall c' rs, In (ERet c RetClosed) (rets c' rs) -> c' = c /\ In RetClosed rs).
      { intros c' rs H. unfold rets in H. apply in_map_iff in H. destruct H as (y & E & H). injection E as -> ->. auto. }
      assert (EW : forall cl k iov v cl' rs, end_write cl k iov v = Ok (cl', rs) -> In RetClosed rs -> False).
      { intros cl k iov v cl' rs E H. apply end_write_ret in E. destruct E as [->|(x & -> & E)]; [destruct H|]. destruct H as [->|[]].
        destruct k; try discriminate; [destruct E; discriminate|contradiction]. }
      destruct HS as
       [ a
       | e flags pid w' E
       | e flags pid w' cl E
       | c1 x cl' rs Hl1 Hpc E
       | c1 e k iov len nb v cl' rs Hl1 Hpc Hv E
       | c1 e k iov len n s p Hl1 Hpc He E Er
       | c1 e k iov len nb r1 hw ks bh hw' wok r2 rv cl' rs Hl1 Hpc He E Ew Eb E2 Ev Ee
       | c1 e buf niov Hl1 Hpc He
       | c1 e buf niov q md h ks ok Hl1 Hpc He Hnb E Eh Ef
       | c1 e buf niov q md n s p Hl1 Hpc He Hnb E Eh
       | c1 e buf niov q md x cur' hr r2w' ks1 bh1 ks2 ok h Hl1 Hpc He E Eh Er Hn0 Hn1 Ef
       | c1 e w' Hl1 Hpc Hw'
       | c1 e ks h b cl' rs Hl1 Hpc He E Ee
       | c1 e Hl1 Hpc
       | c1 e reset r1 x Hl1 Hpc E
       | c1 e get st sz r1 x Hl1 Hpc E
       | c1 sid polls Hs Hp
       | a c1 sc k iov len nb cl' rs Ha Hpc E
       | a c1 sc buf niov Ha Hpc
       | c1 Hl1 ]; try (destruct Hin; fail); try (destruct Hin as [Hin|[]]; discriminate).
      - exfalso. destruct Hin as [Hin|Hin]; [discriminate|]. apply IR in Hin. destruct Hin as [-> _]. apply (NC x eq_refl).
      - exfalso. apply IR in Hin. destruct Hin as [_ Hin]. apply (EW _ _ _ _ _ _ E Hin).
      - exfalso. destruct Hin as [Hin|Hin]; [discriminate|]. apply IR in Hin. destruct Hin as [_ Hin]. apply (EW _ _ _ _ _ _ Ee Hin).
      - exfalso. apply IR in Hin. destruct Hin as [_ Hin]. apply flush_write_ret in Ee. destruct Ee as [->|(_ & v & ->)]; [destruct Hin|].
        destruct Hin as [Hin|[]]; discriminate.
      - destruct Hin as [Hin|[]]. injection Hin as ->. auto.
      - exfalso. destruct Hin as [Hin|[]]. injection Hin as -> ->. unfold do_stat in E. destruct (negb (e_lock e)); injection E as _ E; discriminate.
      - exfalso. destruct Hin as [Hin|[]]. injection Hin as -> ->. apply do_app_ret in E. destruct E as (? & ? & ? & E). discriminate.
      - exfalso. apply IR in Hin. destruct Hin as [_ Hin]. apply (EW _ _ _ _ _ _ E Hin). }
    destruct HE as [Hpc ->]. rewrite accepted_app, committed_by_app, AC, (CC c Hl Hpc MF). cbn. rewrite !app_nil_r. reflexivity.
Qed.
