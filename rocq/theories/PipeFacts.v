(** * Facts for C86: what the calls of a client say about what entered and left
    the ring. *)
From Verif Require Export PipeSpec MainFacts3 Global Final BwFinal.
Local Open Scope Z_scope.
Local Open Scope list_scope.

(** ** the writes of a client that have returned *)
Definition wrets (c : nat) (evs : list event) : list (list bytes * Z) :=
  flat_map (fun e => match e with ERet c' (RetWrite iov v) => if is c c' then [(iov, v)] else [] | _ => [] end) evs.
Inductive acks : list (list bytes * Z) -> list bytes -> Prop :=
| acks_nil : acks [] []
| acks_no l ms iov v : acks l ms -> v < 0 -> acks (l ++ [(iov, v)]) ms
| acks_yes l ms iov v : acks l ms -> v = nbytes iov \/ v = -1 -> acks (l ++ [(iov, v)]) (ms ++ iov).

Lemma wrets_app c a b : wrets c (a ++ b) = wrets c a ++ wrets c b.
Proof. apply flat_map_app. Qed.
Lemma cby_app c a b : committed_by c (a ++ b) = committed_by c a ++ committed_by c b.
Proof. apply flat_map_app. Qed.
Lemma wrets_other c c' ev : c' <> c -> Forall (tagged c) ev -> wrets c' ev = [].
Proof.
  intros N F. induction F as [|e ev T F IH]; [reflexivity|]. cbn [wrets flat_map]. fold (wrets c' ev). rewrite IH.
  destruct e as [| |c1 x| |]; try reflexivity. cbn [tagged] in T. subst c1. destruct x; try reflexivity. unfold is. destruct (Nat.eqb_spec c' c); [congruence|reflexivity].
Qed.
Lemma wrets_cons_call c c' x l : wrets c (ECall c' x :: l) = wrets c l. Proof. reflexivity. Qed.
Lemma pending_in c evs x : pending c evs = Some x -> In (ECall c x) evs.
Proof.
  unfold pending. rewrite <- fold_left_rev_right. intros H. apply in_rev. revert H. induction (rev evs) as [|e l IH]; cbn [fold_right]; [discriminate|].
  destruct e as [fl o|c' y|c' y|c' ms|c']; unfold is in *; try (destruct (Nat.eqb_spec c c') as [<-|N]); intros H; try (right; apply IH; exact H); try discriminate.
  injection H as ->. left. reflexivity.
Qed.

(** what one action does, for an unbuffered writer without SHR_NONBLOCK *)
Definition wact (c : nat) (evs ev : list event) : Prop :=
  (wrets c ev = [] /\ committed_by c ev = [])
  \/ (exists iov v, wrets c ev = [(iov, v)] /\ In (ECall c (CWrite iov)) (evs ++ ev)
       /\ ((committed_by c ev = [] /\ v < 0) \/ (committed_by c ev = iov /\ (v = nbytes iov \/ v = -1)))).

Lemma is_same c : is c c = true.
Proof. apply Nat.eqb_refl. Qed.
Lemma end_unb r h cl ms k iov v cl' rs w c nb o : Inv r h -> CI r h cl ms -> has (c_flags cl) SHR_BUFFERED = false ->
  kont_ok r cl ms iov k -> iov_ok (r_n r) (r_mm r) iov -> pc_for (c_flags cl) (RunW k iov w nb) o -> end_write c k iov v = Ok (cl', rs) ->
  k = KDirect /\ rs = [RetWrite iov v] /\ o = Some (CWrite iov) /\ nb = has (c_flags cl) SHR_NONBLOCK.
Proof.
  intros I C Hb K Hi PF E. assert (Hb' : buffered cl = false) by (unfold buffered; rewrite Hb; apply andb_false_r). pose proof (ci_unb _ _ _ _ C Hb') as ->.
  destruct k; cbn [kont_ok end_write pc_for] in *.
  - inj E. destruct PF as [-> ->]. auto.
  - destruct K as (_ & X & _). congruence.
  - subst iov. destruct Hi as (X & _). congruence.
  - subst iov. destruct Hi as (X & _). congruence.
Qed.
Lemma wrets_one c iov v : wrets c (rets c [RetWrite iov v]) = [(iov, v)].
Proof. cbn. rewrite is_same. reflexivity. Qed.
Ltac fin := repeat intro; cbn [In] in *; intuition discriminate.
Lemma start_unb cl x cl' rs c evs : has (c_flags cl) SHR_BUFFERED = false -> start_call cl x = Ok (cl', rs) -> wact c evs (ECall c x :: rets c rs).
Proof.
  intros Hb E. assert (NIL : (forall iov v, ~ In (RetWrite iov v) rs) -> wact c evs (ECall c x :: rets c rs)).
  { intros N. left. rewrite wrets_cons_call. split; [|cbn; clear; induction rs; [reflexivity|exact IHrs]].
    clear E. induction rs as [|y rs IH]; [reflexivity|]. unfold rets in *. cbn [map wrets flat_map]. fold (wrets c (map (ERet c) rs)). rewrite IH.
    - destruct y; try reflexivity. elim (N iov r). left. reflexivity.
    - intros iov v I. apply (N iov v). right. exact I. }
  assert (FW : forall c1 k nb, flush_write c1 k nb = Ok (cl', rs) -> forall iov v, ~ In (RetWrite iov v) rs).
  { intros c1 k nb F iov v. unfold flush_write in F. apply obind_ok in F. destruct F as (ms & _ & F). destruct (wr_check _ _ _).
    - inj F. intros [].
    - destruct k; inj F; cbn [In]; intuition discriminate. }
  destruct x; cbn [start_call] in E.
  - apply NIL. destruct (has (c_flags cl) SHR_RDONLY); [|discriminate]. destruct ((zlen buf =? 0) || (niov =? 0)); inj E; fin.
  - unfold start_write in E. destruct (has (c_flags cl) SHR_WRONLY); [|discriminate]. destruct (wr_check _ _ _) as [len|].
    + unfold go_write in E. rewrite Hb in E. inj E. apply NIL. fin.
    + inj E. right. exists iov, (-1). rewrite wrets_cons_call, wrets_one. split; [reflexivity|]. split; [apply in_or_app; right; left; reflexivity|]. left. split; [reflexivity|lia].
  - apply NIL. unfold start_flush in E. destruct (has (c_flags cl) SHR_WRONLY); [|discriminate]. destruct (_ =? 0).
    { inj E. fin. }
    destruct (_ && _); [destruct (c_r2w cl)|]; try (eapply FW; exact E). inj E. fin.
  - apply NIL. unfold start_close in E. destruct (_ =? 0); [inj E; fin|]. destruct (has (c_flags cl) SHR_WRONLY); [|discriminate]. eapply FW; exact E.
  - inj E. apply NIL. fin.
  - apply obind_ok in E. destruct E as ([c1 d] & _ & E). inj E. apply NIL. fin.
  - inj E. apply NIL. fin.
  - apply obind_ok in E. destruct E as ([c1 d] & _ & E). inj E. apply NIL. fin.
  - inj E. apply NIL. fin.
Qed.

Lemma step_wact w0 w evs a w' ev c : WI w0 w evs -> PI w evs -> contract w a -> step w a = Ok (w', ev) -> stepI w a w' ev ->
  (c < length (w_cl w))%nat -> (c_live (cli w c) = true -> has (c_flags (cli w c)) SHR_BUFFERED = false /\ has (c_flags (cli w c)) SHR_NONBLOCK = false) ->
  wact c evs ev.
Proof.
  intros W HP HC HS SI L FL. pose proof (wi_ring _ _ _ W) as I.
  assert (OT : forall c1 w1 cl1, actor a = Some c1 -> c1 <> c -> Forall (tagged c1) ev -> w' = w1 -> cl1 = tt -> wact c evs ev).
  { intros c1 w1 cl1 _ N T _ _. left. split; [apply (wrets_other c1); auto|]. apply (accepted_other c1 c ev); auto. }
  assert (WF : forall c1 k iov len nb, c1 = c -> (c_pc (cli w c1) = RunW k iov len nb \/ c_pc (cli w c1) = WaitW k iov len nb) ->
    c_live (cli w c) = true /\ exists ms, CI (w_ring w) (committed evs) (cli w c) ms /\ kont_ok (w_ring w) (cli w c) ms iov k /\ iov_ok (r_n (w_ring w)) (r_mm (w_ring w)) iov
      /\ len = nbytes iov /\ pc_for (c_flags (cli w c)) (RunW k iov len nb) (pending c evs)).
  { intros c1 k iov len nb -> Hpc. pose proof (HP c) as HPc.
    assert (PF : pc_for (c_flags (cli w c)) (RunW k iov len nb) (pending c evs)) by (destruct Hpc as [Hpc|Hpc]; rewrite Hpc in HPc; exact HPc).
    assert (Hl : c_live (cli w c) = true).
    { destruct (pending c evs) eqn:Pd; [eapply pend_live; eassumption|]. cbn in PF. destruct k; try (destruct PF; discriminate). destruct PF as (? & ? & _). discriminate. }
    split; [exact Hl|]. destruct (wi_cl _ _ _ W c Hl) as [ms C]. exists ms. pose proof (ci_pc _ _ _ _ C) as P. unfold pc_ok in P.
    split; [exact C|]. destruct Hpc as [Hpc|Hpc]; rewrite Hpc in P; destruct P as (_ & P1 & P2 & P3 & _); auto. }
  assert (TG : forall c1 rs, c1 <> c -> wact c evs (rets c1 rs)).
  { intros c1 rs N. left. split; [apply (wrets_other c1); [auto|apply tagged_rets]|]. apply (accepted_other c1 c); [auto|apply tagged_rets]. }
  assert (NW : forall c1 x, (forall iov v, x <> RetWrite iov v) -> wact c evs [ERet c1 x]).
  { intros c1 x N. left. split; [|reflexivity]. destruct x; try reflexivity. elim (N iov r). reflexivity. }
  destruct SI as
   [ a
   | e flags pid w' E
   | e flags pid w' cl E
   | c1 x cl' rs Hl Hpc E
   | c1 e k iov len nb v cl' rs Hl Hpc Hv E
   | c1 e k iov len n s p Hl Hpc He E Er
   | c1 e k iov len nb r1 hw ks bh hw' wok r2 rv cl' rs Hl Hpc He E Ew Eb E2 Ev Ee
   | c1 e buf niov Hl Hpc He
   | c1 e buf niov q md h ks ok Hl Hpc He Hnb E Eh Ef
   | c1 e buf niov q md n s p Hl Hpc He Hnb E Eh
   | c1 e buf niov q md x cur' hr r2w' ks1 bh1 ks2 ok h Hl Hpc He E Eh Er Hn0 Hn1 Ef
   | c1 e w' Hl Hpc Hw'
   | c1 e ks h b cl' rs Hl Hpc He E Ee
   | c1 e Hl Hpc
   | c1 e reset r x Hl Hpc E
   | c1 e get st sz r x Hl Hpc E
   | c1 sid polls Hs Hp
   | a c1 sc k iov len nb cl' rs Ha Hpc E
   | a c1 sc buf niov Ha Hpc
   | c1 Hl ]; try (left; split; reflexivity); try (apply NW; discriminate).
  - destruct (Nat.eq_dec c1 c) as [->|N].
    + destruct (FL Hl) as [F _]. eapply start_unb; eassumption.
    + left. split; [apply (wrets_other c1); [auto|constructor; [reflexivity|apply tagged_rets]]|]. apply (accepted_other c1 c); [auto|constructor; [reflexivity|apply tagged_rets]].
  - destruct (Nat.eq_dec c1 c) as [->|N]; [|apply TG; exact N]. destruct (FL Hl) as [F1 F2].
    destruct (WF c k iov len nb eq_refl (or_introl Hpc)) as (_ & ms & C & K & Hi & _ & PF).
    destruct (end_unb _ _ _ _ _ _ _ _ _ _ _ _ _ I C F1 K Hi PF E) as (-> & -> & Po & NB). right. exists iov, v. rewrite wrets_one.
    split; [reflexivity|]. split; [apply in_or_app; left; apply pending_in; exact Po|]. left. split; [reflexivity|].
    destruct Hv as [[_ ->]|(_ & -> & _)]; [lia|congruence].
  - destruct (Nat.eq_dec c1 c) as [->|N].
    2:{ left. split; [apply (wrets_other c1); [auto|constructor; [reflexivity|apply tagged_rets]]|]. apply (accepted_other c1 c); [auto|constructor; [reflexivity|apply tagged_rets]]. }
    destruct (FL Hl) as [F1 F2]. destruct (WF c k iov len nb eq_refl (or_introl Hpc)) as (_ & ms & C & K & Hi & LE & PF).
    destruct (end_unb _ _ _ _ _ _ _ _ _ _ _ _ _ I C F1 K Hi PF Ee) as (-> & -> & Po & NB). right. exists iov, rv.
    change (wrets c (ECommit c iov :: rets c [RetWrite iov rv])) with (wrets c (rets c [RetWrite iov rv])). rewrite wrets_one.
    split; [reflexivity|]. split; [apply in_or_app; left; apply pending_in; exact Po|]. right.
    split; [cbn; rewrite is_same, app_nil_r; reflexivity|]. subst rv. destruct (_ && _); [left; exact LE|right; reflexivity].
  - left. split; [|cbn; clear; induction rs; [reflexivity|exact IHrs]]. unfold flush_write in Ee. apply obind_ok in Ee. destruct Ee as (ms & _ & Ee). destruct (wr_check _ _ _).
    + inj Ee. reflexivity.
    + inj Ee. reflexivity.
  - apply NW. unfold do_stat in E. intros iov v ->. repeat (match type of E with context [if ?b then _ else _] => destruct b | context [match ?b with _ => _ end] => destruct b end); discriminate.
  - apply NW. intros iov v ->. unfold do_app in E. repeat (match type of E with context [if ?b then _ else _] => destruct b | context [match ?b with _ => _ end] => destruct b | obind _ _ = Ok _ => apply obind_ok in E; destruct E as (? & _ & E) end); try discriminate.
  - destruct (Nat.eq_dec c1 c) as [->|N]; [|apply TG; exact N].
    destruct (WF c k iov len nb eq_refl (or_intror Hpc)) as (Hl & ms & C & K & Hi & _ & PF). destruct (FL Hl) as [F1 F2].
    destruct (end_unb _ _ _ _ _ _ _ _ _ _ _ _ _ I C F1 K Hi PF E) as (-> & -> & Po & NB). right. exists iov, sc. rewrite wrets_one.
    split; [reflexivity|]. split; [apply in_or_app; left; apply pending_in; exact Po|]. left. split; [reflexivity|]. destruct Ha as [[_ ->]|[_ ->]]; lia.
Qed.

(** ** the reads *)
Definition rgood (niov v : Z) (buf : bytes) (iov : list (Z * Z)) : Prop :=
  (iov = [] /\ v <= 0)
  \/ exists ms, ms <> [] /\ nonempty ms /\ zlen ms <= niov /\ v = nbytes ms /\ read_msgs (RetRead v buf iov) = ms /\ firstn (Z.to_nat v) buf = concat ms /\ zlen iov = zlen ms.
Definition RG (evs : list event) : Prop :=
  forall c v buf iov, In (ERet c (RetRead v buf iov)) evs -> exists b niov, In (ECall c (CRead b niov)) evs /\ rgood niov v buf iov.
Lemma nonempty_skipn k h : nonempty h -> nonempty (skipn k h).
Proof. unfold nonempty. intros H. rewrite <- (firstn_skipn k h) in H. apply Forall_app in H. apply H. Qed.
Lemma avail_ne r h q : Inv0 r h -> nonempty (available r q).
Proof.
  intros I. pose proof (w_ne _ _ _ (i_win _ _ I)) as N. unfold available.
  assert (L : forall k, nonempty (lastn k h)) by (intros k; unfold lastn; apply nonempty_skipn; exact N).
  destruct (r_farm r); [apply nonempty_skipn; rewrite (retained_eq _ _ I); apply L|rewrite (unread_eq _ _ I); apply L].
Qed.
Lemma rets_noread c rs : (forall v buf iov, ~ In (RetRead v buf iov) rs) -> forall c' v buf iov, ~ In (ERet c' (RetRead v buf iov)) (rets c rs).
Proof. intros N c' v buf iov I. apply in_map_iff in I. destruct I as (y & E & I). injection E as _ ->. apply (N _ _ _ I). Qed.
Lemma flush_noread cl k nb cl' rs v buf iov : flush_write cl k nb = Ok (cl', rs) -> ~ In (RetRead v buf iov) rs.
Proof.
  intros F. unfold flush_write in F. apply obind_ok in F. destruct F as (ms & _ & F). destruct (wr_check _ _ _); [|destruct k]; inj F; fin.
Qed.
Lemma go_noread cl i len cl' rs v buf iov : go_write cl i len = Ok (cl', rs) -> ~ In (RetRead v buf iov) rs.
Proof.
  unfold go_write. intros E. destruct (has _ _); [|inj E; fin]. destruct (_ && _); [apply obind_ok in E; destruct E as (? & _ & E); inj E; fin|].
  destruct (_ =? 0); [inj E; fin|]. apply obind_ok in E. destruct E as (? & _ & E). destruct (wr_check _ _ _); inj E; fin.
Qed.
Lemma end_noread cl k i r cl' rs v buf iov : end_write cl k i r = Ok (cl', rs) -> ~ In (RetRead v buf iov) rs.
Proof.
  unfold end_write. intros E. destruct k.
  - inj E; fin.
  - destruct (_ <=? 0); [inj E; fin|]. eapply go_noread; exact E.
  - inj E; fin.
  - inj E; fin.
Qed.
Lemma start_noread cl x cl' rs v buf iov : (forall b n, x <> CRead b n) -> start_call cl x = Ok (cl', rs) -> ~ In (RetRead v buf iov) rs.
Proof.
  intros NR E. destruct x; cbn [start_call] in E; [elim (NR buf0 niov); reflexivity|..].
  - unfold start_write in E. destruct (has _ _); [|discriminate]. destruct (wr_check _ _ _); [eapply go_noread; exact E|inj E; fin].
  - unfold start_flush in E. destruct (has (c_flags cl) SHR_WRONLY); [|discriminate]. destruct (_ =? 0); [inj E; fin|].
    destruct (_ && _); [destruct (c_r2w cl)|]; try (eapply flush_noread; exact E). inj E; fin.
  - unfold start_close in E. destruct (_ =? 0); [inj E; fin|]. destruct (has (c_flags cl) SHR_WRONLY); [|discriminate]. eapply flush_noread; exact E.
  - inj E; fin.
  - apply obind_ok in E. destruct E as ([c1 d] & _ & E). inj E; fin.
  - inj E; fin.
  - apply obind_ok in E. destruct E as ([c1 d] & _ & E). inj E; fin.
  - inj E; fin.
Qed.
Lemma blit_front (c buf : bytes) : zlen c <= zlen buf -> firstn (length c) (blit 0 c buf) = c.
Proof.
  intros H. unfold blit. cbn [Z.to_nat firstn]. rewrite app_nil_l, firstn_app, Nat.sub_diag, firstn_all. apply app_nil_r.
Qed.
Lemma RG_step w0 w evs a w' ev : WI w0 w evs -> PI w evs -> seq_bound (w_ring w) evs -> contract w a -> step w a = Ok (w', ev) -> stepI w a w' ev -> RG evs -> RG (evs ++ ev).
Proof.
  intros W HP HB HC HS SI IH c v buf iov I.
  assert (OLD : In (ERet c (RetRead v buf iov)) evs -> exists b niov, In (ECall c (CRead b niov)) (evs ++ ev) /\ rgood niov v buf iov).
  { intros J. destruct (IH _ _ _ _ J) as (b & n & A & B). exists b, n. split; [apply in_or_app; left; exact A|exact B]. }
  apply in_app_or in I. destruct I as [I|I]; [exact (OLD I)|]. clear OLD IH.
  assert (ONE : forall c1 b n v1 buf1 iov1, (pending c1 evs = Some (CRead b n) \/ In (ECall c1 (CRead b n)) ev) -> rgood n v1 buf1 iov1 ->
    ERet c (RetRead v buf iov) = ERet c1 (RetRead v1 buf1 iov1) -> exists b niov, In (ECall c (CRead b niov)) (evs ++ ev) /\ rgood niov v buf iov).
  { intros c1 b n v1 buf1 iov1 Pd G E. injection E as <- <- <- <-. exists b, n. split; [|exact G]. apply in_or_app.
    destruct Pd as [Pd|Pd]; [left; apply pending_in; exact Pd|right; exact Pd]. }
  assert (ZR : forall n v1 buf1, v1 <= 0 -> rgood n v1 buf1 []) by (intros; left; auto).
  assert (PR : forall c1 b n, c_pc (cli w c1) = RunR b n \/ c_pc (cli w c1) = WaitR b n -> pending c1 evs = Some (CRead b n)).
  { intros c1 b n Hpc. pose proof (HP c1) as H. destruct Hpc as [Hpc|Hpc]; rewrite Hpc in H; exact H. }
  assert (SI2 := SI). destruct SI as
   [ a
   | e flags pid w' E
   | e flags pid w' cl E
   | c1 x cl' rs Hl Hpc E
   | c1 e k iov1 len nb v1 cl' rs Hl Hpc Hv E
   | c1 e k iov1 len n s p Hl Hpc He E Er
   | c1 e k iov1 len nb r1 hw ks bh hw' wok r2 rv cl' rs Hl Hpc He E Ew Eb E2 Ev Ee
   | c1 e buf1 niov Hl Hpc He
   | c1 e buf1 niov q md h ks ok Hl Hpc He Hnb E Eh Ef
   | c1 e buf1 niov q md n s p Hl Hpc He Hnb E Eh
   | c1 e buf1 niov q md x cur' hr r2w' ks1 bh1 ks2 ok h Hl Hpc He E Eh Er Hn0 Hn1 Ef
   | c1 e w' Hl Hpc Hw'
   | c1 e ks h b cl' rs Hl Hpc He E Ee
   | c1 e Hl Hpc
   | c1 e reset r x Hl Hpc E
   | c1 e get st sz r x Hl Hpc E
   | c1 sid polls Hs Hp
   | a c1 sc k iov1 len nb cl' rs Ha Hpc E
   | a c1 sc buf1 niov Ha Hpc
   | c1 Hl ].
  - destruct I.
  - destruct I as [I|[]]; discriminate.
  - destruct I as [I|[]]; discriminate.
  - destruct I as [I|I]; [discriminate|].
    destruct x as [b n| | | | | | | |]; try (exfalso; revert I; apply rets_noread; intros ? ? ?; eapply start_noread; [|exact E]; discriminate).
    cbn [start_call] in E. destruct (has (c_flags (cli w c1)) SHR_RDONLY); [|discriminate].
    destruct ((zlen b =? 0) || (n =? 0)); inj E; cbn [rets map In] in I; [|destruct I].
    destruct I as [I|[]]. eapply ONE; [right; left; reflexivity| |symmetry; exact I]. apply ZR; lia.
  - exfalso. revert I. apply rets_noread. intros ? ? ?. eapply end_noread; exact E.
  - destruct I.
  - destruct I as [I|I]; [discriminate|]. exfalso. revert I. apply rets_noread. intros ? ? ?. eapply end_noread; exact Ee.
  - destruct I as [I|[]]. eapply ONE; [left; apply PR; left; exact Hpc| |symmetry; exact I]. apply ZR; lia.
  - destruct I as [I|[]]. eapply ONE; [left; apply PR; left; exact Hpc| |symmetry; exact I]. apply ZR; lia.
  - destruct I.
  - assert (Pd : pending c1 evs = Some (CRead buf1 niov)) by (apply PR; left; exact Hpc).
    assert (As : asleep w c1 = false) by (unfold asleep; rewrite Hpc; reflexivity).
    destruct (read_step _ _ _ _ _ _ _ _ _ W HP HB Pd As HS He) as (N1 & N2 & _ & _ & _ & _ & [(_ & _ & _ & X)|(A1 & _ & _ & A4)]).
    { destruct (has (c_flags (cli w c1)) SHR_NONBLOCK); destruct X as [X _]; [|discriminate].
      rewrite X in I. destruct I as [I|[]]. eapply ONE; [left; exact Pd| |symmetry; exact I]. apply ZR; lia. }
    rewrite A4 in I. destruct I as [I|[]]. eapply ONE; [left; exact Pd| |symmetry; exact I].
    set (tk := take_fit (Z.to_nat niov) (usable buf1) (available (w_ring w) (c_q (cli w c1)))).
    assert (US : 0 <= usable buf1 <= zlen buf1) by (pose proof (zlen_nonneg buf1); unfold usable; lia).
    assert (LB : zlen (concat tk) <= zlen buf1) by (eapply Z.le_trans; [apply take_fit_len; apply US|apply US]).
    destruct (list_eq_dec (list_eq_dec Z.eq_dec) tk []) as [E0|NE].
    + left. fold tk. rewrite E0. split; [reflexivity|lia].
    + right. exists tk. split; [exact NE|].
      assert (NN : nonempty tk).
      { destruct (take_fit_prefix (Z.to_nat niov) (usable buf1) (available (w_ring w) (c_q (cli w c1)))) as [rest EQ]. fold tk in EQ.
        pose proof (avail_ne _ _ (c_q (cli w c1)) (i_inv0 _ _ (wi_ring _ _ _ W))) as NA. unfold nonempty in *. rewrite EQ in NA. apply Forall_app in NA. apply NA. }
      split; [exact NN|]. split; [destruct (take_fit_max (Z.to_nat niov) (usable buf1) (available (w_ring w) (c_q (cli w c1))) ltac:(lia)) as (rest & _ & _ & LN & _); fold tk in LN; lia|].
      split; [destruct tk; [congruence|reflexivity]|].
      split; [|split].
      * cbn [read_msgs]. fold tk. apply tile_map; [lia| |].
        -- rewrite zlen_blit by (pose proof (zlen_nonneg (concat tk)); lia). unfold nbytes. lia.
        -- rewrite sub_0_firstn. unfold nbytes, zlen. rewrite Nat2Z.id. apply blit_front. exact LB.
      * destruct tk as [|m t] eqn:Etk; [congruence|]. rewrite <- Etk in *. unfold nbytes, zlen. rewrite Nat2Z.id. apply blit_front. exact LB.
      * clear. generalize 0. induction tk as [|m t IH]; intros o; [reflexivity|]. cbn [tile]. rewrite !zlen_cons. f_equal. apply IH.
  - destruct I as [I|[]]; discriminate.
  - exfalso. revert I. apply rets_noread. intros ? ? ?. eapply flush_noread; exact Ee.
  - destruct I as [I|[]]; discriminate.
  - destruct I as [I|[]]. exfalso. injection I as _ ->. unfold do_stat in E. repeat (match type of E with context [if ?b then _ else _] => destruct b | context [match ?b with _ => _ end] => destruct b end); discriminate.
  - destruct I as [I|[]]. exfalso. injection I as _ ->. unfold do_app in E. repeat (match type of E with context [if ?b then _ else _] => destruct b | context [match ?b with _ => _ end] => destruct b | obind _ _ = Ok _ => apply obind_ok in E; destruct E as (? & _ & E) end); discriminate.
  - destruct I.
  - exfalso. revert I. apply rets_noread. intros ? ? ?. eapply end_noread; exact E.
  - destruct I as [I|[]]. eapply ONE; [left; apply PR; right; exact Hpc| |symmetry; exact I]. apply ZR; destruct Ha as [[_ ->]|[_ ->]]; lia.
  - destruct I as [I|[]]; discriminate.
Qed.

(** ** both, along an execution *)
Definition WV (w : world) (evs : list event) : Prop := forall c,
  ((length (w_cl w) <= c)%nat -> wrets c evs = [] /\ committed_by c evs = [] /\ forall fl, ~ In (EOpen fl (Some c)) evs)
  /\ forall fl, In (EOpen fl (Some c)) evs -> (c < length (w_cl w))%nat /\ (c_live (cli w c) = true -> c_flags (cli w c) = fl)
     /\ (has fl SHR_BUFFERED = false -> has fl SHR_NONBLOCK = false -> acks (wrets c evs) (committed_by c evs)
         /\ forall iov v, In (iov, v) (wrets c evs) -> In (ECall c (CWrite iov)) evs).

Lemma step_opened w a w' ev fl c : stepI w a w' ev -> In (EOpen fl (Some c)) ev -> ev = [EOpen fl (Some c)].
Proof.
  assert (RT : forall c1 rs fl c, ~ In (EOpen fl (Some c)) (rets c1 rs)).
  { intros c1 rs f c0 I. apply in_map_iff in I. destruct I as (y & E & _). discriminate. }
  intros SI I. inversion SI; subst; cbn [In] in I; try tauto;
    try (destruct I as [I|I]; try discriminate); try (exfalso; eapply RT; eassumption); try tauto.
  injection I as -> E. rewrite E. reflexivity.
Qed.
Lemma step_quiet w a w' ev c w0 evs : WI w0 w evs -> PI w evs -> stepI w a w' ev -> (length (w_cl w) <= c)%nat ->
  wrets c ev = [] /\ committed_by c ev = [].
Proof.
  intros W HP SI L.
  assert (LV : forall c1, c_live (cli w c1) = true -> c1 <> c).
  { intros c1 H ->. apply live_bound in H. lia. }
  assert (LP : forall c1, c_pc (cli w c1) <> Idle -> c1 <> c).
  { intros c1 H ->. apply H. unfold cli. rewrite nth_overflow by exact L. reflexivity. }
  assert (TG : forall c1 ev1, c1 <> c -> Forall (tagged c1) ev1 -> wrets c ev1 = [] /\ committed_by c ev1 = []).
  { intros c1 ev1 N T. split; [apply (wrets_other c1); auto|]. apply (accepted_other c1 c); auto. }
  inversion SI; subst; try (split; reflexivity);
  match goal with
  | c1 : nat |- _ => eapply (TG c1); [first [apply LV; assumption|apply LP; congruence]|first [apply tagged_rets|repeat constructor; apply tagged_rets|repeat constructor]]
  end.
Qed.
Lemma step_new w0 w evs a w' ev fl c : WI w0 w evs -> contract w a -> stepI w a w' ev -> In (EOpen fl (Some c)) ev -> c = length (w_cl w) /\ length (w_cl w') = S c.
Proof.
  intros W HC SI I. pose proof (step_opened _ _ _ _ _ _ SI I) as E. clear I.
  destruct SI; try discriminate E; try (destruct rs; discriminate E); try (destruct rs as [|? [|? ?]]; discriminate E).
  - destruct (do_open_ok e w flags pid _ (wi_ring _ _ _ W) HC) as (w1 & o & E' & _ & E2 & _ & _). rewrite H in E'. injection E' as E1 _.
    injection E as _ E3. cbn [w_cl set]. rewrite app_length. rewrite E1 in *. rewrite E2 in *. cbn. lia.
Qed.
Lemma WV_step w0 w evs a w' ev : WI w0 w evs -> PI w evs -> contract w a -> step w a = Ok (w', ev) -> stepI w a w' ev -> WV w evs -> WV w' (evs ++ ev).
Proof.
  intros W HP HC HS SI IH c. destruct (IH c) as [IN IO]. destruct (step_ids _ _ _ _ _ _ W HC HS) as (LE & KIN & NEW).
  rewrite wrets_app, cby_app.
  destruct (Nat.lt_ge_cases c (length (w_cl w))) as [L|L].
  - split; [lia|]. intros fl I. apply in_app_or in I.
    assert (I' : In (EOpen fl (Some c)) evs).
    { destruct I as [I|I]; [exact I|]. exfalso. destruct (step_new _ _ _ _ _ _ _ _ W HC SI I). lia. }
    destruct (IO fl I') as (_ & FL & AK). split; [lia|]. split.
    + intros Lv. destruct (KIN c L Lv) as (K1 & K2 & _). rewrite K2. apply FL. congruence.
    + intros HB HN. destruct (AK HB HN) as [AK1 AC].
      assert (AC' : forall iov v, In (iov, v) (wrets c evs) -> In (ECall c (CWrite iov)) (evs ++ ev)) by (intros; apply in_or_app; left; eapply AC; eassumption).
      destruct (step_wact _ _ _ _ _ _ c W HP HC HS SI L) as [[-> ->]|(iov & v & -> & CA & D)].
      * intros Lv. rewrite (FL Lv). auto.
      * rewrite !app_nil_r. split; assumption.
      * split.
        2:{ intros i1 v1 J. apply in_app_or in J. destruct J as [J|[J|[]]]; [eapply AC'; exact J|]. injection J as <- <-. exact CA. }
        destruct D as [[-> D]|[-> D]]; [rewrite app_nil_r; apply acks_no; assumption|apply acks_yes; assumption].
  - destruct (IN L) as (N1 & N2 & N3). rewrite N1, N2.
    destruct (step_quiet _ _ _ _ c _ _ W HP SI L) as [Q1 Q2]. rewrite Q1, Q2. split.
    + intros L'. split; [reflexivity|]. split; [reflexivity|]. intros fl I. apply in_app_or in I. destruct I as [I|I]; [exact (N3 fl I)|].
      destruct (step_new _ _ _ _ _ _ _ _ W HC SI I). lia.
    + intros fl I. apply in_app_or in I. destruct I as [I|I]; [elim (N3 fl I)|]. destruct (step_new _ _ _ _ _ _ _ _ W HC SI I) as [-> E].
      split; [lia|]. split; [|intros; split; [constructor|intros ? ? []]]. intros Lv. destruct (NEW _ Lv L) as (fl' & Ev & F & _). rewrite (step_opened _ _ _ _ _ _ SI I) in Ev. congruence.
Qed.

Lemma reach_pipe r w evs : reach contract r w evs -> WV w evs /\ RG evs.
Proof.
  intros (fsz & F & X & B). refine (exec_ind_inv contract r fsz (fun w evs => WV w evs /\ RG evs) id_contract F _ _ w evs X B).
  - split; [|intros ? ? ? ? []]. intros c. split; [intros _; repeat split; intros ? []|intros ? []].
  - clear w evs X B. intros w evs a w' ev X W HP W' HB HC HS SI EF [IH1 IH2]. pose proof (seq_bound_app _ _ _ HB) as HB'. split.
    + eapply WV_step; eassumption.
    + eapply RG_step; eassumption.
Qed.
