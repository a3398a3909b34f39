(** * Application data and statistics in executions with kills. *)
From Verif Require Import MicroFacts Crash Effects Final Pending KillExec AppFacts Counters.
From Verif Require Export KillFinal CountSpec FineStep KillInv.

(** ** what the statements of a section do to them *)

(** nothing to the application data and the counters of writers *)
Definition still (r r' : ring) : Prop := r_app r' = r_app r /\ st_mw (r_stat r') = st_mw (r_stat r) /\ st_bw (r_stat r') = st_bw (r_stat r).
Lemma still_r r : still r r. Proof. repeat split; reflexivity. Qed.
Lemma still_t a b c : still a b -> still b c -> still a c. Proof. intros (A1 & A2 & A3) (B1 & B2 & B3). repeat split; congruence. Qed.
Ltac ring_step2 := apply ea_at; let E := fresh "E" in intros ? ? ? E; cbn [obind] in E;
  repeat match type of E with
  | (if ?b then _ else _) = Ok _ => destruct b; try discriminate E
  | obind _ _ = Ok _ => apply obind_ok in E; let y := fresh "y" in destruct E as (y & ? & E); cbn [obind] in E
  | (let '(_, _) := ?x in _) = Ok _ => destruct x
  end; try discriminate E; apply ok_pair in E; destruct E as [<- <-]; (split; [repeat split; reflexivity|]).

Lemma sx_drop_loop {R} smm fuel niov need am ab (k : Z -> Z -> Z -> prog ring R) : (forall i z p, each still (k i z p)) ->
  forall i z p, each still (drop_loop_p smm fuel niov need am ab i z p k).
Proof.
  intros K. induction fuel as [|fuel IH]; intros i z p; cbn [drop_loop_p]; destruct (_ || _); try apply K.
  - apply ea_at. intros s s' p' E. discriminate E.
  - ring_step2. apply IH.
Qed.
Lemma sx_drop {R} smm need niov (k : prog ring R) : each still k -> each still (drop_p smm need niov k).
Proof. intros K. unfold drop_p. ring_step2. apply sx_drop_loop. intros i z p. do 6 ring_step2. exact K. Qed.
Lemma sx_evict {R} smm len niov n i (k : Z -> Z -> Z -> prog ring R) : (forall e a mp, each still (k e a mp)) ->
  forall mp e a, each still (evict_p smm len mp n niov i e a k).
Proof. intros K. induction mp as [|mp IH]; intros e a; cbn [evict_p]; [apply K|]. ring_step2; first [apply K|apply IH]. Qed.
Lemma sx_bytes {R} line (k : prog ring R) : each still k -> forall bs pos, each still (bytes_p line pos bs k).
Proof. intros K. induction bs as [|x t IH]; intros pos; cbn [bytes_p]; [exact K|]. ring_step2. apply IH. Qed.
Lemma sx_copy {R} (k : prog ring R) : each still k -> forall iov p, each still (copy_p iov p k).
Proof.
  intros K. induction iov as [|b t IH]; intros p; cbn [copy_p]; [exact K|]. cbv zeta. do 3 ring_step2; apply sx_bytes, sx_bytes; ring_step2; apply IH.
Qed.
Lemma sx_commit smm iov len : each still (commit_p smm iov len false).
Proof. unfold commit_p. cbv zeta. ring_step2. apply sx_evict. intros e a mp. do 4 ring_step2. apply sx_copy. do 4 ring_step2. constructor. Qed.
Lemma sx_write smm iov len : each still (write_p smm iov len false).
Proof. unfold write_p. ring_step2; first [apply sx_commit|apply sx_drop, sx_commit|constructor]. Qed.
Lemma sx_read_loop {R} (k : rloc -> option seg -> prog ring R) : (forall x c, each still (k x c)) -> forall niov cur x, each still (read_loop_p niov cur x k).
Proof.
  intros K. induction niov as [|niov IH]; intros [s|] x; cbn [read_loop_p]; try apply K.
  cbv zeta. destruct (_ >? _); [apply K|]. ring_step2;
    (match goal with |- each _ (if ?b then _ else _) => destruct b end; [ring_step2; apply IH|]; do 4 ring_step2; apply IH).
Qed.
Lemma sx_read q md buf niov : each still (read_p q md buf niov).
Proof. unfold read_p. cbv zeta. ring_step2. destruct o; [|constructor]. apply sx_read_loop. intros x c. do 2 ring_step2. constructor. Qed.

Definition stillm (m m' : shm) : Prop := still (sh_ring m) (sh_ring m').
Lemma stillm_r m : stillm m m. Proof. apply still_r. Qed.
Lemma stillm_t a b c : stillm a b -> stillm b c -> stillm a c. Proof. apply still_t. Qed.
Lemma still_ring {A} (p : prog ring A) : each still p -> each stillm (on_ring p).
Proof. apply each_lift. intros t s H. exact H. Qed.
Lemma still_bw {A} b (p : prog bks A) : each stillm (on_bw b p).
Proof. apply (each_lift (fun _ _ => True)); [|apply each_any; auto]. intros t s _. unfold stillm. rewrite ring_bk. apply still_r. Qed.

Lemma each_dies {S A} (R : S -> S -> Prop) (Rr : forall s, R s s) (Rt : forall a b c, R a b -> R b c -> R a c) (p : prog S A) :
  each R p -> forall s l s', dies_at p s l s' -> R s s'.
Proof.
  intros H. induction H as [x|l f H H' IH]; intros s l' s' D; [apply dies_ret in D; contradiction|].
  apply dies_at_inv in D. destruct D as [[_ ->]|(s1 & p1 & E & D)]; [apply Rr|]. apply (Rt _ _ _ (H _ _ _ E)), (IH _ _ _ E _ _ _ D).
Qed.

(** the sections other than those of writers, shr_stat and shr_appdata *)
Ltac sx := repeat first
  [ apply ea_ret | apply still_bw | apply still_ring, sx_write | apply still_ring, sx_read
  | apply each_bind; [|intro] | match goal with |- each _ (At _ (fun _ => UB)) => apply each_stop; reflexivity
                   | |- each _ (match ?x with _ => _ end) => destruct x end ].
Lemma still_section e cl : (match c_pc cl with RunW _ _ _ _ | RunStat _ | RunApp _ _ _ => False | _ => True end) -> each stillm (section e cl).
Proof. intros N. unfold section. destruct (c_pc cl); try contradiction; sx. Qed.

(** a beginning of what is copied *)
Lemma app_left2 : forall bs pos r line s, 0 <= pos -> pos + zlen bs <= zlen (r_app r) -> dies_at (app_p pos bs) r line s ->
  exists k, (k <= length bs)%nat /\ s = r <| r_app := blit pos (firstn k bs) (r_app r) |>.
Proof.
  induction bs as [|b bs IH]; intros pos r line s Hp Hl D; cbn [app_p] in D; [apply dies_ret in D; contradiction|].
  apply dies_at_inv in D. destruct D as [[_ ->]|(s1 & p1 & E & D)].
  { exists O. split; [lia|]. cbn [firstn]. rewrite blit_nil. destruct r; reflexivity. }
  apply obind_ok in E. destruct E as (a & Ea & E). apply ok_pair in E. destruct E as [<- <-].
  apply zset_inv in Ea. destruct Ea as [Hz ->]. rewrite zlen_cons in Hl. pose proof (zlen_nonneg bs).
  apply IH in D; [|lia|cbn [r_app set]; rewrite zlen_zupd; lia]. destruct D as (k & Hk & ->).
  exists (S k). split; [cbn [length]; lia|]. cbn [r_app set firstn].
  rewrite (blit_cons 0 pos b (firstn k bs)); [reflexivity|lia|]. rewrite zlen_cons. assert (zlen (firstn k bs) <= zlen bs) by (unfold zlen; rewrite firstn_length; lia). lia.
Qed.

Lemma app_next_same evs e a : not_app e -> app_next evs e a a.
Proof.
  intros N. destruct e as [fl o|c x|c x|c ms|c]; cbn [app_next]; try reflexivity.
  - destruct x; try reflexivity. destruct N.
  - destruct (pending c evs) as [[]|]; try reflexivity. destruct get, set; auto.
Qed.
Lemma app_runs_quiet a0 ev : Forall not_app ev -> forall evs a, app_runs a0 evs a -> app_runs a0 (evs ++ ev) a.
Proof.
  induction 1 as [|e ev N F IH]; intros evs a A; [rewrite app_nil_r; exact A|].
  change (e :: ev) with ([e] ++ ev). rewrite app_assoc. apply IH. apply (ar_snoc _ _ _ _ _ A). apply app_next_same, N.
Qed.

Section KC.
Context (w0 w : world) (evs : list event) (c : nat) (e : env) (line : Z) (m : shm).
Hypothesis W : WI w0 w evs.
Hypothesis HP : PI w evs.
Hypothesis Hl : c_live (cli w c) = true.
Hypothesis D : dies_at (section e (cli w c)) (shared w) line m.

Lemma kill_still : (match c_pc (cli w c) with RunW _ _ _ _ | RunStat _ | RunApp _ _ _ => False | _ => True end) -> stillm (shared w) m.
Proof. intros N. apply (each_dies _ stillm_r stillm_t _ (still_section e _ N) _ _ _ D). Qed.

Lemma kill_writer k iov len nb : c_pc (cli w c) = RunW k iov len nb ->
  r_app (sh_ring m) = r_app (w_ring w) /\ st_mw (r_stat (sh_ring m)) = st_mw (r_stat (w_ring w))
  /\ (st_bw (r_stat (sh_ring m)) = st_bw (r_stat (w_ring w)) \/ 1004 <= line /\ st_bw (r_stat (sh_ring m)) = u64 (st_bw (r_stat (w_ring w)) + nbytes iov)).
Proof.
  intros Hpc. destruct (wi_cl _ _ _ W c Hl) as [ms C]. pose proof (ci_pc _ _ _ _ C) as P. unfold pc_ok in P. rewrite Hpc in P. destruct P as (_ & _ & -> & _).
  unfold section in D. rewrite Hpc in D. destruct (e_lock e); cbn [negb] in D; [|apply dies_ret in D; contradiction].
  assert (ST : forall m', stillm (shared w) m' -> r_app (sh_ring m') = r_app (w_ring w) /\ st_mw (r_stat (sh_ring m')) = st_mw (r_stat (w_ring w))
    /\ st_bw (r_stat (sh_ring m')) = st_bw (r_stat (w_ring w))) by (intros m' H; exact H).
  apply dies_bind in D. destruct D as [D1|(m1 & stored & E1 & D1)].
  { destruct (ST _ (each_dies _ stillm_r stillm_t _ (still_ring _ (sx_write _ _ _)) _ _ _ D1)) as (A & B & B'). auto. }
  pose proof (each_exec _ stillm_r stillm_t _ (still_ring _ (sx_write _ _ _)) _ _ _ E1) as S1.
  destruct stored; [|apply dies_ret in D1; contradiction]. destruct (c_w2r (cli w c)) as [h|].
  2:{ apply dies_at_inv in D1. destruct D1 as [[_ ->]|(s1 & p1 & E & _)]; [|discriminate E]. destruct (ST _ S1) as (A & B & B'). auto. }
  apply dies_bind in D1. destruct D1 as [D1|(m2 & x & E2 & D1)].
  { destruct (ST _ (stillm_t _ _ _ S1 (each_dies _ stillm_r stillm_t _ (still_bw _ _) _ _ _ D1))) as (A & B & B'). auto. }
  pose proof (stillm_t _ _ _ S1 (each_exec _ stillm_r stillm_t _ (still_bw _ _) _ _ _ E2)) as S2.
  destruct (snd x); [|apply dies_ret in D1; contradiction].
  apply dies_ring in D1. destruct D1 as (s & D1 & ->). destruct (ST _ S2) as (A & B & B'). cbn [put_ring sh_ring]. unfold wrote_p in D1.
  apply dies_at_inv in D1. destruct D1 as [[-> ->]|(s1 & p1 & E3 & D1)]; [auto|].
  apply ok_pair in E3. destruct E3 as [<- <-]. apply dies_at_inv in D1. destruct D1 as [[-> ->]|(s1 & p1 & E3 & D1)].
  - cbn. split; [exact A|]. split; [exact B|]. right. split; [lia|]. rewrite B'. reflexivity.
  - apply ok_pair in E3. destruct E3 as [<- <-]. apply dies_ret in D1. contradiction.
Qed.

(** the application data after a kill *)
Lemma kill_app : match pending c evs with
  | Some (CApp GNull (Some s) _) | Some (CApp (GBuf _) (Some s) _) =>
      r_app (sh_ring m) = r_app (w_ring w) \/ zlen s = zlen (r_app (w_ring w)) /\ exists k, r_app (sh_ring m) = firstn k s ++ skipn k (r_app (w_ring w))
  | _ => r_app (sh_ring m) = r_app (w_ring w)
  end.
Proof.
  pose proof (HP c) as HPc.
  assert (SAME : r_app (sh_ring m) = r_app (w_ring w) -> match pending c evs with
    | Some (CApp GNull (Some s) _) | Some (CApp (GBuf _) (Some s) _) =>
        r_app (sh_ring m) = r_app (w_ring w) \/ zlen s = zlen (r_app (w_ring w)) /\ exists k, r_app (sh_ring m) = firstn k s ++ skipn k (r_app (w_ring w))
    | _ => r_app (sh_ring m) = r_app (w_ring w)
    end).
  { intros H. destruct (pending c evs) as [[]|]; try exact H. destruct get, set; auto. }
  assert (OTHER : (match c_pc (cli w c) with RunW _ _ _ _ | RunStat _ | RunApp _ _ _ => False | _ => True end) -> r_app (sh_ring m) = r_app (w_ring w)).
  { intros N. destruct (kill_still N) as (A & _). exact A. }
  destruct (c_pc (cli w c)) as [ |k iov len nb|k iov len nb|buf niov|buf niov| | |reset|get st sz] eqn:Hpc; try (apply SAME, OTHER; exact Logic.I).
  - apply SAME. apply (proj1 (kill_writer _ _ _ _ Hpc)).
  - apply SAME. unfold section in D. rewrite Hpc in D. destruct (e_lock e); cbn [negb] in D; [|apply dies_ret in D; contradiction].
    destruct reset as [t|]; [|apply dies_ret in D; contradiction]. apply dies_ring in D. destruct D as (s & D1 & ->). cbn [put_ring sh_ring shared] in *.
    unfold reset_p in D1. apply dies_at_inv in D1. destruct D1 as [[-> ->]|(s1 & p1 & E3 & D1)]; [reflexivity|].
    apply ok_pair in E3. destruct E3 as [<- <-]. apply dies_at_inv in D1. destruct D1 as [[-> ->]|(s1 & p1 & E3 & D1)]; [reflexivity|].
    apply ok_pair in E3. destruct E3 as [<- <-]. apply dies_ret in D1. contradiction.
  - cbn [pc_for] in HPc. clear OTHER. destruct (wi_cl _ _ _ W c Hl) as [ms C]. pose proof (ci_pc _ _ _ _ C) as P. unfold pc_ok in P. rewrite Hpc in P.
    pose proof (wi_app _ _ _ W) as LA.
    unfold section in D. rewrite Hpc in D. destruct (e_lock e); cbn [negb] in D; [|apply dies_ret in D; contradiction].
    apply dies_ring in D. destruct D as (s & D1 & ->). cbn [put_ring sh_ring shared] in *. unfold setapp_p in D1.
    apply dies_at_inv in D1. destruct D1 as [[-> ->]|(s1 & p1 & E3 & D1)]; [apply SAME; reflexivity|].
    destruct (r_app_len (w_ring w) =? 0); [apply ok_pair in E3; destruct E3 as [<- <-]; apply dies_ret in D1; contradiction|].
    rewrite HPc. destruct P as [Hsz P].
    assert (GO : forall sb, zlen sb = sz \/ sz = zlen sb -> (if negb (sz =? r_app_len (w_ring w)) then Ok (w_ring w, Ret tt) else do a <- rd_mem 0 sz sb; Ok (w_ring w, app_p 0 a)) = Ok (s1, p1) ->
      r_app s = r_app (w_ring w) \/ zlen sb = zlen (r_app (w_ring w)) /\ exists k, r_app s = firstn k sb ++ skipn k (r_app (w_ring w))).
    { intros sb Hsb E. destruct (Z.eqb_spec sz (r_app_len (w_ring w))) as [Es|Ns]; cbn [negb] in E.
      2:{ apply ok_pair in E. destruct E as [<- <-]. apply dies_ret in D1. contradiction. }
      apply obind_ok in E. destruct E as (a & Ea & E). apply ok_pair in E. destruct E as [<- <-].
      assert (a = sb) as ->.
      { unfold rd_mem in Ea. destruct (_ && _); [|discriminate]. injection Ea as <-. unfold sub. cbn [Z.to_nat skipn]. apply firstn_all2. unfold zlen in *. lia. }
      apply app_left2 in D1; [|lia|lia]. destruct D1 as (k & Hk & ->). right. split; [lia|]. exists k. cbn [r_app set].
      unfold blit. cbn [Z.to_nat firstn app]. f_equal. f_equal. rewrite firstn_length. lia. }
    destruct get as [| |b], st as [sb|]; try (apply ok_pair in E3; destruct E3 as [<- <-]; apply dies_ret in D1; contradiction).
    + apply GO; [|exact E3]. cbn in P. lia.
    + apply GO; [|exact E3]. cbn in P. lia.
Qed.
End KC.

(** ** executions *)
Lemma kexec_app r fsz w evs : fresh r fsz -> kexec contract (world0 r fsz) w evs -> seq_bound r evs -> app_runs (r_app r) evs (r_app (w_ring w)).
Proof.
  intros F X. induction X as [|w evs a w' ev X IH Pa S|w evs c e line m X IH Pa Hl D U|w evs e flags pid line m X IH Pa D]; intros HB.
  - constructor.
  - destruct (kexec_inv contract r fsz (fun w a h => h) F _ _ X (seq_bound_app _ _ _ HB)) as (W & HP & _).
    assert (HBr : seq_bound (w_ring w) (evs ++ ev)) by (intros Hf; rewrite (same_dims_farm _ _ (wi_dims _ _ _ W)) in Hf; apply HB; exact Hf).
    destruct (step_app _ _ _ _ _ _ W HP HBr Pa (step_inv _ _ _ _ S)) as [[N E]|(c & e & x & v & out & z & -> & Ep & -> & M)].
    + rewrite E. apply app_runs_quiet; [exact N|]. apply IH, (seq_bound_app _ _ _ HB).
    + apply (ar_snoc _ _ _ _ _ (IH (seq_bound_app _ _ _ HB))). cbn [app_next]. rewrite Ep.
      assert (Q : match sets x with Some s => if v =? 0 then r_app (w_ring w') = s else r_app (w_ring w') = r_app (w_ring w) \/ zlen s = zlen (r_app (w_ring w)) /\ r_app (w_ring w') = s
         | None => r_app (w_ring w') = r_app (w_ring w) end).
      { destruct (sets x) as [s|]; [|exact M]. destruct M as [[-> M]|[-> [M|(_ & M1 & M2)]]]; cbn; auto. }
      destruct x as [buf niov|iov|wait| |reset|reset|get st sz|fd| ]; try exact Q. destruct get, st; exact Q.
  - destruct (kexec_inv contract r fsz (fun w a h => h) F _ _ X (seq_bound_app _ _ _ HB)) as (W & HP & _).
    pose proof (kill_app _ _ _ _ _ _ _ W HP Hl D) as K. change (r_app (w_ring (killed w c m))) with (r_app (sh_ring m)).
    unfold kill_events. rewrite app_assoc.
    set (pre := match c_pc (cli w c) with RunW _ iov _ _ => if 1004 <=? line then [ECommit c iov] else [] | _ => [] end).
    assert (Np : Forall not_app pre) by (unfold pre; destruct (c_pc (cli w c)); try constructor; destruct (1004 <=? line); repeat constructor).
    assert (Pp : pending c (evs ++ pre) = pending c evs).
    { rewrite pending_app. unfold pre. destruct (c_pc (cli w c)); try reflexivity. destruct (1004 <=? line); reflexivity. }
    apply (ar_snoc _ _ _ _ _ (app_runs_quiet _ _ Np _ _ (IH (seq_bound_app _ _ _ HB)))). cbn [app_next]. rewrite Pp. exact K.
  - change (w_ring (killed_opening w m)) with (sh_ring m). rewrite (open_ring _ _ _ _ _ _ D). apply IH, HB.
Qed.

Lemma app_now_quiet app0 evs ev : Forall not_app ev -> app_now app0 (evs ++ ev) = app_now app0 evs.
Proof. intros N. rewrite app_now_app, (app_st_quiet _ N). reflexivity. Qed.
Lemma no_setter_app evs ev : no_setter_killed (evs ++ ev) -> no_setter_killed evs.
Proof. intros H e1 c e2 g s z ->. apply (H e1 c (e2 ++ ev)). rewrite <- app_assoc. reflexivity. Qed.
Definition pre_kill (w : world) (c : nat) (line : Z) : list event :=
  match c_pc (cli w c) with RunW _ iov _ _ => if 1004 <=? line then [ECommit c iov] else [] | _ => [] end.
Lemma kill_events_pre w c line : kill_events w c line = pre_kill w c line ++ [ECrash c]. Proof. reflexivity. Qed.
Lemma pre_kill_app w c line : Forall not_app (kill_events w c line).
Proof. rewrite kill_events_pre. unfold pre_kill. destruct (c_pc (cli w c)); repeat constructor; destruct (1004 <=? line); repeat constructor. Qed.
Lemma pre_kill_pending w c line evs : pending c (evs ++ pre_kill w c line) = pending c evs.
Proof. rewrite pending_app. unfold pre_kill. destruct (c_pc (cli w c)); try reflexivity. destruct (1004 <=? line); reflexivity. Qed.

Lemma kexec_app_exact r fsz w evs : fresh r fsz -> kexec faultless (world0 r fsz) w evs -> seq_bound r evs -> no_setter_killed evs ->
  r_app (w_ring w) = app_now (r_app r) evs.
Proof.
  intros F X. induction X as [|w evs a w' ev X IH Pa S|w evs c e line m X IH Pa Hl D U|w evs e flags pid line m X IH Pa D]; intros HB NS.
  - reflexivity.
  - specialize (IH (seq_bound_app _ _ _ HB) (no_setter_app _ _ NS)).
    destruct (kexec_inv faultless r fsz faultless_contract F _ _ X (seq_bound_app _ _ _ HB)) as (W & HP & _).
    assert (HBr : seq_bound (w_ring w) (evs ++ ev)) by (intros Hf; rewrite (same_dims_farm _ _ (wi_dims _ _ _ W)) in Hf; apply HB; exact Hf).
    destruct (step_app _ _ _ _ _ _ W HP HBr (faultless_contract _ _ Pa) (step_inv _ _ _ _ S)) as [[N E]|(c & e & x & v & out & z & -> & Ep & -> & M)].
    + rewrite app_now_quiet by exact N. rewrite E. exact IH.
    + rewrite app_st_ret, Ep. destruct (sets x) as [s|]; [|rewrite M; exact IH]. destruct M as [[-> ->]|[-> [->|[Hm _]]]]; [reflexivity|exact IH|].
      destruct Pa as [_ Pa]. cbn in Pa. congruence.
  - specialize (IH (seq_bound_app _ _ _ HB) (no_setter_app _ _ NS)).
    destruct (kexec_inv faultless r fsz faultless_contract F _ _ X (seq_bound_app _ _ _ HB)) as (W & HP & _).
    rewrite app_now_quiet by apply pre_kill_app. rewrite <- IH. change (r_app (w_ring (killed w c m))) with (r_app (sh_ring m)).
    pose proof (kill_app _ _ _ _ _ _ _ W HP Hl D) as K. specialize (NS (evs ++ pre_kill w c line) c []). rewrite pre_kill_pending in NS.
    rewrite kill_events_pre, app_assoc in NS. destruct (pending c evs) as [[]|]; try exact K.
    destruct get, set as [s|]; try exact K; elim (NS _ _ _ eq_refl eq_refl).
  - change (w_ring (killed_opening w m)) with (sh_ring m). rewrite (open_ring _ _ _ _ _ _ D). apply IH; assumption.
Qed.

(** ** statistics *)
Lemma in_reset ev : ~ no_reset ev <-> exists x, In x ev /\ is_reset x = true.
Proof.
  unfold no_reset. split.
  - intros N. destruct (existsb is_reset ev) eqn:E; [apply existsb_exists in E; exact E|]. elim N. apply Forall_forall. intros x Hx.
    destruct (is_reset x) eqn:Er; [|reflexivity]. assert (existsb is_reset ev = true) by (apply existsb_exists; eauto). congruence.
  - intros (x & Hx & Er) N. rewrite Forall_forall in N. specialize (N x Hx). congruence.
Qed.
Lemma no_reset_dec ev : no_reset ev \/ ~ no_reset ev.
Proof.
  destruct (existsb is_reset ev) eqn:E; [right; apply in_reset, existsb_exists, E|left]. apply Forall_forall. intros x Hx.
  destruct (is_reset x) eqn:Er; [|reflexivity]. assert (existsb is_reset ev = true) by (apply existsb_exists; eauto). congruence.
Qed.
Lemma mended_app evs ev : no_reset ev -> mended (evs ++ ev) -> mended evs.
Proof.
  intros N H e1 c e2 -> Hp. destruct (H e1 c (e2 ++ ev)) as (x & Hx & Er); [rewrite <- app_assoc; reflexivity|exact Hp|].
  apply in_app_or in Hx. destruct Hx as [Hx|Hx]; [eauto|]. unfold no_reset in N. rewrite Forall_forall in N. rewrite (N x Hx) in Er. discriminate.
Qed.
Lemma cut_app evs ev : no_reset ev -> no_reset_cut (evs ++ ev) -> no_reset_cut evs.
Proof.
  intros N H e1 c t e2 -> Hp. destruct (H e1 c t (e2 ++ ev)) as (x & Hx & Er); [rewrite <- app_assoc; reflexivity|exact Hp|].
  apply in_app_or in Hx. destruct Hx as [Hx|Hx]; [eauto|]. unfold no_reset in N. rewrite Forall_forall in N. rewrite (N x Hx) in Er. discriminate.
Qed.
Lemma pc_pending w evs c e line m : PI w evs -> dies_at (section e (cli w c)) (shared w) line m -> pending c evs <> None.
Proof.
  intros HP D E. specialize (HP c). rewrite E in HP. unfold section in D. destruct (e_lock e); cbn [negb] in D; [|apply dies_ret in D; contradiction].
  destruct (c_pc (cli w c)) as [ |k iov len nb|k iov len nb|buf niov|buf niov| | |reset|get st sz]; cbn [pc_for] in HP;
    try (apply dies_ret in D; contradiction); try discriminate HP; try (destruct HP; discriminate).
  destruct k; try (destruct HP; discriminate). destruct HP as (? & HP & _). discriminate.
Qed.

Lemma kexec_count (P : world -> action -> Prop) r fsz w evs : (forall w a, P w a -> contract w a) -> fresh r fsz -> kexec P (world0 r fsz) w evs -> seq_bound r evs ->
  mended evs -> CT (w_ring w) evs.
Proof.
  intros HPc F X. induction X as [|w evs a w' ev X IH Pa S|w evs c e line m X IH Pa Hl D U|w evs e flags pid line m X IH Pa D]; intros HB NS.
  - apply (counters_hold P r fsz (world0 r fsz) [] HPc F); [constructor|exact HB].
  - destruct (kexec_inv P r fsz HPc F _ _ X (seq_bound_app _ _ _ HB)) as (W & HP & _).
    destruct (kexec_inv P r fsz HPc F _ _ (kx_step _ _ _ _ _ _ _ X Pa S) HB) as (W' & _ & _).
    assert (HBr : seq_bound (w_ring w) evs) by (intros Hf; rewrite (same_dims_farm _ _ (wi_dims _ _ _ W)) in Hf; apply (seq_bound_app _ _ _ HB); exact Hf).
    pose proof (step_effect _ _ _ _ _ _ W HBr (HPc _ _ Pa) S) as EF.
    destruct (no_reset_dec ev) as [N|N]; [|apply (counters_reset _ _ _ _ _ _ W W' EF N)].
    apply (counters_step _ _ _ _ _ _ W W' EF). apply IH; [apply (seq_bound_app _ _ _ HB)|apply (mended_app _ _ N NS)].
  - destruct (kexec_inv P r fsz HPc F _ _ X (seq_bound_app _ _ _ HB)) as (W & HP & _).
    destruct (NS (evs ++ pre_kill w c line) c []) as (x & [] & _).
    + rewrite kill_events_pre, app_assoc. reflexivity.
    + rewrite pre_kill_pending. apply (pc_pending _ _ _ _ _ _ HP D).
  - change (w_ring (killed_opening w m)) with (sh_ring m). rewrite (open_ring _ _ _ _ _ _ D). apply IH; assumption.
Qed.

Lemma zcut_app a b : zlen (cut_writes a) + zlen (cut_writes b) <= zlen (cut_writes (a ++ b)) /\ nbytes (cut_writes a) + nbytes (cut_writes b) <= nbytes (cut_writes (a ++ b)).
Proof.
  induction a as [|e a [IH1 IH2]]; [cbn; unfold nbytes; cbn; lia|]. destruct e as [fl o|c x|c x|c ms|c]; cbn [app cut_writes]; try (split; assumption).
  rewrite !zlen_app, !nbytes_app. destruct a as [|e2 a].
  - cbn [app cut_writes] in *. change (zlen (@nil bytes)) with 0 in *. change (nbytes []) with 0 in *. pose proof (zlen_nonneg ms). pose proof (nbytes_nonneg ms).
    assert (M : forall b' : bool, 0 <= zlen (if b' then ms else []) /\ 0 <= nbytes (if b' then ms else [])) by (intros []; [split; assumption|cbn; unfold nbytes; cbn; lia]).
    assert (K : 0 <= zlen (match b with ECrash c' :: _ => if Nat.eqb c c' then ms else [] | _ => [] end) /\ 0 <= nbytes (match b with ECrash c' :: _ => if Nat.eqb c c' then ms else [] | _ => [] end))
      by (split; [apply zlen_nonneg|apply nbytes_nonneg]).
    lia.
  - cbn [app] in *. destruct e2; lia.
Qed.

Definition WB (r : ring) (evs : list event) : Prop := exists lm lb,
  0 <= lm <= zlen (cut_writes (since_reset evs)) /\ 0 <= lb <= nbytes (cut_writes (since_reset evs))
  /\ st_mw (r_stat r) = u64 (zlen (committed (since_reset evs)) - lm) /\ st_bw (r_stat r) = u64 (nbytes (committed (since_reset evs)) - lb).
Lemma u64_eq a b : u64 a = u64 b -> forall c, u64 (a + c) = u64 (b + c).
Proof. intros H c. rewrite <- (u64_add a c), <- (u64_add b c), H. reflexivity. Qed.
Lemma written_step (G : Prop) w w' evs ev : G -> effect G (w_ring w) (committed evs) ev (w_ring w') -> (no_reset ev -> WB (w_ring w) evs) ->
  WB (w_ring w') (evs ++ ev).
Proof.
    unfold WB. intros Ga EF IH.
    destruct EF as [ev r' E1 E2 E3 E4 E5 E6 | c v so t r' E4 E5 E6 E7 E8 E9
      | c iov rs dr wok r' E1 E2 Eg E3 E4 E5 E6 E7 E8 | c v buf iov avail len niov r' E1 E2 E3 taken E4 E5 E6 E7 E8 E9 ].
    + destruct (IH E3) as (lm & lb & L1 & L2 & C1 & C2). rewrite !(since_reset_app _ _ E3), !committed_app, E1, app_nil_r, E6.
      destruct (zcut_app (since_reset evs) ev) as [Z1 Z2]. pose proof (zlen_nonneg (cut_writes ev)). pose proof (nbytes_nonneg (cut_writes ev)).
      exists lm, lb. repeat split; try lia; assumption.
    + rewrite !since_reset_reset, E9. exists 0, 0. cbn. unfold nbytes; cbn. repeat split; lia.
    + assert (NR : no_reset (ECommit c iov :: rets c rs)) by (constructor; [reflexivity|exact E2]). destruct (IH NR) as (lm & lb & L1 & L2 & C1 & C2).
      rewrite !(since_reset_app _ _ NR), !committed_app, committed_commit, zlen_app, nbytes_app. cbv zeta in E8.
      destruct (zcut_app (since_reset evs) (ECommit c iov :: rets c rs)) as [Z1 Z2].
      pose proof (zlen_nonneg (cut_writes (ECommit c iov :: rets c rs))). pose proof (nbytes_nonneg (cut_writes (ECommit c iov :: rets c rs))).
      exists lm, lb. split; [lia|]. split; [lia|].
      rewrite (Eg Ga) in E8. rewrite E8. cbn [st_mw st_bw set].
      assert (S1 : st_mw (stat_dropped (r_stat (w_ring w)) (nbytes dr) (zlen dr)) = st_mw (r_stat (w_ring w))
                /\ st_bw (stat_dropped (r_stat (w_ring w)) (nbytes dr) (zlen dr)) = st_bw (r_stat (w_ring w))).
      { unfold stat_dropped. destruct (_ =? _); auto. }
      destruct S1 as [-> ->]. rewrite C1, C2, !u64_add. split; f_equal; lia.
    + assert (NR : no_reset [ERet c (RetRead v buf iov)]) by (repeat constructor). destruct (IH NR) as (lm & lb & L1 & L2 & C1 & C2).
      destruct (zcut_app (since_reset evs) [ERet c (RetRead v buf iov)]) as [Z1 Z2]. cbn [cut_writes] in Z1, Z2. unfold nbytes in Z2 at 2. cbn in Z1, Z2.
      rewrite !(since_reset_app _ _ NR), !committed_app. cbn [committed flat_map]. rewrite !app_nil_r, E9. exists lm, lb. repeat split; try lia; assumption.
Qed.
Lemma kill_no_reset w c line : no_reset (kill_events w c line).
Proof. unfold kill_events. destruct (c_pc (cli w c)); repeat constructor; destruct (1004 <=? line); repeat constructor. Qed.
Lemma kill_written w0 w evs c e line m : WI w0 w evs -> PI w evs -> c_live (cli w c) = true -> dies_at (section e (cli w c)) (shared w) line m ->
  no_reset_cut (evs ++ kill_events w c line) -> WB (w_ring w) evs -> WB (sh_ring m) (evs ++ kill_events w c line).
Proof.
  intros W HP Hl D NC (lm & lb & L1 & L2 & C1 & C2). unfold WB. rewrite (since_reset_app _ _ (kill_no_reset _ _ _)), committed_app.
  destruct (zcut_app (since_reset evs) (kill_events w c line)) as [Z1 Z2].
  assert (SAME : committed (kill_events w c line) = [] -> st_mw (r_stat (sh_ring m)) = st_mw (r_stat (w_ring w)) -> st_bw (r_stat (sh_ring m)) = st_bw (r_stat (w_ring w)) ->
    exists lm0 lb0, 0 <= lm0 <= zlen (cut_writes (since_reset evs ++ kill_events w c line)) /\ 0 <= lb0 <= nbytes (cut_writes (since_reset evs ++ kill_events w c line))
    /\ st_mw (r_stat (sh_ring m)) = u64 (zlen (committed (since_reset evs) ++ committed (kill_events w c line)) - lm0)
    /\ st_bw (r_stat (sh_ring m)) = u64 (nbytes (committed (since_reset evs) ++ committed (kill_events w c line)) - lb0)).
  { intros -> -> ->. rewrite app_nil_r. pose proof (zlen_nonneg (cut_writes (kill_events w c line))). pose proof (nbytes_nonneg (cut_writes (kill_events w c line))).
    exists lm, lb. split; [lia|]. split; [lia|]. split; assumption. }
  destruct (c_pc (cli w c)) as [ |k iov len nb|k iov len nb|buf niov|buf niov| | |reset|get st sz] eqn:Hpc.
  2:{ destruct (kill_writer _ _ _ _ _ _ _ W Hl D _ _ _ _ Hpc) as (_ & M1 & M2). unfold kill_events in *. rewrite Hpc in *.
      destruct (Z.leb_spec 1004 line) as [LL|LL]; cbn [app committed flat_map] in *.
      - rewrite ?app_nil_r in *. cbn [cut_writes] in Z1, Z2. rewrite Nat.eqb_refl in Z1, Z2. rewrite ?app_nil_r in Z1, Z2.
        pose proof (zlen_nonneg iov). pose proof (nbytes_nonneg iov). rewrite !zlen_app, !nbytes_app in *. change (zlen (@nil bytes)) with 0 in *. change (nbytes []) with 0 in *. destruct M2 as [M2|[_ M2]].
        + exists (lm + zlen iov), (lb + nbytes iov). split; [lia|]. split; [lia|]. rewrite M1, M2, C1, C2. split; f_equal; lia.
        + exists (lm + zlen iov), lb. split; [lia|]. split; [lia|]. rewrite M1, M2, C1, C2, u64_add. split; f_equal; lia.
      - apply SAME; [reflexivity|exact M1|]. destruct M2 as [M2|[M2 _]]; [exact M2|lia]. }
  7:{ unfold kill_events in *. rewrite Hpc in *. destruct reset as [t|]; [|unfold section in D; rewrite Hpc in D; destruct (e_lock e); apply dies_ret in D; contradiction].
      specialize (HP c). rewrite Hpc in HP. cbn [pc_for] in HP. destruct (NC evs c t [] eq_refl HP) as (x & [] & _). }
  7:{ unfold kill_events in *. rewrite Hpc in *. assert (E : r_stat (sh_ring m) = r_stat (w_ring w)); [|rewrite E in *; apply SAME; reflexivity].
      unfold section in D. rewrite Hpc in D. destruct (e_lock e); cbn [negb] in D; [|apply dies_ret in D; contradiction].
      apply dies_ring in D. destruct D as (s & D1 & ->). cbn [put_ring sh_ring shared] in *. unfold setapp_p in D1.
      apply dies_at_inv in D1. destruct D1 as [[-> ->]|(s1 & p1 & E3 & D1)]; [reflexivity|].
      assert (A : exists bs, s1 = w_ring w /\ (p1 = Ret tt \/ p1 = app_p 0 bs)).
      { destruct (r_app_len (w_ring w) =? 0); [apply ok_pair in E3; destruct E3 as [<- <-]; exists []; auto|].
        destruct get, st as [sb|]; try (apply ok_pair in E3; destruct E3 as [<- <-]; exists []; auto);
        (destruct (negb (sz =? r_app_len (w_ring w))); [apply ok_pair in E3; destruct E3 as [<- <-]; exists []; auto|];
         apply obind_ok in E3; destruct E3 as (a & _ & E3); apply ok_pair in E3; destruct E3 as [<- <-]; exists a; auto). }
      destruct A as (bs & -> & [-> | ->]); [apply dies_ret in D1; contradiction|]. destruct (app_left _ _ _ _ _ D1) as (a & _ & ->). reflexivity. }
  all: assert (ST : stillm (shared w) m) by (apply (kill_still w c e line m D); rewrite Hpc; exact Logic.I);
    destruct ST as (_ & S1 & S2); unfold kill_events in *; rewrite Hpc in *; apply SAME; [reflexivity|exact S1|exact S2].
Qed.
Lemma kexec_written r fsz w evs : fresh r fsz -> kexec reliable (world0 r fsz) w evs -> seq_bound r evs -> no_reset_cut evs -> WB (w_ring w) evs.
Proof.
  intros F X. induction X as [|w evs a w' ev X IH Pa S|w evs c e line m X IH Pa Hl D U|w evs e flags pid line m X IH Pa D]; intros HB NS.
  - destruct F as [(data_sz & flags & appsize & maxarg & l & app & E & -> & _)]. exists 0, 0. cbn. unfold nbytes; cbn. repeat split; lia.
  - destruct (kexec_inv reliable r fsz (fun w a h => proj1 h) F _ _ X (seq_bound_app _ _ _ HB)) as (W & HP & _).
    assert (HBr : seq_bound (w_ring w) evs) by (intros Hf; rewrite (same_dims_farm _ _ (wi_dims _ _ _ W)) in Hf; apply (seq_bound_app _ _ _ HB); exact Hf).
    destruct Pa as [Pc Pg]. apply (written_step _ _ _ _ _ Pg (step_effect _ _ _ _ _ _ W HBr Pc S)). intros N. apply IH; [apply (seq_bound_app _ _ _ HB)|apply (cut_app _ _ N NS)].
  - destruct (kexec_inv reliable r fsz (fun w a h => proj1 h) F _ _ X (seq_bound_app _ _ _ HB)) as (W & HP & _).
    apply (kill_written _ _ _ _ _ _ _ W HP Hl D NS). apply IH; [apply (seq_bound_app _ _ _ HB)|apply (cut_app _ _ (kill_no_reset _ _ _) NS)].
  - change (w_ring (killed_opening w m)) with (sh_ring m). rewrite (open_ring _ _ _ _ _ _ D). apply IH; assumption.
Qed.
Lemma kexec_wcount r fsz w evs : fresh r fsz -> kexec reliable (world0 r fsz) w evs -> seq_bound r evs -> mended evs -> WCT (w_ring w) evs.
Proof.
  intros F X. induction X as [|w evs a w' ev X IH Pa S|w evs c e line m X IH Pa Hl D U|w evs e flags pid line m X IH Pa D]; intros HB NS.
  - destruct F as [(data_sz & flags & appsize & maxarg & l & app & E & -> & _)]. split; reflexivity.
  - destruct (kexec_inv reliable r fsz (fun w a h => proj1 h) F _ _ X (seq_bound_app _ _ _ HB)) as (W & HP & _).
    assert (HBr : seq_bound (w_ring w) evs) by (intros Hf; rewrite (same_dims_farm _ _ (wi_dims _ _ _ W)) in Hf; apply (seq_bound_app _ _ _ HB); exact Hf).
    destruct Pa as [Pc Pg]. apply (wcounters_step _ _ _ _ _ Pg (step_effect _ _ _ _ _ _ W HBr Pc S)). intros N. apply IH; [apply (seq_bound_app _ _ _ HB)|apply (mended_app _ _ N NS)].
  - destruct (kexec_inv reliable r fsz (fun w a h => proj1 h) F _ _ X (seq_bound_app _ _ _ HB)) as (W & HP & _).
    destruct (NS (evs ++ pre_kill w c line) c []) as (x & [] & _).
    + rewrite kill_events_pre, app_assoc. reflexivity.
    + rewrite pre_kill_pending. apply (pc_pending _ _ _ _ _ _ HP D).
  - change (w_ring (killed_opening w m)) with (sh_ring m). rewrite (open_ring _ _ _ _ _ _ D). apply IH; assumption.
Qed.

(** ** the theorems *)
Theorem k_app r w evs : kreach contract r w evs -> app_runs (r_app r) evs (r_app (w_ring w)).
Proof. intros (fsz & F & X & B). apply (kexec_app _ _ _ _ F X B). Qed.
Theorem k_app_exact r w evs : kreach faultless r w evs -> no_setter_killed evs -> r_app (w_ring w) = app_now (r_app r) evs.
Proof. intros (fsz & F & X & B). apply (kexec_app_exact _ _ _ _ F X B). Qed.
Theorem k_count r w evs : kreach contract r w evs -> mended evs ->
  let s := r_stat (w_ring w) in let P := since_reset evs in
  st_mr s = u64 (zlen (delivered P)) /\ st_br s = u64 (nbytes (delivered P))
  /\ (exists D, 0 <= D /\ st_md s = u64 D
       /\ unread_at_reset evs + zlen (committed P) = (if r_farm r then 0 else zlen (delivered P)) + D + zlen (ring_unread (w_ring w)))
  /\ (exists D, 0 <= D /\ st_bd s = u64 D
       /\ bytes_at_reset evs + nbytes (committed P) = (if r_farm r then 0 else nbytes (delivered P)) + D + nbytes (ring_unread (w_ring w))).
Proof.
  intros (fsz & F & X & B) M. destruct (kexec_inv contract r fsz (fun w a h => h) F _ _ X B) as (W & _ & _).
  destruct (kexec_count contract _ _ _ _ (fun w a h => h) F X B M) as [C1 C2 (D & C3 & C3p & C3') (DB & C4 & C4p & C4')].
  rewrite (same_dims_farm _ _ (wi_dims _ _ _ W)) in C3', C4'. cbv zeta. split; [exact C1|]. split; [exact C2|]. split; [exists D; auto|exists DB; auto].
Qed.
Theorem k_wcount r w evs : kreach reliable r w evs -> mended evs ->
  st_mw (r_stat (w_ring w)) = u64 (zlen (committed (since_reset evs))) /\ st_bw (r_stat (w_ring w)) = u64 (nbytes (committed (since_reset evs))).
Proof. intros (fsz & F & X & B). apply (kexec_wcount _ _ _ _ F X B). Qed.
Theorem k_written r w evs : kreach reliable r w evs -> no_reset_cut evs -> exists lm lb,
  0 <= lm <= zlen (cut_writes (since_reset evs)) /\ 0 <= lb <= nbytes (cut_writes (since_reset evs))
  /\ st_mw (r_stat (w_ring w)) = u64 (zlen (committed (since_reset evs)) - lm) /\ st_bw (r_stat (w_ring w)) = u64 (nbytes (committed (since_reset evs)) - lb).
Proof. intros (fsz & F & X & B). apply (kexec_written _ _ _ _ F X B). Qed.
Theorem k_app_call r w evs c e g s z w' ev : kreach contract r w evs -> pending c evs = Some (CApp g s z) ->
  step w (ARun c e) = Ok (w', ev) ->
  let app := r_app (w_ring w) in let app' := r_app (w_ring w') in
  exists v out z', ev = [ERet c (RetApp v out z')] /\ (v = 0 \/ v = -1)
  /\ ring_unread (w_ring w') = ring_unread (w_ring w) /\ ring_retained (w_ring w') = ring_retained (w_ring w)
  /\ match g, s with
     | GAlloc, None | GBuf _, None => app' = app /\ (v = 0 -> out = Some app /\ z' = zlen app)
     | GNull, Some s | GBuf _, Some s =>
         (zlen s <> zlen app -> v = -1 /\ app' = app)
         /\ (v = 0 -> app' = s /\ (g = GNull \/ out = Some app))
         /\ (v = -1 -> e_msync e = true -> app' = app)
     | _, _ => app' = app
     end
  /\ (e_lock e = true -> e_alloc e = true -> e_msync e = true -> app <> [] ->
      match g, s with
      | GBuf b, None => zlen b = zlen app
      | GBuf b, Some s => zlen b = zlen app /\ zlen s = zlen app
      | GNull, Some s => zlen s = zlen app
      | _, _ => True
      end -> v = 0).
Proof.
  intros (fsz & F & X & B) Pd HS app app'. destruct (kexec_inv contract r fsz (fun w a h => h) F _ _ X B) as (W & HP & _).
  destruct (app_call _ _ _ _ _ _ _ _ _ _ W HP Pd HS) as (v & out & z' & A1 & A2 & A3 & A4 & A5 & A6).
  exists v, out, z'. split; [exact A1|]. split; [exact A2|].
  split; [rewrite A4; apply unread_ext; reflexivity|]. split; [rewrite A4; apply retained_ext; reflexivity|]. split; [exact A5|exact A6].
Qed.
Theorem k_stat r w evs c e o w' ev : kreach contract r w evs -> pending c evs = Some (CStat o) ->
  step w (ARun c e) = Ok (w', ev) -> e_lock e = true ->
  exists v so, ev = [ERet c (RetStat (match o with Some _ => true | None => false end) v (Some so))]
    /\ (e_msync e = true -> v = 0)
    /\ so_mu so = zlen (ring_unread (w_ring w)) /\ so_bu so = nbytes (ring_unread (w_ring w))
    /\ so_mu so <= so_mm so /\ so_bu so <= so_bn so /\ so_mm so = r_mm r /\ so_bn so = r_n r
    /\ so_stat so = r_stat (w_ring w)
    /\ r_stat (w_ring w') = match o with Some t => mkstat t 0 0 0 0 0 0 | None => r_stat (w_ring w) end
    /\ ring_unread (w_ring w') = ring_unread (w_ring w) /\ ring_retained (w_ring w') = ring_retained (w_ring w)
    /\ r_app (w_ring w') = r_app (w_ring w).
Proof.
  intros (fsz & F & X & B) Pd HS He. destruct (kexec_inv contract r fsz (fun w a h => h) F _ _ X B) as (W & HP & _).
  destruct (wi_dims _ _ _ W) as (_ & En & Em & _). cbn [w_ring world0] in En, Em.
  destruct (stat_call _ _ _ _ _ _ _ _ W HP Pd HS) as (S1 & S2 & S3 & S4 & S5 & S6 & [(S7 & _)|(_ & v & so & K)]); [congruence|].
  destruct K as (K1 & K2 & K3 & K4 & K5 & K6 & K7 & K8 & K9 & K10 & K11 & K12).
  exists v, so. rewrite En in K6. rewrite Em in K5. repeat (split; [first [assumption|destruct o; exact K12]|]). exact S4.
Qed.
Theorem k_valid r w evs : kreach contract r w evs -> validate_ring (w_fsz w) true (w_ring w) = 0.
Proof.
  intros (fsz & F & X & B). destruct (kexec_inv contract r fsz (fun w a h => h) F _ _ X B) as (W & _ & _). apply (WI_validate r fsz w evs F W).
Qed.
