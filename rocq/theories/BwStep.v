(** * What one step of the world does to registrations and queued wake-ups. *)
From Verif Require Export BwWorld.

Lemma do_open_split e w flags pid w' o : do_open e w flags pid = Ok (w', o) ->
  (w' = w /\ o = None) \/ (e_lock e = true /\ validate_flags flags = true /\ exists hs, open_blockwake e w flags pid = Ok (w', hs)
     /\ (forall cl, o = Some cl -> exists a b ca, hs = Some (a, b) /\ init_cache e (w_ring w) flags = Some ca
          /\ cl = mkcl true pid flags (r_q (w_ring w)) 0 a b ca (r_n (w_ring w)) (r_mm (w_ring w)) Idle)).
Proof.
  unfold do_open. intros H. destruct (validate_flags flags); cbn [negb] in H; [|injection H as <- <-; auto].
  destruct (e_lock e); cbn [negb] in H; [|injection H as <- <-; auto].
  destruct (validate_ring _ _ _ <? 0); [injection H as <- <-; auto|].
  destruct (has _ SHR_MLOCK && _); [injection H as <- <-; auto|].
  apply obind_ok in H. destruct H as ([w1 hs] & E & H). right. split; [reflexivity|]. split; [reflexivity|]. exists hs.
  destruct hs as [[a b]|]; [|injection H as <- <-; split; [exact E|discriminate]].
  destruct (init_cache e (w_ring w) flags) as [ca|]; [|injection H as <- <-; split; [exact E|discriminate]].
  destruct (shr_sync e (w_ring w)); injection H as <- <-; (split; [exact E|]); [|discriminate].
  intros cl Ec. injection Ec as <-. exists a, b, ca. auto.
Qed.

Definition calmret (x : ret) : Prop := match x with RetRead v _ _ => v <= 0 | _ => True end.
Definition calmev (x : event) : Prop := match x with ECommit _ _ => False | ERet _ x => calmret x | _ => True end.
Lemma calm_rets c rs : Forall calmret rs -> Forall calmev (rets c rs).
Proof. induction 1; constructor; assumption. Qed.
Lemma go_write_calm cl iov len cl' rs : go_write cl iov len = Ok (cl', rs) -> Forall calmret rs.
Proof.
  unfold go_write. destruct (has (c_flags cl) SHR_BUFFERED); [|intros H; inj H; constructor].
  destruct (_ && _).
  - intros H. apply obind_ok in H. destruct H as (ca & _ & H). inj H. repeat constructor.
  - destruct (ca_n (c_cache cl) =? 0); [intros H; inj H; constructor|].
    intros H. apply obind_ok in H. destruct H as (ms & _ & H). destruct (wr_check _ _ _); inj H; repeat constructor.
Qed.
Lemma end_write_calm cl k iov v cl' rs : end_write cl k iov v = Ok (cl', rs) -> Forall calmret rs.
Proof.
  destruct k; cbn [end_write]; intros H; try (inj H; repeat constructor; fail).
  destruct (v <=? 0); [inj H; repeat constructor|]. apply go_write_calm in H. exact H.
Qed.
Lemma flush_write_calm cl k nb cl' rs : flush_write cl k nb = Ok (cl', rs) -> Forall calmret rs.
Proof.
  unfold flush_write. intros H. apply obind_ok in H. destruct H as (ms & _ & H).
  destruct (wr_check _ _ _); [inj H; constructor|]. destruct k; inj H; repeat constructor.
Qed.
Lemma start_call_calm cl x cl' rs : start_call cl x = Ok (cl', rs) -> Forall calmret rs.
Proof.
  destruct x as [buf niov|iov|wait| |reset|reset|get st sz|fd| ]; cbn [start_call]; intros H.
  - destruct (has _ _); [|discriminate]. destruct (_ || _); inj H; repeat constructor. cbn. lia.
  - unfold start_write in H. destruct (has _ _); [|discriminate].
    destruct (wr_check _ _ _); [apply go_write_calm in H; exact H|inj H; repeat constructor].
  - unfold start_flush in H. destruct (has _ _); [|discriminate].
    destruct (_ =? _); [inj H; repeat constructor|].
    destruct (_ && _); [destruct (c_r2w cl)|]; try (apply flush_write_calm in H; exact H). inj H; repeat constructor.
  - unfold start_close in H. destruct (_ =? _); [inj H; repeat constructor|].
    destruct (has _ _); [|discriminate]. apply flush_write_calm in H; exact H.
  - inj H; repeat constructor.
  - unfold do_farm_stat in H. destruct (has _ _); [|discriminate]. cbn [obind] in H. inj H. repeat constructor.
  - inj H; repeat constructor.
  - apply obind_ok in H. destruct H as ([cl1 v] & E & H). injection H as <- <-. repeat constructor.
  - inj H; repeat constructor.
Qed.
Lemma do_stat_calm e r cl reset r' x : do_stat e r cl reset = (r', x) -> calmret x.
Proof. unfold do_stat. destruct (negb _); intros H; injection H as <- <-; exact Logic.I. Qed.
Lemma do_app_calm e r get st sz r' x : do_app e r get st sz = Ok (r', x) -> calmret x.
Proof.
  unfold do_app. intros H. destruct (negb (e_lock e)); [injection H as <- <-; exact Logic.I|].
  destruct (r_app_len r =? 0); [injection H as <- <-; exact Logic.I|].
  destruct get as [| |b], st as [s|].
  all: repeat match goal with
    | H : (if ?b then _ else _) = Ok _ |- _ => destruct b
    | H : obind _ _ = Ok _ |- _ => apply obind_ok in H; destruct H as (? & _ & H)
    | H : Ok (_, _) = Ok (_, _) |- _ => injection H as <- <-; exact Logic.I
    end.
Qed.

(** what a step does *)
Record WS (w w' : world) (a : action) (ev : list event) : Prop := mkWS {
  ws_bi : BI w';
  ws_other : forall b c n s, wt b w c n s -> actor a <> Some c -> wt b w' c n s /\ k_pend (sk (w_ks w) s) <= k_pend (sk (w_ks w') s);
  ws_commit : (exists c ms, In (ECommit c ms) ev) -> forall c n s, wt true w' c n s -> 0 < k_pend (sk (w_ks w') s);
  ws_read : (exists c v buf iov, In (ERet c (RetRead v buf iov)) ev /\ 0 < v) -> forall c n s, wt false w' c n s -> 0 < k_pend (sk (w_ks w') s);
  ws_self : forall b c n s n' s', actor a = Some c -> wt b w c n s -> wt b w' c n' s' -> n = n' /\ s = s'
     /\ (k_pend (sk (w_ks w) s) <= k_pend (sk (w_ks w') s) \/ a = AWake c \/ (b = true /\ exists buf niov, c_pc (cli w c) = RunR buf niov)) }.

Lemma calm_no ev : Forall calmev ev -> (exists c ms, In (ECommit c ms) ev) \/ (exists c v buf iov, In (ERet c (RetRead v buf iov)) ev /\ 0 < v) -> False.
Proof.
  intros F. rewrite Forall_forall in F. intros [(c & ms & H)|(c & v & buf & iov & H & Hv)]; apply F in H; cbn in H; [exact H|lia].
Qed.
Lemma wt_same b w w' c n s : cli w' c = cli w c -> wt b w c n s -> wt b w' c n s.
Proof. unfold wt. intros ->. auto. Qed.
Lemma wt_hnd b w w' c n s : c_live (cli w' c) = true -> bw_same (hnd b (cli w c)) (hnd b (cli w' c)) -> wt b w c n s -> wt b w' c n s.
Proof.
  intros L S [_ [p H]]. split; [exact L|]. rewrite H in S. destruct (hnd b (cli w' c)) as [[|n1 s1 p1]|]; cbn in S; try discriminate.
  destruct S as [<- <-]. eauto.
Qed.
Lemma wt_fun b w c n s n' s' : wt b w c n s -> wt b w c n' s' -> n = n' /\ s = s'.
Proof. intros [_ [p H]] [_ [p' H']]. rewrite H in H'. injection H' as <- <- _. auto. Qed.

Lemma WS_quiet w w' a ev c : BI w -> actor a = Some c -> (forall c', c' <> c -> cli w' c' = cli w c') -> sim (w_ks w) (w_ks w') ->
  w_w2r w' = w_w2r w -> w_r2w w' = w_r2w w ->
  (c_live (cli w' c) = true -> c_live (cli w c) = true /\ bw_same (c_w2r (cli w c)) (c_w2r (cli w' c)) /\ bw_same (c_r2w (cli w c)) (c_r2w (cli w' c))) ->
  Forall calmev ev ->
  (forall s, k_pend (sk (w_ks w) s) <= k_pend (sk (w_ks w') s) \/
     (a = AWake c /\ exists b n, wt b w c n s) \/ ((exists n, wt true w c n s) /\ exists buf niov, c_pc (cli w c) = RunR buf niov)) ->
  WS w w' a ev.
Proof.
  intros B HA HC HS H1 H2 HL HE HP.
  constructor.
  - apply (BI_quiet w w' c); assumption.
  - intros b c' n s H N. assert (NC : c' <> c) by congruence. split; [apply (wt_same b w); [apply HC; exact NC|exact H]|].
    destruct (HP s) as [P|[[_ (b1 & n1 & P)]|[(n1 & P) _]]]; [exact P| |]; destruct (bi_own _ B _ _ _ _ _ _ _ H P); congruence.
  - intros X. elim (calm_no _ HE (or_introl X)).
  - intros X. elim (calm_no _ HE (or_intror X)).
  - intros b c' n s n' s' A Hw Hw'. assert (c' = c) as -> by congruence.
    destruct Hw' as [L E]. destruct (HL L) as (L0 & S1 & S2).
    assert (HH : bw_same (hnd b (cli w c)) (hnd b (cli w' c))) by (destruct b; assumption).
    destruct (wt_fun _ _ _ _ _ _ _ (wt_hnd _ _ _ _ _ _ L HH Hw) (conj L E)) as [<- <-].
    split; [reflexivity|]. split; [reflexivity|].
    destruct (HP s) as [P|[[P _]|[(n1 & P) Q]]]; [left; exact P|right; left; exact P|right; right]. split; [|exact Q].
    destruct (bi_own _ B _ _ _ _ _ _ _ Hw P); assumption.
Qed.
Lemma up_le ks ks' : up ks ks' -> forall s, k_pend (sk ks s) <= k_pend (sk ks' s).
Proof. intros U. apply U. Qed.
Lemma slots_others b w c n : BI w -> others b w c n -> slots b w n.
Proof. intros _. apply others_slots. Qed.

Lemma WS_loud w w' a ev c : BI w -> BI w' -> (forall c', c' <> c -> cli w' c' = cli w c') ->
  (actor a = Some c \/ (actor a = None /\ (length (w_cl w) <= c)%nat)) ->
  (forall s, (s < length (w_ks w))%nat -> k_pend (sk (w_ks w) s) <= k_pend (sk (w_ks w') s) \/
     ((exists n, wt true w c n s) /\ exists buf niov, c_pc (cli w c) = RunR buf niov)) ->
  (forall b n s n' s', wt b w c n s -> wt b w' c n' s' -> n = n' /\ s = s') ->
  ((exists c ms, In (ECommit c ms) ev) -> forall c n s, wt true w' c n s -> 0 < k_pend (sk (w_ks w') s)) ->
  ((exists c v buf iov, In (ERet c (RetRead v buf iov)) ev /\ 0 < v) -> forall c n s, wt false w' c n s -> 0 < k_pend (sk (w_ks w') s)) ->
  WS w w' a ev.
Proof.
  intros B B' HC HA HP HW H1 H2. constructor; [exact B'| |exact H1|exact H2|].
  - intros b c' n s H N. assert (NC : c' <> c).
    { intros ->. destruct HA as [HA|[_ HA]]; [congruence|]. destruct H as [L _]. apply live_bound in L. lia. }
    split; [apply (wt_same b w); [apply HC; exact NC|exact H]|].
    destruct (bi_wt _ B _ _ _ _ H) as (_ & O & _). apply sk_open_lt in O.
    destruct (HP s O) as [P|[(n1 & P) _]]; [exact P|]. destruct (bi_own _ B _ _ _ _ _ _ _ H P); congruence.
  - intros b c' n s n' s' A Hw Hw'. assert (c' = c) as -> by (destruct HA as [HA|[HA _]]; congruence).
    destruct (HW _ _ _ _ _ Hw Hw') as [<- <-]. split; [reflexivity|]. split; [reflexivity|].
    destruct (bi_wt _ B _ _ _ _ Hw) as (_ & O & _). apply sk_open_lt in O.
    destruct (HP s O) as [P|[(n1 & P) Q]]; [left; exact P|right; right]. split; [|exact Q]. destruct (bi_own _ B _ _ _ _ _ _ _ Hw P); assumption.
Qed.

Lemma wt_none b w c n s : hnd b (cli w c) = None -> wt b w c n s -> False.
Proof. intros E [_ [p H]]. congruence. Qed.
Lemma wt_wake b w c n s : is_wake (hnd b (cli w c)) -> wt b w c n s -> False.
Proof. intros (q & cs & E) [_ [p H]]. congruence. Qed.
Lemma drop_sock_fields ks h : length (drop_sock ks h) = length ks /\ (forall s, k_name (sk (drop_sock ks h) s) = k_name (sk ks s)
   /\ k_pid (sk (drop_sock ks h) s) = k_pid (sk ks s) /\ k_pend (sk (drop_sock ks h) s) = k_pend (sk ks s) /\ k_cap (sk (drop_sock ks h) s) = k_cap (sk ks s)
   /\ ((forall n p, h <> Some (Wait n s p)) -> k_open (sk (drop_sock ks h) s) = k_open (sk ks s))).
Proof.
  destruct h as [[|n s p]|]; cbn [drop_sock]; try (split; [reflexivity|]; intros; repeat split; fail).
  split; [apply sk_upd_len|]. intros s'. destruct (Nat.eq_dec s' s) as [->|N].
  - destruct (Nat.lt_ge_cases s (length ks)) as [L|L].
    + rewrite sk_upd_same by exact L. cbn. repeat split. intros H. elim (H n p). reflexivity.
    + unfold sk_upd. rewrite set_nat_out by exact L. repeat split.
  - rewrite sk_upd_other by exact N. repeat split.
Qed.
Lemma fields_KI ks ks' : length ks' = length ks -> (forall s, k_name (sk ks' s) = k_name (sk ks s) /\ k_pend (sk ks' s) = k_pend (sk ks s) /\ k_cap (sk ks' s) = k_cap (sk ks s)) -> KI ks -> KI ks'.
Proof.
  intros L H [A B C]. constructor.
  - intros s s'. rewrite L. destruct (H s) as (-> & _), (H s') as (-> & _). apply A.
  - intros s. destruct (H s) as (_ & _ & ->). apply B.
  - intros s. destruct (H s) as (_ & -> & _). apply C.
Qed.

(** closing the two handles of client [c] *)
Lemma close_spec w c : BI w -> c_live (cli w c) = true ->
  let w1 := close_handles w (cli w c) in
  length (w_ks w1) = length (w_ks w) /\ KI (w_ks w1)
  /\ (forall s, k_name (sk (w_ks w1) s) = k_name (sk (w_ks w) s) /\ k_pid (sk (w_ks w1) s) = k_pid (sk (w_ks w) s) /\ k_pend (sk (w_ks w1) s) = k_pend (sk (w_ks w) s))
  /\ (forall b c' n s, c' <> c -> wt b w c' n s -> k_open (sk (w_ks w1) s) = true)
  /\ (forall b, hch (others b w c) (whd b w) (whd b w1)).
Proof.
  intros B Hl w1. subst w1. unfold close_handles.
  set (x1 := match c_w2r (cli w c) with Some b => bw_close (w_ks w) (w_w2r w) b | None => (w_ks w, w_w2r w) end).
  assert (S1 : length (fst x1) = length (w_ks w) /\ KI (fst x1)
    /\ (forall s, k_name (sk (fst x1) s) = k_name (sk (w_ks w) s) /\ k_pid (sk (fst x1) s) = k_pid (sk (w_ks w) s) /\ k_pend (sk (fst x1) s) = k_pend (sk (w_ks w) s))
    /\ (forall b c' n s, c' <> c -> wt b w c' n s -> sk (fst x1) s = sk (w_ks w) s) /\ hch (others true w c) (w_w2r w) (snd x1)).
  { subst x1. destruct (c_w2r (cli w c)) as [[q cs|n s p]|] eqn:E; cbn [bw_close fst snd]; try (split; [reflexivity|]; split; [apply B|]; split; [auto|]; split; [auto|apply hch_refl]).
    pose proof (close_old (w_ks w) (w_w2r w) n s p _ _ eq_refl) as (D1 & D2 & D3 & D4 & D5 & D6).
    assert (ME : wt true w c n s) by (split; [exact Hl|exists p; exact E]).
    split; [exact D1|]. split; [apply D3, B|]. split; [exact D6|]. split.
    - intros b c' n' s' N H. apply D2. intros ->. destruct (bi_own _ B _ _ _ _ _ _ _ H ME). congruence.
    - apply D4. intros (c' & s' & N & H). destruct (slot_owner _ _ _ _ _ _ _ B ME H). congruence. }
  destruct x1 as [ks1 h1]. cbn [fst snd] in S1. destruct S1 as (A1 & A2 & A3 & A4 & A5). cbn [w_ks w_r2w w_w2r set].
  set (x2 := match c_r2w (cli w c) with Some b => bw_close ks1 (w_r2w w) b | None => (ks1, w_r2w w) end).
  assert (S2 : length (fst x2) = length (w_ks w) /\ KI (fst x2)
    /\ (forall s, k_name (sk (fst x2) s) = k_name (sk (w_ks w) s) /\ k_pid (sk (fst x2) s) = k_pid (sk (w_ks w) s) /\ k_pend (sk (fst x2) s) = k_pend (sk (w_ks w) s))
    /\ (forall b c' n s, c' <> c -> wt b w c' n s -> sk (fst x2) s = sk (w_ks w) s) /\ hch (others false w c) (w_r2w w) (snd x2)).
  { subst x2. destruct (c_r2w (cli w c)) as [[q cs|n s p]|] eqn:E; cbn [bw_close fst snd]; try (split; [exact A1|]; split; [exact A2|]; split; [exact A3|]; split; [exact A4|apply hch_refl]).
    pose proof (close_old ks1 (w_r2w w) n s p _ _ eq_refl) as (D1 & D2 & D3 & D4 & D5 & D6).
    assert (ME : wt false w c n s) by (split; [exact Hl|exists p; exact E]).
    split; [rewrite <- A1; exact D1|]. split; [apply D3, A2|].
    split; [intros s'; destruct (A3 s') as (<- & <- & <-); apply D6|]. split.
    - intros b c' n' s' N H. rewrite D2; [apply (A4 _ _ _ _ N H)|]. intros ->. destruct (bi_own _ B _ _ _ _ _ _ _ H ME). congruence.
    - apply D4. intros (c' & s' & N & H). destruct (slot_owner _ _ _ _ _ _ _ B ME H). congruence. }
  destruct x2 as [ks2 h2]. cbn [fst snd] in S2. destruct S2 as (B1 & B2 & B3 & B4 & B5). cbn [w_ks w_r2w w_w2r set].
  split; [exact B1|]. split; [exact B2|]. split; [exact B3|]. split; [|intros []; assumption].
  intros b c' n s N H. rewrite (B4 _ _ _ _ N H). apply (bi_wt _ B _ _ _ _ H).
Qed.

Definition PIDS (w : world) : Prop := forall c, c_live (cli w c) = true -> 0 < c_pid (cli w c).

Lemma step_WS w0 w evs a w' ev : WI w0 w evs -> PIDS w -> BI w -> steady w a -> step w a = Ok (w', ev) -> WS w w' a ev.
Proof.
  intros W HPID B [[HC HG] HN] HS. pose proof (wi_ring _ _ _ W) as I.
  assert (SQ : forall w1 c1 cl1, w_cl w1 = w_cl w -> forall c', c' <> c1 -> cli (setc w1 c1 cl1) c' = cli w c').
  { intros w1 c1 cl1 E c' N. rewrite cli_setc_other by exact N. unfold cli. rewrite E. reflexivity. }
  apply step_inv in HS.
  destruct HS as
   [ a
   | e flags pid w' E
   | e flags pid w' cl E
   | c1 x cl' rs Hl Hpc E
   | c1 e k iov len nb v cl' rs Hl Hpc Hv E
   | c1 e k iov len n s p Hl Hpc He E Er
   | c1 e k iov len nb r1 hw ks bh hw' wok r2 rv cl' rs Hl Hpc He E Ew Eb E2 Ev Ee
   | c1 e buf niov Hl Hpc He
   | c1 e buf niov q md h ks ok Hl Hpc He Hnb E Eh Ef
   | c1 e buf niov q md n s p Hl Hpc He Hnb E Eh
   | c1 e buf niov q md x cur' hr r2w' ks1 bh1 ks2 ok h Hl Hpc He E Eh Er Hn0 Hn1 Ef
   | c1 e w' Hl Hpc Hw'
   | c1 e ks h b cl' rs Hl Hpc He E Ee
   | c1 e Hl Hpc
   | c1 e reset r x Hl Hpc E
   | c1 e get st sz r x Hl Hpc E
   | c1 sid polls Hs Hp
   | a c1 sc k iov len nb cl' rs Ha Hpc E
   | a c1 sc buf niov Ha Hpc
   | c1 Hl ].
  all: try (pose proof (live_bound _ _ Hl) as LB; destruct (wi_cl _ _ _ W c1 Hl) as [ms C]; pose proof (ci_pc _ _ _ _ C) as P; unfold pc_ok in P; rewrite ?Hpc in P).
  all: try (assert (LB : (c1 < length (w_cl w))%nat) by (apply pc_bound; rewrite Hpc; discriminate)).
  - constructor; [exact B| | | |].
    + intros b c n s H _. split; [exact H|lia].
    + intros (c & ms & []).
    + intros (c & v & buf & iov & [] & _).
    + intros b c n s n' s' _ H H'. destruct (wt_fun _ _ _ _ _ _ _ H H') as [<- <-]. split; [reflexivity|]. split; [reflexivity|left; lia].
  - (* open fails *)
    pose proof HC as (_ & HP0 & Hex). cbn [good_env new_names] in HG, HN. assert (Hp0 : pid <> 0) by lia.
    destruct (do_open_split _ _ _ _ _ _ E) as [[-> _]|(El & Hv & hs & Eo & _)].
    { apply (WS_loud w w _ _ (length (w_cl w))); auto; try lia.
      - intros b n s n' s' H H'. apply (wt_fun _ _ _ _ _ _ _ H H').
      - intros (c & ms & [H|[]]). discriminate.
      - intros (c & v & buf & iov & [H|[]] & _). discriminate. }
    destruct (open_bw _ _ _ _ _ _ B HG HN Hp0 (roles_excl _ Hv Hex) Eo) as [O1 O2 O3 O4 O5 O6 O7 O8 O9 O10].
    assert (CL : forall c, cli w' c = cli w c) by (intros c; unfold cli; rewrite O1; reflexivity).
    assert (DEAD : c_live (cli w' (length (w_cl w))) = false).
    { rewrite CL. destruct (c_live (cli w (length (w_cl w)))) eqn:Q; [apply live_bound in Q; lia|reflexivity]. }
    apply (WS_loud w w' _ _ (length (w_cl w))); auto.
    + apply (BI_upd w w' (length (w_cl w))); auto; try (intros; congruence).
      * intros s L. rewrite O5 by exact L. auto.
      * intros b c' n s _ H. destruct (bi_wt _ B _ _ _ _ H) as (_ & O & _). rewrite O5 by (apply sk_open_lt; exact O). exact O.
      * intros b. apply (hch_mono (slots b w)); [intros n Hn; apply (others_slots _ _ _ _ Hn)|apply O6].
    + intros s L. left. rewrite O5 by exact L. lia.
    + intros b n s n' s' [L _]. apply live_bound in L. lia.
    + intros (c & ms & [H|[]]). discriminate.
    + intros (c & v & buf & iov & [H|[]] & _). discriminate.
  - (* open *)
    pose proof HC as (_ & HP0 & Hex). cbn [good_env new_names] in HG, HN. assert (Hp0 : pid <> 0) by lia.
    destruct (do_open_split _ _ _ _ _ _ E) as [[_ Q]|(El & Hv & hs & Eo & Hcl)]; [discriminate Q|].
    destruct (Hcl _ eq_refl) as (ha & hb & ca & Eh & _ & Ecl).
    destruct (open_bw _ _ _ _ _ _ B HG HN Hp0 (roles_excl _ Hv Hex) Eo) as [O1 O2 O3 O4 O5 O6 O7 O8 O9 O10].
    set (c0 := length (w_cl w)).
    assert (CL : forall c, c <> c0 -> cli (w' <| w_cl := w_cl w' ++ [cl] |>) c = cli w c).
    { intros c N. unfold cli. cbn [w_cl set]. rewrite O1. destruct (Nat.lt_ge_cases c c0) as [L|L]; [apply app_nth1; exact L|].
      rewrite !nth_overflow; [reflexivity|unfold c0 in L; lia|rewrite app_length; cbn; unfold c0 in *; lia]. }
    assert (ME : cli (w' <| w_cl := w_cl w' ++ [cl] |>) c0 = cl).
    { unfold cli. cbn [w_cl set]. rewrite O1. unfold c0. rewrite app_nth2, Nat.sub_diag by lia. reflexivity. }
    assert (HD : forall b : bool, hnd b cl = if b then ha else hb) by (intros b; rewrite Ecl; destruct b; reflexivity).
    assert (WHD : forall b, whd b (w' <| w_cl := w_cl w' ++ [cl] |>) = whd b w') by (intros []; reflexivity).
    assert (WTO : forall b n s, hnd b cl = Some (Wait n s []) \/ (exists p, hnd b cl = Some (Wait n s p)) -> waits_at (w_ks w') (whd b w') n s /\ (length (w_ks w) <= s)%nat).
    { intros b n s Hx. assert (Hy : exists p, hnd b cl = Some (Wait n s p)) by (destruct Hx as [Hx|Hx]; [exists []; exact Hx|exact Hx]).
      destruct Hy as [p Hy]. rewrite HD in Hy. apply (O7 _ Eh b n s p). cbn [fst snd]. exact Hy. }
    apply (WS_loud w _ _ _ c0); auto.
    + apply (BI_upd w _ c0); auto.
      * intros s L. cbn [w_ks set]. rewrite O5 by exact L. auto.
      * intros b c' n s _ H. cbn [w_ks set]. destruct (bi_wt _ B _ _ _ _ H) as (_ & O & _). rewrite O5 by (apply sk_open_lt; exact O). exact O.
      * intros b. rewrite WHD. apply (hch_mono (slots b w)); [intros n Hn; apply (others_slots _ _ _ _ Hn)|apply O6].
      * intros b n s p _. rewrite ME, WHD. cbn [w_ks set]. intros Hx. destruct (WTO b n s (or_intror (ex_intro _ p Hx))) as [A1 A2]. auto.
      * intros b q cs _. rewrite ME, WHD. cbn [w_ks set]. intros Hx. rewrite HD in Hx. apply (O8 _ Eh b q cs). exact Hx.
      * intros n n' s p p' _. rewrite ME. intros H1 H2.
        pose proof (roles_excl _ Hv Hex) as RX. destruct (has flags SHR_WRONLY) eqn:Hw.
        -- destruct (O10 _ Eh eq_refl) as (q & cs & Q). cbn [fst] in Q. rewrite Ecl in H1. cbn [c_w2r] in H1. congruence.
        -- assert (HR : has flags SHR_RDONLY = true) by exact RX.
           destruct (O9 _ Eh HR) as (n1 & s1 & _ & _ & (q & cs & Q)). cbn [snd] in Q. rewrite Ecl in H2. cbn [c_r2w] in H2. congruence.
    + intros s L. cbn [w_ks set]. left. rewrite O5 by exact L. lia.
    + intros b n s n' s' [L _]. apply live_bound in L. unfold c0 in L. lia.
    + intros (c & ms & [H|[]]). discriminate.
    + intros (c & v & buf & iov & [H|[]] & _). discriminate.
  - (* call *) destruct (start_call_id _ _ _ _ E) as [ID _].
    apply (WS_quiet _ _ _ _ c1); [exact B|reflexivity|apply SQ; reflexivity|apply sim_refl, B|reflexivity|reflexivity| | |intros s; left; cbn [w_ks setc set]; lia].
    + rewrite cli_setc_same by exact LB. intros L. rewrite (id_live _ _ ID) in L. destruct ID. auto.
    + constructor; [exact Logic.I|]. apply calm_rets, (start_call_calm _ _ _ _ E).
  - destruct (end_write_id _ _ _ _ _ _ E) as [ID _].
    apply (WS_quiet _ _ _ _ c1); [exact B|reflexivity|apply SQ; reflexivity|apply sim_refl, B|reflexivity|reflexivity| | |intros s; left; cbn [w_ks setc set]; lia].
    + rewrite cli_setc_same by exact LB. intros L. destruct ID. auto.
    + apply calm_rets, (end_write_calm _ _ _ _ _ _ E).
  - apply (WS_quiet _ _ _ _ c1); [exact B|reflexivity|apply SQ; reflexivity|apply sim_refl, B|reflexivity|reflexivity| |constructor|intros s0; left; cbn [w_ks setc set]; lia].
    rewrite cli_setc_same by exact LB. cbn [c_live c_w2r c_r2w set]. intros L. split; [exact L|]. split; apply bw_same_refl.
  - (* commit *)
    destruct P as (Hw & Hi & Hlen & _). destruct (ci_wr _ _ _ _ C Hw) as ((qw & csw & Eqw) & _). rewrite Ew in Eqw. injection Eqw as ->.
    assert (G : genv (w_ks w) (w_w2r w) (slots true w) e) by (rewrite <- (app_nil_r (w_ks w)); apply (BI_genv w true); assumption).
    assert (WK : waker_ok (w_ks w) (w_w2r w) qw csw) by (apply (bi_wk _ B true c1); split; assumption).
    destruct (bw_wake_spec _ _ _ _ _ _ _ _ _ _ G (bi_k _ B) WK Eb) as (-> & U & HH & (q' & cs' & -> & WK') & HWAKE).
    destruct (end_write_id _ _ _ _ _ _ Ee) as [ID _].
    set (w1 := w <| w_ks := ks |> <| w_w2r := bh |> <| w_ring := r2 |>).
    assert (ME : cli (setc w1 c1 cl') c1 = cl') by (apply cli_setc_same; exact LB).
    assert (HT : c_w2r cl' = Some (Wake q' cs')) by (pose proof (id_w2r _ _ ID) as Q; cbn [c_w2r set] in Q; destruct (c_w2r cl') as [[|]|]; cbn in Q; congruence).
    assert (HF : bw_same (c_r2w (cli w c1)) (c_r2w cl')) by (apply (id_r2w _ _ ID)).
    assert (HWF : forall n s, wt false (setc w1 c1 cl') c1 n s -> wt false w c1 n s).
    { intros n s [_ [p Q]]. rewrite ME in Q. cbn [hnd] in Q. split; [exact Hl|]. cbn [hnd]. apply (bw_same_wait _ n s p). rewrite <- Q. exact HF. }
    assert (HWT : forall c n s, wt true (setc w1 c1 cl') c n s -> wt true w c n s /\ c <> c1).
    { intros c n s H. destruct (Nat.eq_dec c c1) as [->|N].
      - destruct H as [_ [p Q]]. rewrite ME in Q. cbn [hnd] in Q. congruence.
      - split; [|exact N]. destruct H as [L Q]. rewrite (SQ w1 c1 cl' eq_refl c N) in L, Q. split; assumption. }
    apply (WS_loud w _ _ _ c1); [exact B| |apply SQ; reflexivity|left; reflexivity| | | |].
    + apply (BI_upd w _ c1); [exact B|apply SQ; reflexivity|apply (up_KI _ _ U), B|cbn [w_ks setc set w1]; rewrite (up_len _ _ U); lia| | | | | |].
      * intros s L. cbn [w_ks setc set w1]. rewrite (up_name _ _ U), (up_pid _ _ U). auto.
      * intros b c' n s N H. cbn [w_ks setc set w1]. rewrite (up_open _ _ U). apply (bi_wt _ B _ _ _ _ H).
      * intros []; cbn [whd w_w2r w_r2w setc set w1]; [|apply hch_refl]. apply (hch_mono (slots true w)); [intros n Hn; apply (others_slots _ _ _ _ Hn)|exact HH].
      * intros b n s p L Q. assert (HO : wt b (setc w1 c1 cl') c1 n s) by (split; [exact L|exists p; exact Q]).
        destruct b; [destruct (HWT _ _ _ HO) as [_ X]; congruence|]. apply HWF in HO. split; [|left; exists n; exact HO].
        destruct (bi_wt _ B _ _ _ _ HO) as (A1 & A2 & A3 & A4). cbn [w_ks whd w_r2w setc set w1]. unfold waits_at.
        rewrite (up_name _ _ U), (up_pid _ _ U), (up_open _ _ U). auto.
      * intros b q cs L Q. rewrite ME in Q. destruct b; cbn [hnd] in Q; [rewrite HT in Q; injection Q as <- <-; exact WK'|].
        exfalso. rewrite Q in HF. destruct (ci_wr _ _ _ _ C Hw) as (_ & [Z0|(n0 & s0 & p0 & Z0)]); rewrite Z0 in HF; cbn in HF; discriminate.
      * intros n n' s p p' _. rewrite ME, HT. discriminate.
    + intros s _. left. apply (up_pend _ _ U).
    + intros b n s n' s' H H'. destruct b; [destruct (HWT _ _ _ H') as [_ X]; congruence|]. apply HWF in H'. apply (wt_fun _ _ _ _ _ _ _ H H').
    + intros _ c n s H. destruct (HWT _ _ _ H) as [H0 _]. destruct (bi_wt _ B _ _ _ _ H0) as (A1 & A2 & A3 & A4).
      apply (HWAKE n s); [exists c, s; exact H0| |exact A2]. cbn [whd] in A4. rewrite A4. reflexivity.
    + intros X. exfalso. destruct X as (c & v & buf & iov0 & [Q|Q] & Hv); [discriminate|]. apply in_rets in Q. destruct Q as [_ Q].
      pose proof (end_write_calm _ _ _ _ _ _ Ee) as F. rewrite Forall_forall in F. apply F in Q. cbn in Q. lia.
  - apply (WS_quiet _ _ _ _ c1); [exact B|reflexivity|apply SQ; reflexivity|apply sim_refl, B|reflexivity|reflexivity| |repeat constructor; cbn; lia|intros s; left; cbn [w_ks setc set]; lia].
    rewrite cli_setc_same by exact LB. cbn [c_live c_w2r c_r2w set]. intros L. split; [exact L|]. split; apply bw_same_refl.
  - destruct (force_spec _ _ _ _ _ _ (bi_k _ B) (gs_force _ _ HG) Ef) as (n & s & p & -> & -> & S & F2 & F3).
    apply (WS_quiet _ _ _ _ c1); [exact B|reflexivity|apply SQ; reflexivity|exact S|reflexivity|reflexivity| |repeat constructor; cbn; lia|].
    + rewrite cli_setc_same by exact LB. cbn [c_live c_w2r c_r2w set]. intros L. split; [exact L|]. split; apply bw_same_refl.
    + intros s'. cbn [w_ks setc set]. destruct (Nat.eq_dec s' s) as [->|N]; [|left; rewrite F2 by exact N; lia].
      right. right. split; [exists n; split; [exact Hl|exists p; exact Eh]|eauto].
  - apply (WS_quiet _ _ _ _ c1); [exact B|reflexivity|apply SQ; reflexivity|apply sim_refl, B|reflexivity|reflexivity| |constructor|intros s0; left; cbn [w_ks setc set]; lia].
    rewrite cli_setc_same by exact LB. cbn [c_live c_w2r c_r2w set]. intros L. split; [exact L|]. split; apply bw_same_refl.
  - (* read *)
    destruct P as (Hr & _). destruct (ci_rd _ _ _ _ C Hr) as ((n & s & p & Ews) & (q0 & cs0 & Erk)). rewrite Ews in Eh. injection Eh as <-.
    assert (G : genv (w_ks w) (w_r2w w) (slots false w) e) by (rewrite <- (app_nil_r (w_ks w)); apply (BI_genv w false); assumption).
    assert (WK : waker_ok (w_ks w) (w_r2w w) q0 cs0) by (apply (bi_wk _ B false c1); split; assumption).
    assert (S1 : up (w_ks w) ks1 /\ hch (slots false w) (w_r2w w) bh1 /\ (exists q1 cs1, r2w' = Some (Wake q1 cs1) /\ waker_ok ks1 bh1 q1 cs1)
      /\ (rd_nr x >? 0 = true -> forall n s, slots false w n -> ws_name (nth n (h_wr (w_r2w w)) ws_free) = k_name (sk (w_ks w) s) -> k_open (sk (w_ks w) s) = true -> 0 < k_pend (sk ks1 s))).
    { destruct (rd_nr x >? 0) eqn:Enr.
      - destruct (Hn1 eq_refl) as (hh & hh' & wok & Q1 & Q2 & Q3). rewrite <- Er, Erk in Q1. injection Q1 as <-.
        destruct (bw_wake_spec _ _ _ _ _ _ _ _ _ _ G (bi_k _ B) WK Q3) as (-> & U & HH & (q1 & cs1 & -> & WK') & HWAKE).
        split; [exact U|]. split; [exact HH|]. split; [exists q1, cs1; auto|]. intros _. exact HWAKE.
      - destruct (Hn0 eq_refl) as (-> & -> & ->). split; [apply up_refl|]. split; [apply hch_refl|]. split; [exists q0, cs0; rewrite <- Er; auto|discriminate]. }
    destruct S1 as (U & HH & (q1 & cs1 & -> & WK') & HWAKE).
    pose proof (up_KI _ _ U (bi_k _ B)) as K1.
    destruct (force_spec _ _ _ _ _ _ K1 (gs_force _ _ HG) Ef) as (n' & s' & p' & Q & -> & S & F2 & F3). injection Q as <- <- <-.
    pose proof (sim_trans _ _ _ (up_sim _ _ (bi_k _ B) U) S) as SS. destruct SS as [SL SS].
    assert (MEW : wt true w c1 n s) by (split; [exact Hl|exists p; exact Ews]).
    set (w1 := w <| w_ring := rd_ring x |> <| w_r2w := bh1 |> <| w_ks := ks2 |>).
    set (cl' := (cli w c1) <| c_q := q |> <| c_md := md |> <| c_r2w := Some (Wake q1 cs1) |> <| c_pc := Idle |>).
    assert (ME : cli (setc w1 c1 cl') c1 = cl') by (apply cli_setc_same; exact LB).
    assert (HWT : forall b n1 s1, wt b (setc w1 c1 cl') c1 n1 s1 -> b = true /\ n1 = n /\ s1 = s).
    { intros b n1 s1 [_ [p1 X]]. rewrite ME in X. destruct b; cbn [hnd cl' c_w2r c_r2w set] in X; [|discriminate]. rewrite Ews in X. injection X as <- <- _. auto. }
    apply (WS_loud w _ _ _ c1); [exact B| |apply SQ; reflexivity|left; reflexivity| | | |].
    + apply (BI_upd w _ c1); [exact B|apply SQ; reflexivity|apply (sim_KI (w_ks w)); [split; assumption|apply B]|cbn [w_ks setc set w1]; lia| | | | | |].
      * intros s1 L. cbn [w_ks setc set w1]. destruct (SS s1) as (-> & -> & _). auto.
      * intros b c' n1 s1 N H. cbn [w_ks setc set w1]. destruct (SS s1) as (_ & _ & -> & _). apply (bi_wt _ B _ _ _ _ H).
      * intros []; cbn [whd w_w2r w_r2w setc set w1]; [apply hch_refl|]. apply (hch_mono (slots false w)); [intros m Hm; apply (others_slots _ _ _ _ Hm)|exact HH].
      * intros b n1 s1 p1 L X. destruct (HWT b n1 s1) as (-> & -> & ->); [split; [exact L|exists p1; exact X]|].
        split; [|left; exists n; exact MEW]. destruct (bi_wt _ B _ _ _ _ MEW) as (A1 & A2 & A3 & A4). cbn [w_ks whd w_w2r setc set w1]. unfold waits_at.
        destruct (SS s) as (-> & -> & -> & _). auto.
      * intros b q2 cs2 L X. rewrite ME in X. destruct b; cbn [hnd cl' c_w2r c_r2w set] in X; [congruence|]. injection X as <- <-.
        cbn [w_ks whd w_r2w setc set w1]. apply (waker_ks ks1); [destruct S; lia|intros s1 _; apply S|exact WK'].
      * intros n1 n2 s1 p1 p2 _. rewrite ME. cbn [cl' c_w2r c_r2w set]. discriminate.
    + intros s1 _. cbn [w_ks setc set w1]. destruct (Nat.eq_dec s1 s) as [->|N]; [|left; rewrite F2 by exact N; apply (up_pend _ _ U)].
      right. split; [exists n; exact MEW|eauto].
    + intros b n1 s1 n2 s2 H H'. destruct (HWT _ _ _ H') as (-> & -> & ->). apply (wt_fun _ _ _ _ _ _ _ H MEW).
    + intros (c & m & [X|[]]). discriminate.
    + intros (c & v & b0 & i0 & [X|[]] & Hv) c2 n2 s2 H. injection X as <- <- _ _.
      assert (NR : rd_nr x >? 0 = true) by (destruct (zlen (rd_iov x) >? 0); [apply Z.gtb_lt; exact Hv|lia]).
      assert (N : c2 <> c1) by (intros ->; destruct (HWT _ _ _ H) as [Z0 _]; discriminate Z0).
      assert (H0 : wt false w c2 n2 s2) by (destruct H as [L Q]; rewrite (SQ w1 c1 cl' eq_refl c2 N) in L, Q; split; assumption).
      destruct (bi_wt _ B _ _ _ _ H0) as (A1 & A2 & A3 & A4). cbn [w_ks setc set w1].
      rewrite F2 by (intros ->; destruct (bi_own _ B _ _ _ _ _ _ _ H0 MEW); discriminate).
      apply (HWAKE NR n2 s2); [exists c2, s2; exact H0| |exact A2]. cbn [whd] in A4. rewrite A4. reflexivity.
  - (* r2w fails *)
    destruct P as (Hw & Hne & Hr0). cbn [good_env new_names] in HG, HN. pose proof (HPID _ Hl) as HP0. assert (Hp0 : c_pid (cli w c1) <> 0) by lia.
    assert (N1 : forall s, (s < length (w_ks w))%nat -> k_name (sk (w_ks w) s) <> e_name e) by (intros s L; apply HN, nth_In; exact L).
    destruct Hw' as [->|(ks & h & He & Eo & ->)].
    { apply (WS_quiet _ _ _ _ c1); [exact B|reflexivity|apply SQ; reflexivity|apply sim_refl, B|reflexivity|reflexivity| |repeat constructor|intros s0; left; cbn [w_ks setc set]; lia].
      rewrite cli_setc_same by exact LB. cbn [c_live c_w2r c_r2w set]. intros L. split; [exact L|]. split; apply bw_same_refl. }
    assert (G : genv (w_ks w) (w_r2w w) (slots false w) e) by (rewrite <- (app_nil_r (w_ks w)); apply (BI_genv w false); assumption).
    destruct (open_wait_spec _ _ _ _ _ _ _ _ _ G (bi_k _ B) (bi_len _ B false) Hp0 N1 Eo) as (C1 & C2 & C3 & _).
    assert (EX : exists l, ks = w_ks w ++ l) by (destruct C3 as [->|[x ->]]; [exists []; rewrite app_nil_r; reflexivity|eauto]).
    destruct EX as [l EX].
    set (w1 := w <| w_ks := ks |> <| w_r2w := h |>). set (cl' := (cli w c1) <| c_pc := Idle |>).
    assert (ME : cli (setc w1 c1 cl') c1 = cl') by (apply cli_setc_same; exact LB).
    assert (HWT : forall b n1 s1, wt b (setc w1 c1 cl') c1 n1 s1 -> wt b w c1 n1 s1).
    { intros b n1 s1 [L [p1 X]]. rewrite ME in L, X. split; [exact Hl|]. exists p1. destruct b; exact X. }
    assert (OLD : forall s, (s < length (w_ks w))%nat -> sk ks s = sk (w_ks w) s) by (intros s L; rewrite EX; apply sk_app1; exact L).
    assert (LK : (length (w_ks w) <= length ks)%nat) by (rewrite EX, app_length; lia).
    assert (NOW : forall b n1 s1, wt b w c1 n1 s1 -> False).
    { intros [] n1 s1 H; [apply (wt_wake true w c1 n1 s1 (proj1 (ci_wr _ _ _ _ C Hw)) H)|apply (wt_none false w c1 n1 s1 Hr0 H)]. }
    apply (WS_loud w _ _ _ c1); [exact B| |apply SQ; reflexivity|left; reflexivity| | | |].
    + apply (BI_upd w _ c1); [exact B|apply SQ; reflexivity|exact C1|exact LK| | | | | |].
      * intros s L. cbn [w_ks setc set w1]. rewrite OLD by exact L. auto.
      * intros b c' n s _ H. cbn [w_ks setc set w1]. destruct (bi_wt _ B _ _ _ _ H) as (_ & O & _). rewrite OLD by (apply sk_open_lt; exact O). exact O.
      * intros []; cbn [whd w_w2r w_r2w setc set w1]; [apply hch_refl|]. apply (hch_mono (slots false w)); [intros m Hm; apply (others_slots _ _ _ _ Hm)|exact C2].
      * intros b n s p L X. elim (NOW b n s). apply HWT. split; [exact L|exists p; exact X].
      * intros b q cs L X. rewrite ME in X. destruct b; cbn [hnd cl' c_w2r c_r2w set] in X; [|congruence].
        cbn [w_ks whd w_w2r setc set w1]. apply (waker_ks (w_ks w)); [exact LK|intros s L1; rewrite OLD by exact L1; reflexivity|]. apply (bi_wk _ B true c1). split; assumption.
      * intros n n' s p p' _. rewrite ME. cbn [cl' c_w2r c_r2w set]. congruence.
    + intros s L. left. cbn [w_ks setc set w1]. rewrite OLD by exact L. lia.
    + intros b n s n' s' H. elim (NOW _ _ _ H).
    + intros (c & m & [X|[]]). discriminate.
    + intros (c & v & b0 & i0 & [X|[]] & Hv). discriminate.
  - (* r2w *)
    destruct P as (Hw & Hne & Hr0). cbn [good_env new_names] in HG, HN. pose proof (HPID _ Hl) as HP0. assert (Hp0 : c_pid (cli w c1) <> 0) by lia.
    assert (N1 : forall s, (s < length (w_ks w))%nat -> k_name (sk (w_ks w) s) <> e_name e) by (intros s L; apply HN, nth_In; exact L).
    assert (G : genv (w_ks w) (w_r2w w) (slots false w) e) by (rewrite <- (app_nil_r (w_ks w)); apply (BI_genv w false); assumption).
    destruct (open_wait_spec _ _ _ _ _ _ _ _ _ G (bi_k _ B) (bi_len _ B false) Hp0 N1 E) as (C1 & C2 & _ & C4 & _).
    destruct (C4 _ eq_refl) as (n0 & x & -> & EX & X1 & X2 & X3 & X4 & WA & NW & _).
    destruct (flush_write_id _ _ _ _ _ Ee) as [ID _]. destruct (flush_write_h _ _ _ _ _ Ee) as [SH1 SH2]. cbn [c_w2r c_r2w set] in SH1, SH2.
    set (w1 := w <| w_ks := ks |> <| w_r2w := h |>).
    assert (ME : cli (setc w1 c1 cl') c1 = cl') by (apply cli_setc_same; exact LB).
    assert (OLD : forall s, (s < length (w_ks w))%nat -> sk ks s = sk (w_ks w) s) by (intros s L; rewrite EX; apply sk_app1; exact L).
    assert (LK : (length (w_ks w) <= length ks)%nat) by (rewrite EX, app_length; lia).
    assert (NOW : forall b n1 s1, wt b w c1 n1 s1 -> False).
    { intros [] n1 s1 H; [apply (wt_wake true w c1 n1 s1 (proj1 (ci_wr _ _ _ _ C Hw)) H)|apply (wt_none false w c1 n1 s1 Hr0 H)]. }
    destruct (ci_wr _ _ _ _ C Hw) as ((qw & csw & Eqw) & _).
    apply (WS_loud w _ _ _ c1); [exact B| |apply SQ; reflexivity|left; reflexivity| | | |].
    + apply (BI_upd w _ c1); [exact B|apply SQ; reflexivity|exact C1|exact LK| | | | | |].
      * intros s L. cbn [w_ks setc set w1]. rewrite OLD by exact L. auto.
      * intros b c' n s _ H. cbn [w_ks setc set w1]. destruct (bi_wt _ B _ _ _ _ H) as (_ & O & _). rewrite OLD by (apply sk_open_lt; exact O). exact O.
      * intros []; cbn [whd w_w2r w_r2w setc set w1]; [apply hch_refl|]. apply (hch_mono (slots false w)); [intros m Hm; apply (others_slots _ _ _ _ Hm)|exact C2].
      * intros b n s p L X. rewrite ME in X. destruct b; cbn [hnd] in X; [congruence|]. rewrite SH2 in X. injection X as <- <- _. split; [exact WA|right; lia].
      * intros b q cs L X. rewrite ME in X. destruct b; cbn [hnd] in X; [|congruence].
        cbn [w_ks whd w_w2r setc set w1]. apply (waker_ks (w_ks w)); [exact LK|intros s L1; rewrite OLD by exact L1; reflexivity|]. apply (bi_wk _ B true c1). split; [exact Hl|]. cbn [hnd]. rewrite <- SH1. exact X.
      * intros n n' s p p' _. rewrite ME. congruence.
    + intros s L. left. cbn [w_ks setc set w1]. rewrite OLD by exact L. lia.
    + intros b n s n' s' H. elim (NOW _ _ _ H).
    + intros X. exfalso. apply (calm_no (rets c1 rs)); [apply calm_rets, (flush_write_calm _ _ _ _ _ Ee)|left; exact X].
    + intros X. exfalso. apply (calm_no (rets c1 rs)); [apply calm_rets, (flush_write_calm _ _ _ _ _ Ee)|right; exact X].
  - (* close *)
    set (cl' := (cli w c1) <| c_live := false |> <| c_w2r := None |> <| c_r2w := None |> <| c_cache := cache0 |> <| c_pc := Idle |>).
    destruct (e_lock e).
    2: { apply (WS_quiet _ _ _ _ c1); [exact B|reflexivity|apply SQ; reflexivity|apply sim_refl, B|reflexivity|reflexivity| |repeat constructor|intros s0; left; cbn [w_ks setc set]; lia].
         rewrite cli_setc_same by exact LB. discriminate. }
    destruct (close_spec w c1 B Hl) as (D1 & D2 & D3 & D4 & D5). set (w1 := close_handles w (cli w c1)) in *.
    assert (EC : w_cl w1 = w_cl w) by apply close_handles_cl.
    assert (ME : cli (setc w1 c1 cl') c1 = cl') by (apply cli_setc_same; rewrite EC; exact LB).
    assert (NOW : forall b n s, wt b (setc w1 c1 cl') c1 n s -> False) by (intros b n s [L _]; rewrite ME in L; discriminate).
    apply (WS_loud w _ _ _ c1); [exact B| |apply SQ; exact EC|left; reflexivity| | | |].
    + apply (BI_upd w _ c1); [exact B|apply SQ; exact EC|exact D2|cbn [w_ks setc set]; lia| | | | | |].
      * intros s _. destruct (D3 s) as (A1 & A2 & _). auto.
      * intros b c' n s N H. apply (D4 b c' n s N H).
      * intros []; [apply (D5 true)|apply (D5 false)].
      * intros b n s p L X. elim (NOW b n s). split; [exact L|exists p; exact X].
      * intros b q cs L X. rewrite ME in L. discriminate.
      * intros n n' s p p' L. rewrite ME in L. discriminate.
    + intros s L. left. destruct (D3 s) as (_ & _ & A3). cbn [w_ks setc set]. lia.
    + intros b n s n' s' _ H. elim (NOW _ _ _ H).
    + intros (c & m & [X|[]]). discriminate.
    + intros (c & v & b0 & i0 & [X|[]] & Hv). discriminate.
  - apply (WS_quiet _ _ _ _ c1); [exact B|reflexivity|apply SQ; reflexivity|apply sim_refl, B|reflexivity|reflexivity| |repeat constructor; apply (do_stat_calm _ _ _ _ _ _ E)|intros s0; left; cbn [w_ks setc set]; lia].
    rewrite cli_setc_same by exact LB. cbn [c_live c_w2r c_r2w set]. intros L. split; [exact L|]. split; apply bw_same_refl.
  - apply (WS_quiet _ _ _ _ c1); [exact B|reflexivity|apply SQ; reflexivity|apply sim_refl, B|reflexivity|reflexivity| |repeat constructor; apply (do_app_calm _ _ _ _ _ _ _ E)|intros s0; left; cbn [w_ks setc set]; lia].
    rewrite cli_setc_same by exact LB. cbn [c_live c_w2r c_r2w set]. intros L. split; [exact L|]. split; apply bw_same_refl.
  - (* wake *)
    assert (NI : c_pc (cli w c1) <> Idle) by (intros Q; unfold wait_sid in Hs; rewrite Q in Hs; discriminate).
    assert (Hl : c_live (cli w c1) = true) by (destruct (c_live (cli w c1)) eqn:Q; [reflexivity|apply (wi_dead _ _ _ W) in Q; contradiction]).
    pose proof (live_bound _ _ Hl) as LB.
    assert (SD : exists b n, wt b w c1 n sid).
    { unfold wait_sid in Hs. destruct (c_pc (cli w c1)); try discriminate.
      - exists false. destruct (c_r2w (cli w c1)) as [[|n s p]|] eqn:Q; try discriminate. injection Hs as <- <-. exists n. split; [exact Hl|exists p; exact Q].
      - exists true. destruct (c_w2r (cli w c1)) as [[|n s p]|] eqn:Q; try discriminate. injection Hs as <- <-. exists n. split; [exact Hl|exists p; exact Q]. }
    apply (WS_quiet _ _ _ _ c1); [exact B|reflexivity|apply SQ; reflexivity| |reflexivity|reflexivity| |constructor|].
    + cbn [w_ks setc set]. unfold bw_recv. rewrite (sk_upd_ext _ _ _ (fun x => x <| k_pend := Z.max 0 (k_pend (sk (w_ks w) sid) - 1) |>)) by reflexivity.
      apply sim_upd; [apply B|lia].
    + rewrite cli_setc_same by exact LB. intros _. split; [exact Hl|].
      unfold resume. destruct (c_pc (cli w c1)) as [ | | | | | | | |g0 s0 z0]; cbn [c_w2r c_r2w set]; split; apply bw_same_refl.
    + intros s. cbn [w_ks setc set]. destruct (Nat.eq_dec s sid) as [->|N]; [right; left; auto|]. left. unfold bw_recv. rewrite sk_upd_other by exact N. lia.
  - assert (HA : actor a = Some c1) by (destruct Ha as [[-> _]|[[fd ->] _]]; reflexivity).
    destruct (end_write_id _ _ _ _ _ _ E) as [ID _].
    apply (WS_quiet _ _ _ _ c1); [exact B|exact HA|apply SQ; reflexivity|apply sim_refl, B|reflexivity|reflexivity| | |intros s; left; cbn [w_ks setc set]; lia].
    + rewrite cli_setc_same by exact LB. intros L. rewrite (id_live _ _ ID) in L. destruct ID. auto.
    + apply calm_rets, (end_write_calm _ _ _ _ _ _ E).
  - assert (HA : actor a = Some c1) by (destruct Ha as [[-> _]|[[fd ->] _]]; reflexivity).
    apply (WS_quiet _ _ _ _ c1); [exact B|exact HA|apply SQ; reflexivity|apply sim_refl, B|reflexivity|reflexivity| | |intros s; left; cbn [w_ks setc set]; lia].
    + rewrite cli_setc_same by exact LB. cbn [c_live c_w2r c_r2w set]. intros L. split; [exact L|]. split; apply bw_same_refl.
    + repeat constructor. cbn. destruct Ha as [[_ ->]|[_ ->]]; lia.
  - (* crash *)
    set (ks := drop_sock (drop_sock (w_ks w) (c_w2r (cli w c1))) (c_r2w (cli w c1))).
    set (cl' := (cli w c1) <| c_live := false |> <| c_pc := Idle |>). set (w1 := w <| w_ks := ks |>).
    destruct (drop_sock_fields (w_ks w) (c_w2r (cli w c1))) as (A1 & A2).
    destruct (drop_sock_fields (drop_sock (w_ks w) (c_w2r (cli w c1))) (c_r2w (cli w c1))) as (B1 & B2). fold ks in B1, B2.
    assert (FD : length ks = length (w_ks w) /\ forall s, k_name (sk ks s) = k_name (sk (w_ks w) s) /\ k_pid (sk ks s) = k_pid (sk (w_ks w) s)
       /\ k_pend (sk ks s) = k_pend (sk (w_ks w) s) /\ k_cap (sk ks s) = k_cap (sk (w_ks w) s)).
    { split; [congruence|]. intros s. destruct (A2 s) as (<- & <- & <- & <- & _), (B2 s) as (-> & -> & -> & -> & _). auto. }
    destruct FD as [F1 F2].
    assert (ME : cli (setc w1 c1 cl') c1 = cl') by (apply cli_setc_same; exact LB).
    assert (NOW : forall b n s, wt b (setc w1 c1 cl') c1 n s -> False) by (intros b n s [L _]; rewrite ME in L; discriminate).
    apply (WS_loud w _ _ _ c1); [exact B| |apply SQ; reflexivity|left; reflexivity| | | |].
    + apply (BI_upd w _ c1); [exact B|apply SQ; reflexivity| |cbn [w_ks setc set w1]; lia| | | | | |].
      * apply (fields_KI (w_ks w)); [exact F1|intros s; destruct (F2 s) as (Q1 & _ & Q3 & Q4); auto|apply B].
      * intros s _. destruct (F2 s) as (Q1 & Q2 & _). auto.
      * intros b c' n s N H. cbn [w_ks setc set w1].
        destruct (B2 s) as (_ & _ & _ & _ & Z1). rewrite Z1.
        -- destruct (A2 s) as (_ & _ & _ & _ & Z2). rewrite Z2; [apply (bi_wt _ B _ _ _ _ H)|].
           intros n1 p1 Q. destruct (bi_own _ B b c' n s true c1 n1 H); [split; [exact Hl|exists p1; exact Q]|congruence].
        -- intros n1 p1 Q. destruct (bi_own _ B b c' n s false c1 n1 H); [split; [exact Hl|exists p1; exact Q]|congruence].
      * intros []; apply hch_refl.
      * intros b n s p L X. elim (NOW b n s). split; [exact L|exists p; exact X].
      * intros b q cs L X. rewrite ME in L. discriminate.
      * intros n n' s p p' L. rewrite ME in L. discriminate.
    + intros s L. left. destruct (F2 s) as (_ & _ & A3 & _). cbn [w_ks setc set w1]. lia.
    + intros b n s n' s' _ H. elim (NOW _ _ _ H).
    + intros (c & m & [X|[]]). discriminate.
    + intros (c & v & b0 & i0 & [X|[]] & Hv). discriminate.
Qed.
