(** * Executions with killed processes: the queue specification, and concrete
    executions. *)
From Verif Require Import MicroFacts Crash Effects Final Pending Trace.
From Verif Require Export KillExec CrashFinal Witness.

Lemma subseq_app {A} (a b x y : list A) : subseq a x -> subseq b y -> subseq (a ++ b) (x ++ y).
Proof. induction 1; intros HH; cbn [app]; [exact HH|constructor; auto|constructor; auto]. Qed.
Lemma subseq_nil {A} (l : list A) : subseq [] l.
Proof. induction l; constructor; assumption. Qed.
Lemma subseq_refl {A} (l : list A) : subseq l l.
Proof. induction l; constructor; assumption. Qed.
Lemma no_killed_app evs ev : no_reader_killed (evs ++ ev) -> no_reader_killed evs.
Proof. intros H e1 c e2 buf niov ->. apply (H e1 c (e2 ++ ev)). rewrite <- app_assoc. reflexivity. Qed.
Lemma skipn_take_fit n s l : exists r, l = take_fit n s l ++ r.
Proof. destruct (RingFacts.take_fit_prefix n s l) as [r E]. eauto. Qed.

Lemma k_spec_fifo a0 evs a p : atomic maimed a0 evs a p -> q_drop a0 = false -> q_farm a0 = false -> q_unread a0 = [] ->
  q_drop a = false /\ q_farm a = false /\ exists taken, subseq (delivered evs) taken /\ committed evs = taken ++ q_unread a
    /\ (no_reader_killed evs -> taken = delivered evs).
Proof.
  intros A Hd Hf Hu. induction A; rewrite ?committed_app, ?delivered_app.
  - rewrite Hu. split; [exact Hd|split; [exact Hf|]]. exists []. split; [constructor|]. auto.
  - destruct IHA as (I1 & I2 & t & I3 & I4 & I5). cbn. rewrite !app_nil_r. split; [exact I1|split; [exact I2|]]. exists t. split; [exact I3|split; [exact I4|]]. intros N. apply I5, (no_killed_app _ _ N).
  - destruct IHA as (I1 & I2 & t & I3 & I4 & I5). cbn. rewrite !app_nil_r. split; [exact I1|split; [exact I2|]]. exists t. split; [exact I3|split; [exact I4|]]. intros N. apply I5, (no_killed_app _ _ N).
  - (* a death *)
    destruct IHA as (I1 & I2 & t & I3 & I4 & I5). cbn. rewrite !app_nil_r. destruct H as [->|H].
    { split; [exact I1|split; [exact I2|]]. exists t. split; [exact I3|split; [exact I4|]]. intros N. apply I5, (no_killed_app _ _ N). }
    assert (WR : forall ms, room (q_n a) (q_mm a) ms (q_unread a) || q_drop a = true -> a' = discarded a ms \/ a' = evicted a ms ->
       q_drop a' = false /\ q_farm a' = false /\ q_unread a' = q_unread a).
    { intros ms R. rewrite I1, orb_false_r in R. intros [-> | ->]; cbn; rewrite ?(fit_room _ _ _ _ R); auto. }
    destruct (pending c evs) as [[buf niov|iov|wait| |reset|reset|get st sz|fd| ]|] eqn:Ep; try contradiction.
    { destruct H as (_ & j & Lj & ->). cbn [taken_by q_drop q_farm q_unread]. split; [exact I1|split; [exact I2|]].
      exists (t ++ firstn j (q_unread a)). split; [|split].
      - rewrite <- (app_nil_r (delivered evs)). apply subseq_app; [exact I3|apply subseq_nil].
      - rewrite I4, <- app_assoc, firstn_skipn. reflexivity.
      - intros N. elim (N evs c [] buf niov eq_refl Ep). }
    all: destruct H as (ms & _ & _ & R & H); destruct (WR ms R H) as (-> & -> & ->); split; [reflexivity|split; [reflexivity|]];
      exists t; (split; [exact I3|split; [exact I4|]]); intros N; apply I5, (no_killed_app _ _ N).
  - destruct IHA as (I1 & I2 & t & I3 & I4 & I5). cbn. rewrite !app_nil_r. split; [exact I1|split; [exact I2|]]. exists t. split; [exact I3|split; [exact I4|]]. intros N. apply I5, (no_killed_app _ _ N).
  - destruct IHA as (I1 & I2 & t & I3 & I4 & I5). cbn [aq_step] in H0. destruct (okb _ _ _ && _); [|discriminate].
    rewrite I1, orb_false_r in H0. destruct (room _ _ _ _) eqn:Er; [|discriminate]. injection H0 as <-.
    cbn [q_drop q_farm q_unread]. split; [reflexivity|]. split; [exact I2|]. rewrite (fit_room _ _ _ _ Er). exists t. cbn. rewrite !app_nil_r, app_assoc, I4.
    split; [exact I3|split; [reflexivity|]]. intros N. apply I5, (no_killed_app _ _ N).
  - destruct IHA as (I1 & I2 & t & I3 & I4 & I5). cbn [aq_step] in H0. destruct ((0 <? zlen buf) && (0 <? niov)); [|discriminate]. rewrite I2 in H0.
    set (tk := take_fit (Z.to_nat niov) (usable buf) (q_unread a)) in *.
    assert (H1 : tk = taken /\ a' = mkaq (q_n a) (q_mm a) (q_drop a) false (q_seq a) (q_kept a) (skipn (length tk) (q_unread a))).
    { destruct (q_unread a); [discriminate H0|]. injection H0 as <- <- <- <-. auto. }
    destruct H1 as [<- ->]. cbn [q_drop q_farm q_unread]. split; [exact I1|]. split; [reflexivity|].
    unfold committed at 2, delivered at 2 4. cbn [flat_map]. rewrite !app_nil_r.
    assert (Hu0 : 0 <= usable buf <= zlen buf) by (unfold usable; pose proof (zlen_nonneg buf); lia).
    pose proof (nbytes_take_fit (Z.to_nat niov) (usable buf) (q_unread a) ltac:(lia)) as NT. fold tk in NT.
    assert (RM : read_msgs (RetRead match tk with [] => -2 | _ => nbytes tk end (concat tk ++ skipn (length (concat tk)) buf) (tile 0 tk)) = tk).
    { cbn [read_msgs]. apply (tile_read tk buf 0); lia. }
    rewrite RM. exists (t ++ tk). split; [apply subseq_app; [exact I3|apply subseq_refl]|]. split.
    + rewrite I4, <- app_assoc. f_equal. destruct (RingFacts.take_fit_prefix (Z.to_nat niov) (usable buf) (q_unread a)) as [rest ER]. fold tk in ER.
      rewrite ER at 1. f_equal. rewrite ER, skipn_app, skipn_all, Nat.sub_diag. reflexivity.
    + intros N. rewrite (I5 (no_killed_app _ _ N)). reflexivity.
  - destruct IHA as (I1 & I2 & t & I3 & I4 & I5). cbn. rewrite !app_nil_r. split; [exact I1|split; [exact I2|]]. exists t. split; [exact I3|split; [exact I4|]]. intros N. apply I5, (no_killed_app _ _ N).
  - exact IHA.
  - destruct IHA as (I1 & I2 & t & I3 & I4 & I5). cbn. rewrite !app_nil_r. split; [exact I1|split; [exact I2|]]. exists t. split; [exact I3|split; [exact I4|]]. intros N. apply I5, (no_killed_app _ _ N).
  - destruct IHA as (I1 & I2 & t & I3 & I4 & I5). split; [exact I1|]. split; [exact I2|]. unfold committed at 2, delivered at 2 4. cbn [flat_map]. rewrite !app_nil_r.
    replace (read_msgs x) with (@nil bytes).
    + rewrite app_nil_r. exists t. split; [exact I3|split; [exact I4|]]. intros N. apply I5, (no_killed_app _ _ N).
    + destruct x; try reflexivity. cbn [read_msgs].
      unfold fair_ret in H. destruct (pending c evs) as [[]|]; try contradiction. destruct H as (_ & _ & ->). reflexivity.
Qed.

(** without SHR_DROP and SHR_FARM: what was written, minus what killed readers
    had taken, is what was read and what is still there, in order *)
Lemma k_fifo r w evs : kreach contract r w evs -> r_drop r = false -> r_farm r = false ->
  exists taken, subseq (delivered evs) taken /\ committed evs = taken ++ ring_unread (w_ring w)
    /\ (no_reader_killed evs -> taken = delivered evs).
Proof.
  intros R Hd Hf. destruct (k_atomic r w evs R) as (p & A & _). destruct (k_spec_fifo _ _ _ _ A Hd Hf eq_refl) as (_ & _ & t & T).
  exists t. exact T.
Qed.

(** ** scripts with kills *)
Inductive kcmd :=
| Do (k : cmd)
| Kill (c : nat) (n : nat)                       (* killed before the [n]th statement of its section *)
| KillOpen (flags pid : Z) (n : nat).
Definition kplay1 (w : world) (k : kcmd) : option (world * list event) :=
  match k with
  | Do k => if ok_b w k then match step w (act w k) with Ok x => Some x | _ => None end else None
  | Kill c n =>
      if c_live (cli w c) then
        match kill_at n (section (calm (w_ks w)) (cli w c)) (shared w) with
        | Some (line, m) => if untorn w c m line then Some (killed w c m, kill_events w c line) else None
        | None => None
        end
      else None
  | KillOpen flags pid n =>
      if ok_b w (Open flags pid) then
        match kill_at n (open_section (calm (w_ks w)) w flags pid) (shared w) with
        | Some (line, m) => Some (killed_opening w m, [])
        | None => None
        end
      else None
  end.
Fixpoint kplay (w : world) (ks : list kcmd) : option (world * list event) :=
  match ks with
  | [] => Some (w, [])
  | k :: t => match kplay1 w k with
              | Some (w1, ev) => match kplay w1 t with Some (w2, ev2) => Some (w2, ev ++ ev2) | None => None end
              | None => None
              end
  end.
Lemma kplay_exec w0 : forall ks w evs w' ev, kexec faultless w0 w evs -> kplay w ks = Some (w', ev) -> kexec faultless w0 w' (evs ++ ev).
Proof.
  induction ks as [|k t IH]; intros w evs w' ev X H; cbn [kplay] in H.
  - injection H as <- <-. rewrite app_nil_r. exact X.
  - destruct (kplay1 w k) as [[w1 ev1]|] eqn:E; [|discriminate]. destruct (kplay w1 t) as [[w2 ev2]|] eqn:E2; [|discriminate]. injection H as <- <-.
    rewrite app_assoc. apply (IH w1); [|exact E2]. clear IH E2. destruct k as [k|c n|flags pid n]; cbn [kplay1] in E.
    + destruct (ok_b w k) eqn:Ok; [|discriminate]. destruct (step w (act w k)) as [x| | |] eqn:Es; try discriminate. injection E as ->.
      econstructor; [exact X|apply act_faultless, Ok|exact Es].
    + destruct (c_live (cli w c)) eqn:Hl; [|discriminate]. destruct (kill_at _ _ _) as [[line m]|] eqn:Ek; [|discriminate].
      destruct (untorn w c m line) eqn:U; [|discriminate]. injection E as <- <-. apply kill_dies in Ek.
      apply (kx_kill _ _ _ _ _ (calm (w_ks w)) line m); [exact X| |exact Hl|exact Ek|exact U]. apply (act_faultless w (Run c)). reflexivity.
    + destruct (ok_b w (Open flags pid)) eqn:Ok; [|discriminate]. destruct (kill_at _ _ _) as [[line m]|] eqn:Ek; [|discriminate].
      injection E as <- <-. apply kill_dies in Ek. rewrite app_nil_r.
      apply (kx_kill_open _ _ _ _ (calm (w_ks w)) flags pid line m); [exact X| |exact Ek]. apply (act_faultless w (Open flags pid)). exact Ok.
Qed.
Definition kw (w0 : world) (ks : list kcmd) : world := match kplay w0 ks with Some (w, _) => w | None => w0 end.
Definition ke (w0 : world) (ks : list kcmd) : list event := match kplay w0 ks with Some (_, e) => e | None => [] end.
Definition kplays (w0 : world) (ks : list kcmd) : bool := match kplay w0 ks with Some (_, evs) => zlen (committed evs) <? W64 | None => false end.
Lemma kreach_faultless r fsz ks : fresh r fsz -> kplays (world0 r fsz) ks = true ->
  kreach faultless r (kw (world0 r fsz) ks) (ke (world0 r fsz) ks).
Proof.
  intros F H. unfold kplays, kw, ke in *. destruct (kplay (world0 r fsz) ks) as [[w evs]|] eqn:E; [|discriminate].
  exists fsz. split; [exact F|]. split; [apply (kplay_exec _ ks (world0 r fsz) []); [constructor|exact E]|]. intros _. apply Z.ltb_lt in H. exact H.
Qed.
Lemma kexec_mono (P Q : world -> action -> Prop) w0 w evs : (forall w a, P w a -> Q w a) -> kexec P w0 w evs -> kexec Q w0 w evs.
Proof.
  intros H. induction 1; [constructor|econstructor; eauto|eapply kx_kill; eauto|eapply kx_kill_open; eauto].
Qed.
Lemma kreach_mono (P Q : world -> action -> Prop) r w evs : (forall w a, P w a -> Q w a) -> kreach P r w evs -> kreach Q r w evs.
Proof. intros H (fsz & F & X & B). exists fsz. split; [exact F|]. split; [eapply kexec_mono; eauto|exact B]. Qed.
Lemma kreach_contract r fsz ks : fresh r fsz -> kplays (world0 r fsz) ks = true ->
  kreach contract r (kw (world0 r fsz) ks) (ke (world0 r fsz) ks).
Proof. intros F H. apply (kreach_mono faultless); [apply faultless_contract|]. apply kreach_faultless; assumption. Qed.
