(** * The world invariant: every reachable state is consistent, and no step
    aborts or leaves its memory. *)
From Verif Require Export StepInv.

Definition is_wait (h : option bwt) : Prop := exists n s p, h = Some (Wait n s p).
Definition is_wake (h : option bwt) : Prop := exists q cs, h = Some (Wake q cs).

Definition buffered (cl : client) : bool := has (c_flags cl) SHR_WRONLY && has (c_flags cl) SHR_BUFFERED.

Definition kont_ok (r : ring) (cl : client) (ms iov : list bytes) (k : wkont) : Prop :=
  match k with
  | KDirect => ms = []
  | KThen iov' len' => iov = ms /\ has (c_flags cl) SHR_BUFFERED = true
      /\ iov_ok (r_n r) (r_mm r) iov' /\ len' = nbytes iov'
  | KFlush | KClose => iov = ms
  end.

Definition pc_ok (r : ring) (cl : client) (ms : list bytes) : Prop :=
  match c_pc cl with
  | Idle | RunClose | RunStat _ => True
  | RunW k iov len nb | WaitW k iov len nb =>
      has (c_flags cl) SHR_WRONLY = true /\ iov_ok (r_n r) (r_mm r) iov /\ len = nbytes iov
      /\ kont_ok r cl ms iov k
      /\ (nb = false -> r_drop r = false -> is_wait (c_r2w cl))
  | RunR buf niov | WaitR buf niov => has (c_flags cl) SHR_RDONLY = true /\ 0 < zlen buf /\ 0 < niov
  | RunOpenR2W => has (c_flags cl) SHR_WRONLY = true /\ ms <> [] /\ c_r2w cl = None
  | RunApp get st sz => app_args_ok r get st sz
  end.

Record CI (r : ring) (h : list bytes) (cl : client) (ms : list bytes) : Prop := mkCI {
  ci_role : has (c_flags cl) SHR_RDONLY = negb (has (c_flags cl) SHR_WRONLY);
  ci_n : c_n cl = r_n r;
  ci_mm : c_mm cl = r_mm r;
  ci_rd : has (c_flags cl) SHR_RDONLY = true -> is_wait (c_w2r cl) /\ is_wake (c_r2w cl);
  ci_q : r_farm r = true -> 0 <= c_q cl <= zlen h;
  ci_wr : has (c_flags cl) SHR_WRONLY = true -> is_wake (c_w2r cl)
      /\ (c_r2w cl = None \/ is_wait (c_r2w cl));
  ci_wb : has (c_flags cl) SHR_WRONLY = true -> has (c_flags cl) SHR_NONBLOCK = false ->
      r_drop r = false -> is_wait (c_r2w cl);
  ci_ca : holds (c_cache cl) ms;
  ci_sz : ca_sz (c_cache cl) <= r_n r;
  ci_vt : ca_vt (c_cache cl) <= r_mm r;
  ci_unb : buffered cl = false -> ms = [];
  ci_pc : pc_ok r cl ms }.

(** what never changes about the ring *)
Definition same_dims (r r' : ring) : Prop :=
  r_gflags r' = r_gflags r /\ r_n r' = r_n r /\ r_mm r' = r_mm r /\
  r_mv_len r' = r_mv_len r /\ r_pad_len r' = r_pad_len r /\ r_app_len r' = r_app_len r.
Lemma same_dims_refl r : same_dims r r. Proof. repeat split. Qed.
Lemma same_dims_trans a b c : same_dims a b -> same_dims b c -> same_dims a c.
Proof. unfold same_dims; intuition congruence. Qed.
Lemma same_fixed_dims a b : same_fixed a b -> same_dims a b.
Proof. unfold same_fixed, same_dims; intuition. Qed.
Lemma same_dims_farm a b : same_dims a b -> r_farm b = r_farm a.
Proof. intros (E & _); unfold r_farm; rewrite E; reflexivity. Qed.
Lemma same_dims_drop a b : same_dims a b -> r_drop b = r_drop a.
Proof. intros (E & _); unfold r_drop; rewrite E; reflexivity. Qed.

Lemma CI_mono r h r' h' cl ms : CI r h cl ms -> same_dims r r' -> zlen h <= zlen h' -> CI r' h' cl ms.
Proof.
  intros C S L. pose proof (same_dims_farm _ _ S) as SF. pose proof (same_dims_drop _ _ S) as SD.
  destruct S as (Eg & En & Em & Ev & Ep & Ea).
  destruct C as [? ? ? ? Q ? ? ? ? ? ? P]; constructor; rewrite ?En, ?Em, ?SF, ?SD; try assumption.
  - intros H; specialize (Q H); lia.
  - unfold pc_ok in *. destruct (c_pc cl) as [ |k ? ? ?|k ? ? ?| | | | | |]; try assumption.
    + rewrite En, Em, SD. destruct P as (? & ? & ? & K & ?). repeat (split; [assumption|]). split; [|assumption].
      destruct k; cbn [kont_ok] in *; rewrite ?En, ?Em; assumption.
    + rewrite En, Em, SD. destruct P as (? & ? & ? & K & ?). repeat (split; [assumption|]). split; [|assumption].
      destruct k; cbn [kont_ok] in *; rewrite ?En, ?Em; assumption.
    + unfold app_args_ok in *. rewrite Ea. assumption.
Qed.

Record WI (w0 w : world) (evs : list event) : Prop := mkWI {
  wi_ring : Inv (w_ring w) (committed evs);
  wi_dims : same_dims (w_ring w0) (w_ring w);
  wi_fsz : w_fsz w = w_fsz w0;
  wi_app : zlen (r_app (w_ring w)) = r_app_len (w_ring w);
  wi_cl : forall c, c_live (cli w c) = true ->
      exists ms, CI (w_ring w) (committed evs) (cli w c) ms;
  wi_dead : forall c, c_live (cli w c) = false -> c_pc (cli w c) = Idle }.

(** ** block/wake calls on handles of the right mode *)
Lemma bw_wake_ok e ks h q cs : exists ks' h' q' cs' ok, bw_wake e ks h (Wake q cs) = Ok (ks', h', Wake q' cs', ok).
Proof.
  cbn [bw_wake]. destruct (bw_sync e ks h q cs) as [[[h1 q1] cs1] ok]. destruct ok.
  - destruct (wake_slots e 0 ks (h_wr h1) cs1) as [[[wr cs2] ks2] inc]. repeat eexists.
  - repeat eexists.
Qed.
Lemma bw_force_ok e ks n s p want : exists ks' ok, bw_force e ks (Wait n s p) want = Ok (ks', ok).
Proof.
  cbn [bw_force]. destruct (e_force e); cbn [negb]; [|repeat eexists].
  destruct (negb want && _); [repeat eexists|]. destruct (want && _); repeat eexists.
Qed.
Lemma bw_open_wait_mode e ks h pid name ks' h' b : bw_open_wait e ks h pid name = (ks', h', Some b) ->
  is_wait (Some b).
Proof.
  unfold bw_open_wait. destruct (e_alloc e); cbn [negb]; [|discriminate].
  destruct (find_free (h_wr (prune_handle e h)) 0); [|discriminate].
  destruct (if e_bind e then sk_lookup ks name else Some O); [discriminate|].
  destruct (e_self e); [|discriminate]. intros H; inj H. repeat eexists.
Qed.
Lemma bw_open_wake_mode e ks h h' b : bw_open_wake e ks h = (h', Some b) -> is_wake (Some b).
Proof.
  unfold bw_open_wake. destruct (e_alloc e); cbn [negb]; [|discriminate].
  destruct (bw_sync e ks (prune_handle e h) (-1) (repeat conn0 BW_WAITMAX)) as [[[h1 q] cs] ok].
  destruct ok; intros H; [|discriminate]. inj H. repeat eexists.
Qed.
Lemma bw_wake_mode e ks h hw ks' h' hw' ok : bw_wake e ks h hw = Ok (ks', h', hw', ok) -> is_wake (Some hw) /\ is_wake (Some hw').
Proof.
  destruct hw as [q cs|]; [|discriminate]. intros H.
  destruct (bw_wake_ok e ks h q cs) as (? & ? & q' & cs' & ? & E). rewrite E in H. inj H.
  split; repeat eexists.
Qed.

(** ** dimensions of a fresh ring *)
Lemma inv_bounds r h : Inv r h -> 0 < r_n r <= SSIZE_MAX /\ 0 < r_mm r < W64.
Proof. intros I. pose proof (w_n _ _ _ (i_win _ _ (i_inv0 _ _ I))). pose proof (w_mm _ _ _ (i_win _ _ (i_inv0 _ _ I))). lia. Qed.

(** ** pieces of the write path *)
Lemma iov_of_cache r h cl ms : CI r h cl ms -> ms <> [] -> iov_ok (r_n r) (r_mm r) ms.
Proof.
  intros C Hm. destruct (ci_ca _ _ _ _ C) as [? ? ? ? Hn Hv Hne ? ?].
  pose proof (ci_sz _ _ _ _ C). pose proof (ci_vt _ _ _ _ C). repeat split; try assumption; lia.
Qed.
Lemma cache_empty ca ms : holds ca ms -> (ca_n ca =? 0) = true -> ms = [].
Proof.
  intros H E. apply Z.eqb_eq in E. rewrite (ho_n _ _ H) in E. destruct ms as [|b t]; [reflexivity|].
  pose proof (ho_ne _ _ H) as Hne. inversion Hne; subst. rewrite nbytes_cons in E. pose proof (nbytes_nonneg t). lia.
Qed.
Lemma cache_nonempty ca ms : holds ca ms -> (ca_n ca =? 0) = false -> ms <> [].
Proof. intros H E ->. apply Z.eqb_neq in E. rewrite (ho_n _ _ H) in E. apply E; reflexivity. Qed.

Ltac fin := cbn [c_live c_pid c_flags c_q c_md c_w2r c_r2w c_cache c_n c_mm c_pc set] in *.

(** changing only the program counter *)
Lemma CI_pc r h cl ms p : CI r h cl ms -> pc_ok r (cl <| c_pc := p |>) ms -> CI r h (cl <| c_pc := p |>) ms.
Proof. intros [] P; constructor; fin; assumption. Qed.

Lemma CI_cache r h cl ms ca' ms' : CI r h cl ms -> holds ca' ms' ->
  ca_sz ca' <= r_n r -> ca_vt ca' <= r_mm r -> (buffered cl = false -> ms' = []) ->
  pc_ok r (cl <| c_cache := ca' |>) ms' ->
  CI r h (cl <| c_cache := ca' |>) ms'.
Proof. intros [] H1 H2 H3 H4 H5; constructor; fin; assumption. Qed.

(** ** go_write, end_write and flush_write *)
(** the invariant of a client except for where it is *)
Definition CIi (r : ring) (h : list bytes) (cl : client) (ms : list bytes) : Prop :=
  CI r h (cl <| c_pc := Idle |>) ms.
Lemma CI_CIi r h cl ms : CI r h cl ms -> CIi r h cl ms.
Proof. intros C; apply CI_pc; [exact C|exact I]. Qed.
Lemma CIi_pc r h cl ms p : CIi r h cl ms -> pc_ok r (cl <| c_pc := p |>) ms -> CI r h (cl <| c_pc := p |>) ms.
Proof.
  intros C P. replace (cl <| c_pc := p |>) with ((cl <| c_pc := Idle |>) <| c_pc := p |>) in * by (destruct cl; reflexivity).
  apply CI_pc; assumption.
Qed.
Lemma CIi_set_pc r h cl ms p : CIi r h cl ms -> CIi r h (cl <| c_pc := p |>) ms.
Proof. intros C. unfold CIi in *. replace ((cl <| c_pc := p |>) <| c_pc := Idle |>) with (cl <| c_pc := Idle |>) by (destruct cl; reflexivity). exact C. Qed.
Lemma CIi_clear r h cl ms : CIi r h cl ms -> CIi r h (cl <| c_cache := clear_cache (c_cache cl) |>) [].
Proof.
  intros C. unfold CIi in *.
  replace ((cl <| c_cache := clear_cache (c_cache cl) |>) <| c_pc := Idle |>)
    with ((cl <| c_pc := Idle |>) <| c_cache := clear_cache (c_cache cl) |>) by (destruct cl; reflexivity).
  apply (CI_cache _ _ _ _ _ _ C); fin.
  - eapply clear_ok. apply (ci_ca _ _ _ _ C).
  - apply (ci_sz _ _ _ _ C).
  - apply (ci_vt _ _ _ _ C).
  - reflexivity.
  - exact I.
Qed.

(** what go_write does: either the iovec is cached, or the client is about to
    run the ring critical section *)
Lemma go_write_ok r h cl ms iov : Inv r h -> CIi r h cl ms ->
  has (c_flags cl) SHR_WRONLY = true -> iov_ok (r_n r) (r_mm r) iov ->
  (exists cl' , go_write cl iov (nbytes iov) = Ok (cl', [RetWrite iov (nbytes iov)])
     /\ CI r h cl' (ms ++ iov) /\ c_pc cl' = Idle /\ has (c_flags cl) SHR_BUFFERED = true
     /\ cl' = cl <| c_cache := c_cache cl' |> <| c_pc := Idle |>)
  \/ (exists k iov1, go_write cl iov (nbytes iov) =
        Ok (cl <| c_pc := RunW k iov1 (nbytes iov1) (has (c_flags cl) SHR_NONBLOCK) |>, [])
     /\ CI r h (cl <| c_pc := RunW k iov1 (nbytes iov1) (has (c_flags cl) SHR_NONBLOCK) |>) ms
     /\ ((k = KDirect /\ iov1 = iov /\ ms = []) \/ (k = KThen iov (nbytes iov) /\ iov1 = ms /\ ms <> []))).
Proof.
  intros I C Hw Hi. destruct (inv_bounds _ _ I) as [Bn Bm].
  pose proof (ci_ca _ _ _ _ C) as HC. fin. pose proof (ci_sz _ _ _ _ C) as Hsz. pose proof (ci_vt _ _ _ _ C) as Hvt. fin.
  assert (WAIT : has (c_flags cl) SHR_NONBLOCK = false -> r_drop r = false -> is_wait (c_r2w cl)).
  { intros; apply (ci_wb _ _ _ _ C); fin; assumption. }
  assert (DIRECT : ms = [] -> CI r h (cl <| c_pc := RunW KDirect iov (nbytes iov) (has (c_flags cl) SHR_NONBLOCK) |>) ms).
  { intros Em. apply CIi_pc; [exact C|]. unfold pc_ok; fin.
    repeat (split; [assumption|]). split; [reflexivity|]. split; [exact Em|exact WAIT]. }
  unfold go_write. destruct (has (c_flags cl) SHR_BUFFERED) eqn:Eb.
  - pose proof (ho_nsz _ _ HC). pose proof (ho_vvt _ _ HC). pose proof (nbytes_nonneg ms). pose proof (zlen_nonneg ms).
    rewrite (ho_n _ _ HC), (ho_vm _ _ HC). rewrite !u64_small by lia.
    destruct (Z.leb_spec (nbytes iov) (ca_sz (c_cache cl) - nbytes ms)) as [L1|L1];
    destruct (Z.leb_spec (zlen iov) (ca_vt (c_cache cl) - zlen ms)) as [L2|L2]; cbn [andb].
    1: { left. destruct (sink_ok iov (c_cache cl) ms HC) as (ca' & E & H' & S' & V'); try lia; [apply Hi|].
         rewrite E. cbn [obind]. eexists. split; [reflexivity|]. split.
         - apply CIi_pc; [|exact Logic.I]. unfold CIi.
           replace ((cl <| c_cache := ca' |>) <| c_pc := Idle |>) with ((cl <| c_pc := Idle |>) <| c_cache := ca' |>) by (destruct cl; reflexivity).
           apply (CI_cache _ _ _ _ _ _ C); fin; try lia; try assumption.
           + unfold buffered; fin. rewrite Hw, Eb; discriminate.
           + exact Logic.I.
         - fin. split; [reflexivity|]. split; reflexivity. }
    all: right; destruct (nbytes ms =? 0) eqn:E0.
    1,3,5: exists KDirect, iov; split; [reflexivity|]; 
      assert (ms = []) by (eapply cache_empty; [exact HC|rewrite (ho_n _ _ HC); exact E0]);
      split; [apply DIRECT; assumption|left; repeat split; assumption].
    all: assert (Hm : ms <> []) by (eapply cache_nonempty; [exact HC|rewrite (ho_n _ _ HC); exact E0]);
      rewrite (cached_ok _ _ HC); cbn [obind];
      pose proof (iov_of_cache _ _ _ _ C Hm) as IM;
      pose proof (ci_n _ _ _ _ C) as En; pose proof (ci_mm _ _ _ _ C) as Em; fin;
      rewrite En, Em; rewrite (iov_ok_check (r_n r) (r_mm r) ms ltac:(lia) IM);
      exists (KThen iov (nbytes iov)), ms; split; [reflexivity|];
      split; [|right; repeat split; assumption];
      apply CIi_pc; [exact C|]; unfold pc_ok; fin;
      repeat (split; [assumption|]); split; [reflexivity|]; split; [|exact WAIT];
      cbn [kont_ok]; repeat (split; [first [reflexivity|assumption]|]); first [reflexivity|assumption].
  - right. exists KDirect, iov. split; [reflexivity|].
    assert (ms = []).
    { apply (ci_unb _ _ _ _ C). unfold buffered; fin. rewrite Eb. apply andb_false_r. }
    split; [apply DIRECT; assumption|left; repeat split; assumption].
Qed.

Lemma flush_write_ok r h cl ms k nb : Inv r h -> CIi r h cl ms ->
  has (c_flags cl) SHR_WRONLY = true -> ms <> [] -> k = KFlush \/ k = KClose ->
  (nb = false -> r_drop r = false -> is_wait (c_r2w cl)) ->
  flush_write cl k nb = Ok (cl <| c_pc := RunW k ms (nbytes ms) nb |>, [])
  /\ CI r h (cl <| c_pc := RunW k ms (nbytes ms) nb |>) ms.
Proof.
  intros I C Hw Hm Hk Hnb. destruct (inv_bounds _ _ I) as [Bn Bm].
  pose proof (ci_ca _ _ _ _ C) as HC. fin. pose proof (iov_of_cache _ _ _ _ C Hm) as IM.
  unfold flush_write. rewrite (cached_ok _ _ HC); cbn [obind].
  pose proof (ci_n _ _ _ _ C) as En; pose proof (ci_mm _ _ _ _ C) as Em; fin.
  rewrite En, Em; rewrite (iov_ok_check (r_n r) (r_mm r) ms ltac:(lia) IM).
  split; [reflexivity|]. apply CIi_pc; [exact C|]. unfold pc_ok; fin.
  repeat (split; [assumption|]). split; [reflexivity|]. split; [|exact Hnb].
  destruct Hk; subst; reflexivity.
Qed.

(** end of the unbuffered write of [iov] with value [v] *)
Lemma end_write_ok r h cl ms k iov v : Inv r h -> CIi r h cl ms ->
  has (c_flags cl) SHR_WRONLY = true -> iov_ok (r_n r) (r_mm r) iov -> kont_ok r cl ms iov k ->
  exists cl' rs ms', end_write cl k iov v = Ok (cl', rs) /\ CI r h cl' ms'.
Proof.
  intros I C Hw Hi Hk. destruct k as [|iov' len'| |]; cbn [end_write kont_ok] in *.
  - exists (cl <| c_pc := Idle |>), [RetWrite iov v], ms. split; [reflexivity|exact C].
  - destruct Hk as (-> & Hb & Hi' & ->). destruct (v <=? 0).
    + exists (cl <| c_pc := Idle |>), [RetWrite iov' v], ms. split; [reflexivity|exact C].
    + destruct (go_write_ok r h (cl <| c_cache := clear_cache (c_cache cl) |>) [] iov' I (CIi_clear _ _ _ _ C))
        as [(cl' & E & C' & _)|(k1 & iov1 & E & C' & _)]; fin; try assumption.
      * rewrite E. eauto.
      * rewrite E. eauto.
  - subst. destruct (v >? 0).
    + eexists _, _, []. split; [reflexivity|]. apply CIi_pc; [apply CIi_clear in C; exact C|exact Logic.I].
    + eexists _, _, ms. split; [reflexivity|].
      replace (cl <| c_cache := c_cache cl |> <| c_pc := Idle |>) with (cl <| c_pc := Idle |>) by (destruct cl; reflexivity). exact C.
  - subst. destruct (v >? 0).
    + eexists _, _, []. split; [reflexivity|]. apply CIi_pc; [apply CIi_clear in C; exact C|exact Logic.I].
    + eexists _, _, ms. split; [reflexivity|].
      apply CIi_pc; [|exact Logic.I].
      replace (cl <| c_cache := c_cache cl |>) with cl by (destruct cl; reflexivity). exact C.
Qed.

(** ** starting a call *)
Lemma start_call_ok r h cl ms x : Inv r h -> CI r h cl ms -> c_live cl = true -> c_pc cl = Idle ->
  call_ok r (c_flags cl) x ->
  exists cl' rs ms', start_call cl x = Ok (cl', rs) /\ CI r h cl' ms'.
Proof.
  intros I C Hl Hpc Hx. destruct (inv_bounds _ _ I) as [Bn Bm].
  pose proof (CI_CIi _ _ _ _ C) as Ci. pose proof (ci_ca _ _ _ _ C) as HC.
  destruct x as [buf niov|iov|wait| |reset|reset|get st sz|fd| ]; cbn [start_call call_ok] in *.
  - destruct Hx as [Hr Hn]. rewrite Hr.
    destruct ((zlen buf =? 0) || (niov =? 0)) eqn:E; [eexists _, _, ms; split; [reflexivity|exact C]|].
    apply orb_false_iff in E. destruct E as [E1 E2]. apply Z.eqb_neq in E1, E2. pose proof (zlen_nonneg buf).
    eexists _, _, ms. split; [reflexivity|]. apply CIi_pc; [exact Ci|]. unfold pc_ok; fin. split; [exact Hr|]. lia.
  - destruct Hx as (Hw & Hb & Hne). unfold start_write. rewrite Hw.
    rewrite (ci_n _ _ _ _ C), (ci_mm _ _ _ _ C).
    destruct (wr_check_iff (r_n r) (r_mm r) iov ltac:(lia) Hb Hne) as [[Hi ->]|[_ ->]].
    + destruct (go_write_ok r h cl ms iov I Ci Hw Hi) as [(cl' & E & C' & _)|(k & iov1 & E & C' & _)]; rewrite E; eauto.
    + eexists _, _, ms; split; [reflexivity|exact C].
  - unfold start_flush. rewrite Hx. destruct (ca_n (c_cache cl) =? 0) eqn:E0; [eexists _, _, ms; split; [reflexivity|exact C]|].
    pose proof (cache_nonempty _ _ HC E0) as Hm.
    pose proof (ci_wr _ _ _ _ C Hx) as [_ Hr2w].
    destruct (has (c_flags cl) SHR_NONBLOCK) eqn:En; cbn [andb].
    + destruct wait.
      * destruct (c_r2w cl) as [b|] eqn:Er.
        -- destruct (flush_write_ok r h cl ms KFlush false I Ci Hx Hm (or_introl eq_refl)) as [E C'].
           { intros _ _. rewrite Er. destruct Hr2w as [X|X]; [discriminate|exact X]. }
           rewrite E. eauto.
        -- eexists _, _, ms. split; [reflexivity|]. apply CIi_pc; [exact Ci|]. unfold pc_ok; fin. auto.
      * destruct (flush_write_ok r h cl ms KFlush true I Ci Hx Hm (or_introl eq_refl)) as [E C']; [discriminate|].
        rewrite E; eauto.
    + destruct (flush_write_ok r h cl ms KFlush false I Ci Hx Hm (or_introl eq_refl)) as [E C'].
      { intros _; apply (ci_wb _ _ _ _ C Hx En). }
      rewrite E; eauto.
  - unfold start_close. destruct (ca_n (c_cache cl) =? 0) eqn:E0.
    + eexists _, _, ms. split; [reflexivity|]. apply CIi_pc; [exact Ci|exact Logic.I].
    + pose proof (cache_nonempty _ _ HC E0) as Hm.
      assert (Hw : has (c_flags cl) SHR_WRONLY = true).
      { destruct (has (c_flags cl) SHR_WRONLY) eqn:Hw; [reflexivity|]. exfalso. apply Hm.
        apply (ci_unb _ _ _ _ C). unfold buffered. rewrite Hw. reflexivity. }
      rewrite Hw.
      destruct (flush_write_ok r h cl ms KClose (has (c_flags cl) SHR_NONBLOCK) I Ci Hw Hm (or_intror eq_refl)) as [E C'].
      { apply (ci_wb _ _ _ _ C Hw). }
      rewrite E; eauto.
  - eexists _, _, ms. split; [reflexivity|]. apply CIi_pc; [exact Ci|exact Logic.I].
  - unfold do_farm_stat. rewrite Hx. cbn [obind]. eexists _, _, ms. split; [reflexivity|].
    destruct reset; [|exact C]. destruct C as [? ? ? ? ? ? ? ? ? ? ? P]; constructor; fin; try assumption.
  - eexists _, _, ms. split; [reflexivity|]. apply CIi_pc; [exact Ci|]. exact Hx.
  - unfold do_ctl. pose proof (ci_role _ _ _ _ C) as Hro.
    destruct (has (c_flags cl) SHR_WRONLY) eqn:Hw; cbn [negb] in Hro.
    + pose proof (ci_wr _ _ _ _ C Hw) as [_ Hr2w].
      destruct Hr2w as [E|(n & s & p & E)]; rewrite E; cbn [obind bw_ctl].
      * fin. rewrite Hro. cbn [obind]. eexists _, _, ms; split; [reflexivity|exact C].
      * destruct (existsb (Z.eqb fd) p); cbn [obind]; fin; rewrite Hro; cbn [obind]; eexists _, _, ms; (split; [reflexivity|]);
        (destruct C as [? ? ? ? ? CW CB ? ? ? ? P]; constructor; fin; try assumption;
         try solve [congruence
         |intros Hx'; destruct (CW Hx') as [? ?]; split; [assumption|right; repeat eexists]
         |intros; repeat eexists
         |unfold pc_ok in *; fin; rewrite Hpc in *; exact Logic.I]).
    + cbn [obind]. rewrite Hro.
      pose proof (ci_rd _ _ _ _ C Hro) as [(n & s & p & E) _]. rewrite E. cbn [obind bw_ctl].
      destruct (existsb (Z.eqb fd) p); cbn [obind]; eexists _, _, ms; (split; [reflexivity|]);
      (destruct C as [? ? ? CR ? ? ? ? ? ? ? P]; constructor; fin; try assumption;
         try solve [intros Hx'; destruct (CR Hx') as [? ?]; split; [repeat eexists|assumption]
         |congruence
         |unfold pc_ok in *; fin; rewrite Hpc in *; exact Logic.I]).
  - eexists _, _, ms; split; [reflexivity|exact C].
Qed.

(** ** opening *)
Ltac nopen := repeat (split; [reflexivity || assumption |]); first [solve [intros; congruence] | split; [intros; congruence|reflexivity]].
Lemma roles_excl flags : validate_flags flags = true ->
  has flags SHR_RDONLY && has flags SHR_WRONLY = false ->
  has flags SHR_RDONLY = negb (has flags SHR_WRONLY).
Proof.
  unfold validate_flags, has. intros H1 H2. apply andb_true_iff in H1. destruct H1 as [H1 _].
  destruct (Z.eqb_spec (Z.land flags SHR_RDONLY) 0) as [E1|E1];
  destruct (Z.eqb_spec (Z.land flags SHR_WRONLY) 0) as [E2|E2]; cbn [negb andb] in *; try reflexivity; try discriminate.
  rewrite E1, E2 in H1. discriminate.
Qed.

Lemma open_blockwake_ok e w flags pid : has flags SHR_RDONLY = negb (has flags SHR_WRONLY) ->
  exists w' o, open_blockwake e w flags pid = Ok (w', o)
    /\ w_ring w' = w_ring w /\ w_cl w' = w_cl w /\ w_fsz w' = w_fsz w
    /\ (forall a b, o = Some (a, b) ->
         (has flags SHR_RDONLY = true -> is_wait a /\ is_wake b) /\
         (has flags SHR_WRONLY = true -> is_wake a /\ (b = None \/ is_wait b)) /\
         (has flags SHR_WRONLY = true -> has flags SHR_NONBLOCK = false -> r_drop (w_ring w) = false -> is_wait b)).
Proof.
  intros Hro. unfold open_blockwake. destruct (has flags SHR_WRONLY) eqn:Hw; cbn [negb] in Hro; rewrite Hro.
  - cbn [obind]. destruct (bw_open_wake e (w_ks w) (w_w2r w)) as [h1 a] eqn:Ea.
    destruct a as [x|].
    2: { eexists _, _. split; [reflexivity|]. repeat split; intros; discriminate. }
    pose proof (bw_open_wake_mode _ _ _ _ _ Ea) as Hx.
    cbn [w_ring w_ks w_w2r w_r2w w_cl w_fsz set].
    destruct (negb (has flags SHR_NONBLOCK) && negb (r_drop (w_ring w))) eqn:Eb.
    + destruct (bw_open_wait e (w_ks w) (w_r2w w) pid (e_name e)) as [[ks h2] b'] eqn:Eo.
      destruct b' as [y|].
      * pose proof (bw_open_wait_mode _ _ _ _ _ _ _ _ Eo) as Hy.
        eexists _, _. split; [reflexivity|]. repeat (split; [reflexivity|]).
        intros a b E. inj E. split; [discriminate|]. split; [intros _; split; [exact Hx|right; exact Hy]|].
        intros; exact Hy.
      * cbn [w_ks w_w2r w_r2w set]. destruct (bw_close ks h1 x) as [ks' bh'].
        eexists _, _. split; [reflexivity|]. nopen.
    + eexists _, _. split; [reflexivity|]. repeat (split; [reflexivity|]).
      intros a b E. inj E. split; [discriminate|]. split; [intros _; split; [exact Hx|left; reflexivity]|].
      intros _ H1 H2. rewrite H1, H2 in Eb. discriminate.
  - destruct (bw_open_wait e (w_ks w) (w_w2r w) pid (e_name e)) as [[ks h1] a] eqn:Eo.
    cbn [w_ring w_ks w_w2r w_r2w w_cl w_fsz set].
    destruct (bw_open_wake e ks (w_r2w w)) as [h2 b] eqn:Ea.
    cbn [w_ring w_ks w_w2r w_r2w w_cl w_fsz set].
    destruct a as [x|]; [|destruct b as [y|]].
    2: { cbn [obind w_ks w_w2r w_r2w set]. destruct (bw_close ks h2 y) as [ks' bh'].
         eexists _, _. split; [reflexivity|]. nopen. }
    2: { cbn [obind]. eexists _, _. split; [reflexivity|]. nopen. }
    pose proof (bw_open_wait_mode _ _ _ _ _ _ _ _ Eo) as Hx.
    destruct b as [y|].
    2: { cbn [obind w_ks w_w2r w_r2w set]. destruct (bw_close ks h1 x) as [ks' bh'].
         eexists _, _. split; [reflexivity|]. nopen. }
    pose proof (bw_open_wake_mode _ _ _ _ _ Ea) as Hy.
    destruct Hx as (n & s & p & Hx). inj Hx.
    destruct (bw_force_ok e ks n s p (negb (r_u (w_ring w) =? 0))) as (ks2 & ok & Ef). rewrite Ef. cbn [obind].
    destruct ok; cbn [obind].
    + eexists _, _. split; [reflexivity|]. repeat (split; [reflexivity|]).
      intros a b E. inj E. split; [intros _; split; [repeat eexists|exact Hy]|]. split; intros; discriminate.
    + cbn [w_ring w_ks w_w2r w_r2w w_cl w_fsz set].
      destruct (bw_close ks2 h2 y) as [ks3 bh3]. cbn [w_ring w_ks w_w2r w_r2w w_cl w_fsz set].
      destruct (bw_close ks3 h1 (Wait n s p)) as [ks4 bh4]. cbn [obind].
      eexists _, _. split; [reflexivity|]. nopen.
Qed.

Lemma cache_sz_le n : 0 <= n -> 0 <= cache_sz n <= n.
Proof.
  intros H. unfold cache_sz. pose proof (Z.div_pos n 10 H ltac:(lia)). pose proof (Z.div_le_upper_bound n 10 n ltac:(lia) ltac:(lia)).
  destruct (n / 10 >? 1024 * 1024 * 1024) eqn:E1; destruct (_ <? 1024) eqn:E2; rewrite ?Z.gtb_ltb, ?Z.ltb_lt, ?Z.ltb_ge in *; lia.
Qed.
Lemma cache_vt_le mm : 0 <= mm -> 0 <= cache_vt mm <= mm.
Proof. intros H. unfold cache_vt. destruct (Z.ltb_spec 10000 mm); lia. Qed.

Lemma init_cache_ok e r flags ca : 0 < r_n r -> 0 < r_mm r -> init_cache e r flags = Some ca ->
  holds ca [] /\ ca_sz ca <= r_n r /\ ca_vt ca <= r_mm r
  /\ (if has flags SHR_WRONLY && has flags SHR_BUFFERED
      then ca_sz ca = cache_sz (r_n r) /\ ca_vt ca = cache_vt (r_mm r) else ca = cache0).
Proof.
  intros Hn Hm. unfold init_cache.
  pose proof (cache_sz_le (r_n r) ltac:(lia)). pose proof (cache_vt_le (r_mm r) ltac:(lia)).
  assert (HC : holds cache0 []) by (constructor; try reflexivity; cbn; try lia; constructor).
  destruct (has flags SHR_WRONLY); cbn [negb orb andb].
  2: { intros E; inj E. split; [exact HC|]. cbn; repeat split; lia. }
  destruct (has flags SHR_BUFFERED); cbn [negb orb andb].
  2: { intros E; inj E. split; [exact HC|]. cbn; repeat split; lia. }
  destruct (e_alloc e); cbn [negb]; [|discriminate]. intros E; inj E.
  split; [|cbn [ca_sz ca_vt]; repeat split; lia].
  constructor; cbn [ca_buf ca_sz ca_n ca_iov ca_vt ca_vm]; rewrite ?nbytes_nil, ?zlen_nil; try reflexivity; try lia.
  - rewrite zlen_repeat. lia.
  - rewrite zlen_repeat. lia.
  - constructor.
Qed.

Lemma do_open_ok e w flags pid h : Inv (w_ring w) h -> contract w (AOpen e flags pid) ->
  exists w' o, do_open e w flags pid = Ok (w', o)
    /\ w_ring w' = w_ring w /\ w_cl w' = w_cl w /\ w_fsz w' = w_fsz w
    /\ (forall cl, o = Some cl -> CI (w_ring w) h cl [] /\ c_live cl = true /\ c_pc cl = Idle
         /\ c_flags cl = flags /\ c_q cl = r_q (w_ring w) /\ c_md cl = 0
         /\ validate_flags flags = true).
Proof.
  intros I (_ & _ & Hex). destruct (inv_bounds _ _ I) as [Bn Bm]. unfold do_open.
  destruct (validate_flags flags) eqn:Hv; cbn [negb].
  2: { eexists _, _. split; [reflexivity|]. nopen. }
  pose proof (roles_excl _ Hv Hex) as Hro.
  destruct (e_lock e); cbn [negb].
  2: { eexists _, _. split; [reflexivity|]. nopen. }
  destruct (validate_ring (w_fsz w) true (w_ring w) <? 0).
  { eexists _, _. split; [reflexivity|]. nopen. }
  destruct (has (r_gflags (w_ring w)) SHR_MLOCK && negb (e_alloc e)).
  { eexists _, _. split; [reflexivity|]. nopen. }
  destruct (open_blockwake_ok e w flags pid Hro) as (w' & o & E & E1 & E2 & E3 & Ho). rewrite E. cbn [obind].
  destruct o as [[a b]|].
  2: { eexists _, _. split; [reflexivity|]. nopen. }
  destruct (Ho a b eq_refl) as (O1 & O2 & O3).
  destruct (init_cache e (w_ring w) flags) as [ca|] eqn:Eca.
  2: { eexists _, _. split; [reflexivity|]. nopen. }
  destruct (init_cache_ok e (w_ring w) flags ca ltac:(lia) ltac:(lia) Eca) as (HC & S1 & S2 & _).
  destruct (shr_sync e (w_ring w)).
  2: { eexists _, _. split; [reflexivity|]. nopen. }
  eexists _, _. split; [reflexivity|]. repeat (split; [assumption|]).
  intros cl Ecl. inj Ecl. split; [|repeat split].
  constructor; cbn [c_live c_pid c_flags c_q c_md c_w2r c_r2w c_cache c_n c_mm c_pc]; try assumption; try reflexivity.
  intros _. pose proof (i_q _ _ (i_inv0 _ _ I)) as Eq. pose proof (w_old _ _ _ (i_win _ _ (i_inv0 _ _ I))) as Ho'.
  pose proof (i_m _ _ (i_inv0 _ _ I)).
  rewrite Eq. pose proof (u64_range (zlen h - r_mp (w_ring w))).
  unfold u64 in *. pose proof (Z.mod_le (zlen h - r_mp (w_ring w)) W64 ltac:(lia) ltac:(lia)). lia.
Qed.

(** ** shr_appdata *)
Lemma do_app_ok e r get st sz : zlen (r_app r) = r_app_len r -> app_args_ok r get st sz ->
  exists r' x, do_app e r get st sz = Ok (r', x)
    /\ r' = r <| r_app := r_app r' |> /\ zlen (r_app r') = r_app_len r
    /\ (forall a b c, x <> RetRead a b c) /\ read_msgs x = [].
Proof.
  intros Ha (Hsz & Hargs). unfold do_app. pose proof (zlen_nonneg (r_app r)) as Ha0.
  assert (R : r = r <| r_app := r_app r |>) by (destruct r; reflexivity).
  destruct (e_lock e); cbn [negb]; [|eexists _, _; nopen].
  destruct (r_app_len r =? 0); [eexists _, _; nopen|].
  destruct get as [| |b]; destruct st as [s|].
  - destruct (Z.eqb_spec sz (r_app_len r)); cbn [negb]; [|eexists _, _; nopen].
    rewrite rd_mem_ok by lia. cbn [obind]. rewrite sub_0_all by lia. rewrite wr_mem_ok by lia. cbn [obind].
    eexists _, _. split; [reflexivity|]. split; [destruct r; reflexivity|].
    split; [cbn [r_app set]; rewrite zlen_blit by lia; assumption|]. split; [discriminate|reflexivity].
  - eexists _, _; nopen.
  - eexists _, _; nopen.
  - destruct (e_alloc e); cbn [negb]; [|eexists _, _; nopen].
    rewrite rd_mem_ok by lia. cbn [obind]. eexists _, _; nopen.
  - destruct Hargs as [Hb Hs].
    destruct (Z.eqb_spec sz (r_app_len r)); cbn [negb]; [|eexists _, _; nopen].
    rewrite rd_mem_ok by lia. cbn [obind]. rewrite wr_mem_ok by (rewrite ?zlen_sub by lia; lia). cbn [obind].
    rewrite rd_mem_ok by lia. cbn [obind]. rewrite sub_0_all with (l := s) by lia. rewrite wr_mem_ok by lia. cbn [obind].
    eexists _, _. split; [reflexivity|]. split; [destruct r; reflexivity|].
    split; [cbn [r_app set]; rewrite zlen_blit by lia; assumption|]. split; [discriminate|reflexivity].
  - destruct Hargs as [Hb Hs].
    destruct (sz <? r_app_len r); [eexists _, _; nopen|].
    rewrite rd_mem_ok by lia. cbn [obind]. rewrite wr_mem_ok by (rewrite ?zlen_sub by lia; lia). cbn [obind].
    eexists _, _; nopen.
Qed.
Lemma inv_app r h a : Inv r h -> Inv (r <| r_app := a |>) h.
Proof.
  intros [I F]. constructor; [|intros H; apply F; exact H].
  destruct I as [W ? ? ? ? ?]; constructor; cbn [r_mp r_m r_e r_r r_q r_u r_mm set]; try assumption.
  eapply win_ext; [exact W|reflexivity..].
Qed.

(** ** events *)
Lemma committed_app a b : committed (a ++ b) = committed a ++ committed b.
Proof. apply flat_map_app. Qed.
Lemma delivered_app a b : delivered (a ++ b) = delivered a ++ delivered b.
Proof. apply flat_map_app. Qed.
Lemma committed_rets c rs : committed (rets c rs) = [].
Proof. induction rs as [|x rs IH]; [reflexivity|exact IH]. Qed.
Lemma committed_ret c x l : committed (ERet c x :: l) = committed l.
Proof. reflexivity. Qed.

Lemma seq_bound_app r a b : seq_bound r (a ++ b) -> seq_bound r a.
Proof.
  intros H F. specialize (H F). rewrite committed_app, zlen_app in H.
  pose proof (zlen_nonneg (committed b)). lia.
Qed.
Lemma CI_qok r h cl ms : CI r h cl ms -> (r_farm r = true -> zlen h < W64) -> qok r h (c_q cl).
Proof. intros C H F. split; [apply H, F|apply (ci_q _ _ _ _ C F)]. Qed.

(** ** no step goes wrong *)
Lemma ring_write_total r h iov : Inv r h -> iov_ok (r_n r) (r_mm r) iov ->
  (ring_write r (r_mm r) iov (nbytes iov) = Ok None /\ r_drop r = false
     /\ room (r_n r) (r_mm r) iov (ring_unread r) = false)
  \/ exists r', ring_write r (r_mm r) iov (nbytes iov) = Ok (Some r') /\ Inv r' (h ++ iov)
     /\ same_fixed r r'.
Proof.
  intros I Hi. destruct (ring_write_ok r h iov I Hi) as [A B].
  destruct (r_drop r) eqn:Hd; [right; destruct (B (or_introl eq_refl)) as (r' & E & I' & S & _); eauto|].
  destruct (room (r_n r) (r_mm r) iov (ring_unread r)) eqn:Er.
  - right; destruct (B (or_intror eq_refl)) as (r' & E & I' & S & _); eauto.
  - left. split; [apply A; reflexivity|]. split; reflexivity.
Qed.

Lemma CI_w2r r h cl ms hw : CI r h cl ms -> has (c_flags cl) SHR_WRONLY = true ->
  is_wake (Some hw) -> CI r h (cl <| c_w2r := Some hw |>) ms.
Proof.
  intros C Hw Hh. pose proof (ci_role _ _ _ _ C) as Hr. destruct C as [? ? ? CR ? CW CB ? ? ? ? P]; constructor; fin; try assumption.
  - intros Hx. rewrite Hr, Hw in Hx. discriminate.
  - intros Hx. destruct (CW Hx). split; assumption.
Qed.
Lemma CI_r2w r h cl ms hr : CI r h cl ms -> has (c_flags cl) SHR_RDONLY = true -> c_pc cl = Idle ->
  is_wake hr -> CI r h (cl <| c_r2w := hr |>) ms.
Proof.
  intros C Hw Hp Hh. pose proof (ci_role _ _ _ _ C) as Hr. destruct C as [? ? ? CR ? CW CB ? ? ? ? P]; constructor; fin; try assumption.
  - intros Hx. destruct (CR Hx). split; assumption.
  - intros Hx. rewrite Hw, Hx in Hr. discriminate.
  - intros Hx. rewrite Hw, Hx in Hr. discriminate.
  - unfold pc_ok; fin; rewrite Hp; exact Logic.I.
Qed.
Lemma CI_qmd r h cl ms q md : CI r h cl ms -> (r_farm r = true -> 0 <= q <= zlen h) ->
  CI r h (cl <| c_q := q |> <| c_md := md |>) ms.
Proof. intros C Hq. destruct C as [? ? ? CR ? CW CB ? ? ? ? P]; constructor; fin; assumption. Qed.

Lemma step_total w0 w evs a : WI w0 w evs -> seq_bound (w_ring w) evs -> contract w a ->
  exists w' ev, step w a = Ok (w', ev).
Proof.
  intros W HF HC. pose proof (wi_ring _ _ _ W) as I.
  destruct a as [e flags pid|c x|c e|c|c|c fd|c]; cbn [step].
  - destruct (do_open_ok e w flags pid _ I HC) as (w' & o & E & _). rewrite E. cbn [obind]. destruct o; eauto.
  - destruct (c_live (cli w c)) eqn:El; cbn [negb]; [|eauto]. destruct (c_pc (cli w c)) eqn:Epc; eauto.
    destruct (wi_cl _ _ _ W c El) as [ms C].
    destruct (start_call_ok _ _ _ _ x I C El Epc (HC El Epc)) as (cl' & rs & ms' & E & _). rewrite E. cbn [obind]. eauto.
  - destruct (c_live (cli w c)) eqn:El; [|eauto]. destruct (wi_cl _ _ _ W c El) as [ms C].
    pose proof (ci_pc _ _ _ _ C) as P. pose proof (CI_CIi _ _ _ _ C) as Ci. unfold pc_ok in P. unfold run_client.
    destruct (c_pc (cli w c)) as [ |k iov len nb| |buf niov| | | |reset|get st sz] eqn:Epc; eauto.
    + destruct P as (Hw & Hi & -> & Hk & Hnb). unfold crit_write.
      destruct (e_lock e); cbn [negb obind].
      2: { destruct (end_write_ok _ _ _ _ k iov (-1) I Ci Hw Hi Hk) as (cl' & rs & ms' & E & _). rewrite E. cbn [obind]; eauto. }
      rewrite (ci_mm _ _ _ _ C).
      destruct (ring_write_total _ _ iov I Hi) as [(E & Hd & _)|(r' & E & I' & S)]; rewrite E; cbn [obind].
      * destruct nb; cbn [obind].
        -- destruct (end_write_ok _ _ _ _ k iov 0 I Ci Hw Hi Hk) as (cl' & rs & ms' & E' & _). rewrite E'. cbn [obind]; eauto.
        -- destruct (Hnb eq_refl Hd) as (n & s & p & ->). cbn [obind]. eauto.
      * destruct (ci_wr _ _ _ _ C Hw) as [(q & cs & Eh) _]. rewrite Eh.
        destruct (bw_wake_ok e (w_ks w) (w_w2r w) q cs) as (ks & bh & q' & cs' & ok & Eb). rewrite Eb. cbn [obind].
        assert (C2 : CI r' (committed evs ++ iov) ((cli w c) <| c_w2r := Some (Wake q' cs') |>) ms).
        { apply CI_w2r; try assumption; [|repeat eexists].
          apply (CI_mono _ _ _ _ _ _ C (same_fixed_dims _ _ S)). rewrite zlen_app. pose proof (zlen_nonneg iov). lia. }
        assert (K2 : forall v, exists cl' rs, end_write ((cli w c) <| c_w2r := Some (Wake q' cs') |>) k iov v = Ok (cl', rs)).
        { intros v. destruct (end_write_ok _ _ _ _ k iov v I' (CI_CIi _ _ _ _ C2)) as (cl' & rs & ms' & E' & _); eauto.
          - destruct S as (_ & -> & -> & _). exact Hi.
          - destruct S as (_ & En & Em & _). destruct k; cbn [kont_ok] in *; rewrite ?En, ?Em; exact Hk. }
        destruct ok; cbn [obind].
        -- destruct (K2 (if shr_sync e (stat_wrote r' (nbytes iov) (zlen iov)) then nbytes iov else -1)) as (cl' & rs & E').
           rewrite E'. cbn [obind]; eauto.
        -- destruct (K2 (-1)) as (cl' & rs & E'). rewrite E'. cbn [obind]; eauto.
    + destruct P as (Hr & Hb & Hn). unfold crit_read. destruct (e_lock e); cbn [negb obind]; [|eauto].
      pose proof (CI_qok _ _ _ _ C HF) as Hq.
      destruct (ci_rd _ _ _ _ C Hr) as [(n & s & p & Eh) (q1 & cs & Er)].
      destruct (ring_read_ok _ _ _ (c_md (cli w c)) buf niov I Hq Hb Hn) as [R1 R2].
      set (avail := skipn _ _) in R1, R2.
      destruct avail as [|m t] eqn:Ea.
      * rewrite (R1 eq_refl). cbn [obind]. fin. rewrite Eh. destruct (has (c_flags (cli w c)) SHR_NONBLOCK); cbn [obind].
        -- destruct (bw_force_ok e (w_ks w) n s p false) as (ks & ok & Ef). rewrite Ef. cbn [obind]. eauto.
        -- eauto.
      * destruct (R2 ltac:(discriminate)) as (x & cur' & E & _). rewrite E. cbn [obind].
        destruct (rd_nr x >? 0).
        -- fin. rewrite Er. cbn [w_ks w_r2w set].
           destruct (bw_wake_ok e (w_ks w) (w_r2w w) q1 cs) as (ks & bh & q' & cs' & ok & Eb). rewrite Eb. cbn [obind]. fin.
           rewrite Eh. cbn [w_ks set].
           destruct (bw_force_ok e ks n s p (match cur' with Some _ => true | None => false end)) as (ks2 & ok2 & Ef). rewrite Ef. cbn [obind]. eauto.
        -- cbn [obind]. fin. rewrite Eh. cbn [w_ks set].
           destruct (bw_force_ok e (w_ks w) n s p (match cur' with Some _ => true | None => false end)) as (ks2 & ok2 & Ef). rewrite Ef. cbn [obind]. eauto.
    + destruct P as (Hw & Hm & Hr). destruct (e_lock e); cbn [negb]; [|eauto].
      destruct (bw_open_wait e (w_ks w) (w_r2w w) (c_pid (cli w c)) (e_name e)) as [[ks h] o] eqn:Eo.
      destruct o as [b|]; [|eauto].
      destruct (bw_open_wait_mode _ _ _ _ _ _ _ _ Eo) as (n & s & p & Eb). injection Eb as ->.
      assert (C2 : CIi (w_ring w) (committed evs) ((cli w c) <| c_r2w := Some (Wait n s p) |>) ms).
      { unfold CIi in *. destruct Ci as [? ? ? CR ? CW CB ? ? ? ? PP]; constructor; fin; try assumption.
        - intros Hx. rewrite Hx in *. exfalso. rewrite Hw in *. discriminate.
        - intros Hx. destruct (CW Hx). split; [assumption|right; repeat eexists].
        - intros; repeat eexists. }
      destruct (flush_write_ok _ _ _ _ KFlush false I C2 Hw Hm (or_introl eq_refl)) as [E _]; [intros; repeat eexists|].
      rewrite E. cbn [obind]. eauto.
    + destruct (do_stat e (w_ring w) (cli w c) reset). eauto.
    + destruct (do_app_ok e _ _ _ _ (wi_app _ _ _ W) P) as (r' & x & E & _). rewrite E. cbn [obind]. eauto.
  - destruct (wait_sid (cli w c)) as [[sid p]|]; [|eauto]. destruct (k_pend (sk (w_ks w) sid) >? 0); eauto.
  - assert (K : forall sc, exists w' ev, wait_failed w c sc = Ok (w', ev)).
    { intros sc. unfold wait_failed. destruct (c_pc (cli w c)) as [ | |k iov len nb| | | | | |] eqn:Epc; eauto.
      destruct (c_live (cli w c)) eqn:El; [|rewrite (wi_dead _ _ _ W c El) in Epc; discriminate].
      destruct (wi_cl _ _ _ W c El) as [ms C]. pose proof (ci_pc _ _ _ _ C) as P. unfold pc_ok in P. rewrite Epc in P.
      destruct P as (Hw & Hi & _ & Hk & _).
      destruct (end_write_ok _ _ _ _ k iov sc I (CI_CIi _ _ _ _ C) Hw Hi Hk) as (cl' & rs & ms' & E & _).
      rewrite E. cbn [obind]. eauto. }
    apply K.
  - destruct (wait_sid (cli w c)) as [[sid p]|]; [|eauto]. destruct (existsb (Z.eqb fd) p); [|eauto].
    unfold wait_failed. destruct (c_pc (cli w c)) as [ | |k iov len nb| | | | | |] eqn:Epc; eauto.
    destruct (c_live (cli w c)) eqn:El; [|rewrite (wi_dead _ _ _ W c El) in Epc; discriminate].
    destruct (wi_cl _ _ _ W c El) as [ms C]. pose proof (ci_pc _ _ _ _ C) as P. unfold pc_ok in P. rewrite Epc in P.
    destruct P as (Hw & Hi & _ & Hk & _).
    destruct (end_write_ok _ _ _ _ k iov (-3) I (CI_CIi _ _ _ _ C) Hw Hi Hk) as (cl' & rs & ms' & E & _).
    rewrite E. cbn [obind]. eauto.
  - destruct (c_live (cli w c)); cbn [negb]; eauto.
Qed.

(** ** the invariant is preserved *)
Lemma WI_update w0 w evs w' ev c cl' : WI w0 w evs ->
  Inv (w_ring w') (committed (evs ++ ev)) -> same_dims (w_ring w) (w_ring w') -> w_fsz w' = w_fsz w ->
  zlen (r_app (w_ring w')) = r_app_len (w_ring w') -> (c < length (w_cl w))%nat ->
  w_cl w' = set_nat (w_cl w) c cl' ->
  (c_live cl' = true -> exists ms, CI (w_ring w') (committed (evs ++ ev)) cl' ms) ->
  (c_live cl' = false -> c_pc cl' = Idle) ->
  WI w0 w' (evs ++ ev).
Proof.
  intros W I S F A Hc Ec HL HD.
  assert (K : forall c', cli w' c' = if Nat.eqb c' c then cl' else cli w c').
  { intros c'. unfold cli. rewrite Ec, nth_set_nat by exact Hc. reflexivity. }
  constructor; try assumption.
  - exact (same_dims_trans _ _ _ (wi_dims _ _ _ W) S).
  - rewrite F; apply (wi_fsz _ _ _ W).
  - intros c'. rewrite K. destruct (Nat.eqb c' c); [exact HL|]. intros Hl.
    destruct (wi_cl _ _ _ W c' Hl) as [ms C]. exists ms. apply (CI_mono _ _ _ _ _ _ C S).
    rewrite committed_app, zlen_app. pose proof (zlen_nonneg (committed ev)). lia.
  - intros c'. rewrite K. destruct (Nat.eqb c' c); [exact HD|]. apply (wi_dead _ _ _ W).
Qed.

(** steps that do not touch the ring *)
Lemma WI_same w0 w evs w' ev c cl' : WI w0 w evs -> w_ring w' = w_ring w -> w_fsz w' = w_fsz w ->
  committed ev = [] -> (c < length (w_cl w))%nat -> w_cl w' = set_nat (w_cl w) c cl' ->
  (c_live cl' = true -> exists ms, CI (w_ring w) (committed evs) cl' ms) ->
  (c_live cl' = false -> c_pc cl' = Idle) ->
  WI w0 w' (evs ++ ev).
Proof.
  intros W E F Ev Hc Ec HL HD. pose proof (wi_ring _ _ _ W).
  apply (WI_update w0 w evs w' ev c cl' W); rewrite ?committed_app, ?Ev, ?app_nil_r, ?E; try assumption.
  - apply same_dims_refl.
  - apply (wi_app _ _ _ W).
Qed.

Lemma WI_setc w0 w evs w1 ev c cl' : WI w0 w evs ->
  w_ring w1 = w_ring w /\ w_fsz w1 = w_fsz w /\ w_cl w1 = w_cl w ->
  committed ev = [] -> (c < length (w_cl w))%nat ->
  (c_live cl' = true -> exists ms, CI (w_ring w) (committed evs) cl' ms) ->
  (c_live cl' = false -> c_pc cl' = Idle) ->
  WI w0 (setc w1 c cl') (evs ++ ev).
Proof.
  intros W (E1 & E2 & E3) Ev Hc HL HD.
  apply (WI_same w0 w evs _ ev c cl'); try assumption; cbn [w_cl setc set]. rewrite E3; reflexivity.
Qed.

(** what a call does not change of the handle *)
Definition bw_same (a b : option bwt) : Prop :=
  match a, b with
  | Some (Wait n s _), Some (Wait n' s' _) => n = n' /\ s = s'
  | _, _ => a = b
  end.
Lemma bw_same_refl a : bw_same a a.
Proof. destruct a as [[|]|]; cbn; auto. Qed.
Record same_id (a b : client) : Prop := mkid {
  id_live : c_live b = c_live a; id_pid : c_pid b = c_pid a; id_flags : c_flags b = c_flags a;
  id_q : c_q b = c_q a; id_n : c_n b = c_n a; id_mm : c_mm b = c_mm a;
  id_w2r : bw_same (c_w2r a) (c_w2r b); id_r2w : bw_same (c_r2w a) (c_r2w b) }.
Lemma same_id_refl a : same_id a a.
Proof. constructor; try reflexivity; apply bw_same_refl. Qed.
Ltac sid := constructor; fin; try reflexivity; try apply bw_same_refl.

Lemma go_write_id cl iov len cl' rs : go_write cl iov len = Ok (cl', rs) -> same_id cl cl' /\ c_md cl' = c_md cl.
Proof.
  unfold go_write.
  destruct (has (c_flags cl) SHR_BUFFERED); [|intros H; inj H; split; [sid|reflexivity]].
  destruct (_ && _).
  - intros H. apply obind_ok in H. destruct H as (ca & _ & H). inj H. split; [sid|reflexivity].
  - destruct (ca_n (c_cache cl) =? 0); [intros H; inj H; split; [sid|reflexivity]|].
    intros H. apply obind_ok in H. destruct H as (ms & _ & H).
    destruct (wr_check _ _ _); inj H; (split; [sid|reflexivity]).
Qed.
Lemma end_write_id cl k iov v cl' rs : end_write cl k iov v = Ok (cl', rs) -> same_id cl cl' /\ c_md cl' = c_md cl.
Proof.
  destruct k; cbn [end_write]; intros H.
  - inj H; split; [sid|reflexivity].
  - destruct (v <=? 0); [inj H; split; [sid|reflexivity]|]. apply go_write_id in H. destruct H as [[] H]. fin.
    split; [constructor; assumption|assumption].
  - inj H; split; [sid|reflexivity].
  - inj H; split; [sid|reflexivity].
Qed.
Lemma flush_write_id cl k nb cl' rs : flush_write cl k nb = Ok (cl', rs) -> same_id cl cl' /\ c_md cl' = c_md cl.
Proof.
  unfold flush_write. intros H. apply obind_ok in H. destruct H as (ms & _ & H).
  destruct (wr_check _ _ _); [inj H; split; [sid|reflexivity]|]. destruct k; inj H; (split; [sid|reflexivity]).
Qed.
Lemma start_call_id cl x cl' rs : start_call cl x = Ok (cl', rs) ->
  same_id cl cl' /\ (c_md cl' = c_md cl \/ x = CFarmStat true).
Proof.
  destruct x as [buf niov|iov|wait| |reset|reset|get st sz|fd| ]; cbn [start_call]; intros H.
  - destruct (has _ _); [|discriminate]. destruct (_ || _); inj H; (split; [sid|left; reflexivity]).
  - unfold start_write in H. destruct (has _ _); [|discriminate].
    destruct (wr_check _ _ _); [apply go_write_id in H; tauto|inj H; split; [sid|left; reflexivity]].
  - unfold start_flush in H. destruct (has _ _); [|discriminate].
    destruct (_ =? _); [inj H; split; [sid|left; reflexivity]|].
    destruct (_ && _); [destruct (c_r2w cl)|];
      try (apply flush_write_id in H; tauto). inj H; split; [sid|left; reflexivity].
  - unfold start_close in H. destruct (_ =? _); [inj H; split; [sid|left; reflexivity]|].
    destruct (has _ _); [|discriminate]. apply flush_write_id in H; tauto.
  - inj H; split; [sid|left; reflexivity].
  - unfold do_farm_stat in H. destruct (has _ _); [|discriminate]. cbn [obind] in H. inj H.
    destruct reset; (split; [sid|]); [right|left]; reflexivity.
  - inj H; split; [sid|left; reflexivity].
  - apply obind_ok in H. destruct H as ([cl1 r] & E & H). inj H. unfold do_ctl in E.
    apply obind_ok in E. destruct E as ([cl1 sc1] & E1 & E).
    apply obind_ok in E. destruct E as ([cl2 sc2] & E2 & E). inj E.
    assert (S1 : same_id cl cl1 /\ c_md cl1 = c_md cl).
    { destruct (has (c_flags cl) SHR_WRONLY); [|inj E1; split; [sid|reflexivity]].
      destruct (c_r2w cl) as [b|] eqn:Er; [|inj E1; split; [sid|reflexivity]].
      apply obind_ok in E1. destruct E1 as ([b' ok] & Eb & E1). inj E1. split; [|reflexivity]. sid.
      rewrite Er. destruct b as [|n s p]; [discriminate|]. cbn [bw_ctl] in Eb.
      destruct (existsb _ _); inj Eb; cbn; auto. }
    assert (S2 : same_id cl1 cl' /\ c_md cl' = c_md cl1).
    { destruct (has (c_flags cl1) SHR_RDONLY); [|inj E2; split; [sid|reflexivity]].
      destruct (c_w2r cl1) as [b|] eqn:Er; [|discriminate].
      apply obind_ok in E2. destruct E2 as ([b' ok] & Eb & E2). inj E2. split; [|reflexivity]. sid.
      rewrite Er. destruct b as [|n s p]; [discriminate|]. cbn [bw_ctl] in Eb.
      destruct (existsb _ _); inj Eb; cbn; auto. }
    destruct S1 as [[] M1], S2 as [[] M2]. split; [|left; congruence].
    assert (T : forall a b c, bw_same a b -> bw_same b c -> bw_same a c).
    { clear. intros [[|? ? ?]|] [[|? ? ?]|] [[|? ? ?]|]; cbn; intuition congruence. }
    constructor; try congruence; eapply T; eassumption.
  - inj H; split; [sid|left; reflexivity].
Qed.

Lemma ring_write_inv w0 w evs c ms k iov len nb r1 :
  WI w0 w evs -> CI (w_ring w) (committed evs) (cli w c) ms ->
  (c_pc (cli w c) = RunW k iov len nb \/ c_pc (cli w c) = WaitW k iov len nb) ->
  ring_write (w_ring w) (c_mm (cli w c)) iov len = Ok (Some r1) ->
  Inv r1 (committed evs ++ iov) /\ same_fixed (w_ring w) r1.
Proof.
  intros W C Hpc E. pose proof (ci_pc _ _ _ _ C) as P. unfold pc_ok in P.
  assert (Q : iov_ok (r_n (w_ring w)) (r_mm (w_ring w)) iov /\ len = nbytes iov).
  { destruct Hpc as [Hpc|Hpc]; rewrite Hpc in P; destruct P as (_ & ? & ? & _); split; assumption. }
  destruct Q as [Hi ->]. rewrite (ci_mm _ _ _ _ C) in E.
  destruct (ring_write_total _ _ iov (wi_ring _ _ _ W) Hi) as [(E' & _)|(r' & E' & I' & S)]; rewrite E in E'; [discriminate|].
  injection E' as <-. split; assumption.
Qed.

Theorem step_WI w0 w evs a w' ev : WI w0 w evs -> seq_bound (w_ring w) evs -> contract w a ->
  step w a = Ok (w', ev) -> WI w0 w' (evs ++ ev).
Proof.
  intros W HF HC HS. pose proof (wi_ring _ _ _ W) as I. apply step_inv in HS.
  destruct HS as
   [ a
   | e flags pid w' E
   | e flags pid w' cl E
   | c x cl' rs Hl Hpc E
   | c e k iov len nb v cl' rs Hl Hpc Hv E
   | c e k iov len n s p Hl Hpc He E Er
   | c e k iov len nb r1 hw ks bh hw' wok r2 rv cl' rs Hl Hpc He E Ew Eb E2 Ev Ee
   | c e buf niov Hl Hpc He
   | c e buf niov q md h ks ok Hl Hpc He Hnb E Eh Ef
   | c e buf niov q md n s p Hl Hpc He Hnb E Eh
   | c e buf niov q md x cur' hr r2w' ks1 bh1 ks2 ok h Hl Hpc He E Eh Er Hn0 Hn1 Ef
   | c e w' Hl Hpc Hw'
   | c e ks h b cl' rs Hl Hpc He E Ee
   | c e Hl Hpc
   | c e reset r x Hl Hpc E
   | c e get st sz r x Hl Hpc E
   | c sid polls Hs Hp
   | a c sc k iov len nb cl' rs Ha Hpc E
   | a c sc buf niov Ha Hpc
   | c Hl ].
  - rewrite app_nil_r. exact W.
  - destruct (do_open_ok e w flags pid _ I HC) as (w1 & o & E' & E1 & E2 & E3 & _).
    rewrite E in E'. injection E' as <- <-.
    destruct W as [? ? ? ? CL DE]. constructor; rewrite ?committed_app, ?app_nil_r; cbn [committed flat_map app]; rewrite ?app_nil_r, ?E1, ?E3; try assumption.
    + unfold cli; rewrite E2; exact CL.
    + unfold cli; rewrite E2; exact DE.
  - destruct (do_open_ok e w flags pid _ I HC) as (w1 & o & E' & E1 & E2 & E3 & Ho).
    rewrite E in E'. injection E' as <- <-. destruct (Ho cl eq_refl) as (C & HL & HP & _).
    assert (K : forall c, cli (w' <| w_cl := w_cl w' ++ [cl] |>) c = cli w c \/ cli (w' <| w_cl := w_cl w' ++ [cl] |>) c = cl).
    { intros c. unfold cli. cbn [w_cl set]. rewrite E2. destruct (lt_eq_lt_dec c (length (w_cl w))) as [[L|L]|L].
      - left. apply app_nth1; exact L.
      - right. rewrite app_nth2 by lia. rewrite L, Nat.sub_diag. reflexivity.
      - left. rewrite !nth_overflow by (rewrite ?app_length; cbn [length]; lia). reflexivity. }
    destruct W as [? ? ? ? CL DE]. constructor; rewrite ?committed_app; cbn [committed flat_map]; rewrite ?app_nil_r; cbn [w_ring w_fsz set]; rewrite ?E1, ?E3; try assumption.
    + intros c Hl. destruct (K c) as [EK|EK]; rewrite EK in *; [apply CL; exact Hl|exists []; exact C].
    + intros c Hl. destruct (K c) as [EK|EK]; rewrite EK in *; [apply DE; exact Hl|exact HP].
  - destruct (wi_cl _ _ _ W c Hl) as [ms C].
    destruct (start_call_ok _ _ _ _ x I C Hl Hpc (HC Hl Hpc)) as (cl1 & rs1 & ms' & E' & C').
    rewrite E in E'. injection E' as <- <-.
    apply (WI_same w0 w evs _ _ c cl'); try assumption; try reflexivity.
    + apply (committed_rets c rs).
    + apply live_bound; exact Hl.
    + eauto.
    + intros HD. exfalso. apply start_call_id in E. destruct E as [[] _]. congruence.
  - destruct (wi_cl _ _ _ W c Hl) as [ms C]. pose proof (ci_pc _ _ _ _ C) as P. unfold pc_ok in P. rewrite Hpc in P.
    destruct P as (Hw & Hi & -> & Hk & _).
    destruct (end_write_ok _ _ _ _ k iov v I (CI_CIi _ _ _ _ C) Hw Hi Hk) as (cl1 & rs1 & ms' & E' & C').
    rewrite E in E'. injection E' as <- <-.
    apply (WI_setc w0 w evs); [exact W|repeat split|apply committed_rets|apply live_bound; exact Hl|eauto|].
    intros HD. apply end_write_id in E. destruct E as [[] _]. congruence.
  - destruct (wi_cl _ _ _ W c Hl) as [ms C]. pose proof (ci_pc _ _ _ _ C) as P. unfold pc_ok in P. rewrite Hpc in P.
    apply (WI_setc w0 w evs); [exact W|repeat split; assumption|reflexivity|apply live_bound; exact Hl| | ]; try reflexivity.
    + intros _. exists ms. apply CI_pc; [exact C|]. unfold pc_ok; fin. exact P.
    + fin. congruence.
  - destruct (wi_cl _ _ _ W c Hl) as [ms C]. pose proof (ci_pc _ _ _ _ C) as P. unfold pc_ok in P. rewrite Hpc in P.
    destruct P as (Hw & Hi & -> & Hk & _).
    destruct (ring_write_inv _ _ _ _ _ _ _ _ _ _ W C (or_introl Hpc) E) as [I1 S1].
    assert (I2 : Inv r2 (committed evs ++ iov)) by (subst r2; destruct wok; [apply inv_stat|]; assumption).
    assert (S2 : same_fixed (w_ring w) r2) by (subst r2; destruct wok; [unfold stat_wrote|]; exact S1).
    destruct (bw_wake_mode _ _ _ _ _ _ _ _ Eb) as [_ Hm].
    assert (C2 : CI r2 (committed evs ++ iov) ((cli w c) <| c_w2r := Some hw' |>) ms).
    { apply CI_w2r; try assumption.
      apply (CI_mono _ _ _ _ _ _ C (same_fixed_dims _ _ S2)). rewrite zlen_app. pose proof (zlen_nonneg iov). lia. }
    destruct (end_write_ok _ _ _ _ k iov rv I2 (CI_CIi _ _ _ _ C2)) as (cl1 & rs1 & ms' & E' & C'); fin; try assumption.
    { destruct S2 as (_ & -> & -> & _). exact Hi. }
    { destruct S2 as (_ & En & Em & _). destruct k; cbn [kont_ok] in *; fin; rewrite ?En, ?Em; exact Hk. }
    rewrite Ee in E'. injection E' as <- <-.
    assert (CM : committed (evs ++ ECommit c iov :: rets c rs) = committed evs ++ iov).
    { rewrite committed_app. cbn [committed flat_map]. fold (committed (rets c rs)). rewrite committed_rets, app_nil_r. reflexivity. }
    apply (WI_update w0 w evs _ _ c cl'); rewrite ?CM; cbn [w_ring w_fsz w_cl setc set]; try assumption; try reflexivity.
    + apply same_fixed_dims; exact S2.
    + destruct S2 as (_ & _ & _ & _ & _ & E6 & E7). rewrite E6, E7. apply (wi_app _ _ _ W).
    + apply live_bound; exact Hl.
    + eauto.
    + intros HD. apply end_write_id in Ee. destruct Ee as [[] _]. fin. congruence.
  - destruct (wi_cl _ _ _ W c Hl) as [ms C].
    apply (WI_setc w0 w evs); [exact W|repeat split|reflexivity|apply live_bound; exact Hl| |reflexivity].
    intros _. exists ms. apply CI_CIi; exact C.
  - destruct (wi_cl _ _ _ W c Hl) as [ms C]. pose proof (ci_pc _ _ _ _ C) as P. unfold pc_ok in P. rewrite Hpc in P.
    destruct P as (Hr & Hb & Hn).
    assert (Q : r_farm (w_ring w) = true -> 0 <= q <= zlen (committed evs)).
    { pose proof (CI_qok _ _ _ _ C HF) as Hq.
      destruct (ring_read_ok _ _ _ (c_md (cli w c)) buf niov I Hq Hb Hn) as [R1 R2].
      set (avail := skipn _ _) in R1, R2. destruct avail as [|m t] eqn:Ea.
      - rewrite (R1 eq_refl) in E. injection E as <- _. intros Hf. rewrite Hf. unfold rpos. rewrite Hf.
        destruct (Hq Hf). pose proof (w_old _ _ _ (i_win _ _ (i_inv0 _ _ I))). lia.
      - destruct (R2 ltac:(discriminate)) as (x & cur' & E' & _). rewrite E' in E. discriminate. }
    apply (WI_setc w0 w evs); [exact W|repeat split; assumption|reflexivity|apply live_bound; exact Hl| | ]; try reflexivity.
    intros _. exists ms. apply CI_CIi. apply CI_qmd; assumption.
  - destruct (wi_cl _ _ _ W c Hl) as [ms C]. pose proof (ci_pc _ _ _ _ C) as P. unfold pc_ok in P. rewrite Hpc in P.
    destruct P as (Hr & Hb & Hn).
    assert (Q : r_farm (w_ring w) = true -> 0 <= q <= zlen (committed evs)).
    { pose proof (CI_qok _ _ _ _ C HF) as Hq.
      destruct (ring_read_ok _ _ _ (c_md (cli w c)) buf niov I Hq Hb Hn) as [R1 R2].
      set (avail := skipn _ _) in R1, R2. destruct avail as [|m t] eqn:Ea.
      - rewrite (R1 eq_refl) in E. injection E as <- _. intros Hf. rewrite Hf. unfold rpos. rewrite Hf.
        destruct (Hq Hf). pose proof (w_old _ _ _ (i_win _ _ (i_inv0 _ _ I))). lia.
      - destruct (R2 ltac:(discriminate)) as (x & cur' & E' & _). rewrite E' in E. discriminate. }
    apply (WI_setc w0 w evs); [exact W|repeat split; assumption|reflexivity|apply live_bound; exact Hl| | ]; try reflexivity.
    + intros _. exists ms. apply CI_pc; [apply CI_qmd; assumption|]. unfold pc_ok; fin. auto.
    + fin. congruence.
  - destruct (wi_cl _ _ _ W c Hl) as [ms C]. pose proof (ci_pc _ _ _ _ C) as P. unfold pc_ok in P. rewrite Hpc in P.
    destruct P as (Hr & Hb & Hn). pose proof (CI_qok _ _ _ _ C HF) as Hq.
    destruct (ring_read_ok _ _ _ (c_md (cli w c)) buf niov I Hq Hb Hn) as [R1 R2].
    set (avail := skipn _ _) in R1, R2. destruct avail as [|m t] eqn:Ea; [rewrite (R1 eq_refl) in E; discriminate|].
    destruct (R2 ltac:(discriminate)) as (x1 & cur1 & E' & I' & S' & _). rewrite E in E'. injection E' as Eq Em <- <-.
    assert (Q : r_farm (w_ring w) = true -> 0 <= q <= zlen (committed evs)).
    { intros Hf. rewrite Hf in Eq. subst q. destruct (Hq Hf).
      pose proof (take_fit_cnt (Z.to_nat niov) (clamp (zlen buf)) (m :: t)) as T.
      rewrite <- Ea in T at 2. unfold avail in T. unfold rpos in *. rewrite Hf in *.
      pose proof (w_old _ _ _ (i_win _ _ (i_inv0 _ _ I))).
      rewrite zlen_skipn in T by lia.
      pose proof (zlen_nonneg (take_fit (Z.to_nat niov) (clamp (zlen buf)) (m :: t))). lia. }
    apply (WI_update w0 w evs _ _ c ((cli w c) <| c_q := q |> <| c_md := md |> <| c_r2w := r2w' |> <| c_pc := Idle |>));
      rewrite ?committed_app; cbn [committed flat_map]; rewrite ?app_nil_r; cbn [w_ring w_fsz w_cl setc set]; try assumption; try reflexivity.
    + apply same_fixed_dims; exact S'.
    + destruct S' as (_ & _ & _ & _ & _ & E6 & E7). rewrite E6, E7. apply (wi_app _ _ _ W).
    + apply live_bound; exact Hl.
    + intros _. exists ms.
      assert (C1 : CI (rd_ring x) (committed evs) (cli w c) ms) by (apply (CI_mono _ _ _ _ _ _ C (same_fixed_dims _ _ S')); lia).
      apply (CI_qmd _ _ _ _ q md) in C1; [|rewrite (same_fixed_farm _ _ S'); exact Q].
      apply CI_CIi in C1. unfold CIi in C1.
      replace ((cli w c) <| c_q := q |> <| c_md := md |> <| c_r2w := r2w' |> <| c_pc := Idle |>)
        with (((cli w c) <| c_q := q |> <| c_md := md |> <| c_pc := Idle |>) <| c_r2w := r2w' |>) by (destruct (cli w c); reflexivity).
      apply CI_r2w; [exact C1|fin; exact Hr|reflexivity|].
      destruct (rd_nr x >? 0).
      * destruct (Hn1 eq_refl) as (hh & hh' & wok & _ & -> & Eb). apply (bw_wake_mode _ _ _ _ _ _ _ _ Eb).
      * destruct (Hn0 eq_refl) as (_ & _ & ->). rewrite <- Er. apply (ci_rd _ _ _ _ C Hr).
  - destruct (wi_cl _ _ _ W c Hl) as [ms C].
    assert (EE : w_ring w' = w_ring w /\ w_fsz w' = w_fsz w /\ w_cl w' = w_cl w).
    { destruct Hw' as [->|(ks & h & _ & _ & ->)]; repeat split. }
    destruct EE as (E1 & E2 & E3).
    apply (WI_setc w0 w evs); [exact W|repeat split; assumption|reflexivity|apply live_bound; exact Hl| | ]; try reflexivity.
    + intros _. exists ms. apply CI_CIi; exact C.
  - destruct (wi_cl _ _ _ W c Hl) as [ms C]. pose proof (ci_pc _ _ _ _ C) as P. unfold pc_ok in P. rewrite Hpc in P.
    destruct P as (Hw & Hm & Hr).
    destruct (bw_open_wait_mode _ _ _ _ _ _ _ _ E) as (n & s & p & Eb). injection Eb as ->.
    assert (C2 : CIi (w_ring w) (committed evs) ((cli w c) <| c_r2w := Some (Wait n s p) |>) ms).
    { apply CI_CIi in C. unfold CIi in *. destruct C as [? ? ? CR ? CW CB ? ? ? ? PP]; constructor; fin; try assumption.
        - intros Hx. rewrite Hx in *. exfalso. rewrite Hw in *. discriminate.
        - intros Hx. destruct (CW Hx). split; [assumption|right; repeat eexists].
        - intros; repeat eexists. }
    destruct (flush_write_ok _ _ _ _ KFlush false I C2 Hw Hm (or_introl eq_refl)) as [E' C']; [intros; repeat eexists|].
    pose proof (flush_write_id _ _ _ _ _ Ee) as [[] _].
    rewrite Ee in E'. injection E' as -> ->.
    apply (WI_setc w0 w evs); [exact W|repeat split; assumption|reflexivity|apply live_bound; exact Hl| | ]; try reflexivity.
    + intros _. exists ms. exact C'.
    + fin. congruence.
  - set (w1 := if e_lock e then close_handles w (cli w c) else w).
    assert (EE : w_ring w1 = w_ring w /\ w_fsz w1 = w_fsz w /\ w_cl w1 = w_cl w).
    { unfold w1. destruct (e_lock e); [|repeat split]. unfold close_handles.
      destruct (match c_w2r (cli w c) with Some b => _ | None => _ end) as [ks h].
      cbn [w_ks w_r2w set].
      destruct (match c_r2w (cli w c) with Some b => _ | None => _ end) as [ks2 h2]. repeat split. }
    destruct EE as (E1 & E2 & E3).
    apply (WI_setc w0 w evs); [exact W|repeat split; assumption|reflexivity|apply live_bound; exact Hl| | ]; try reflexivity.
    + fin. discriminate.
  - destruct (wi_cl _ _ _ W c Hl) as [ms C].
    assert (ER : exists s, r = (w_ring w) <| r_stat := s |>).
    { unfold do_stat in E. destruct (negb (e_lock e)); [inj E; exists (r_stat (w_ring w)); destruct (w_ring w); reflexivity|].
      destruct reset; inj E; [eexists; reflexivity|exists (r_stat (w_ring w)); destruct (w_ring w); reflexivity]. }
    destruct ER as (s & ->).
    eapply (WI_update w0 w evs _ _ c); rewrite ?committed_app; cbn [committed flat_map]; rewrite ?app_nil_r; cbn [w_ring w_fsz w_cl setc set]; try eassumption; try reflexivity; eauto using live_bound.
    + apply inv_stat; exact I.
    + repeat split.
    + apply (wi_app _ _ _ W).
    + intros _. exists ms. apply CI_CIi. apply (CI_mono _ _ _ _ _ _ C); [repeat split|lia].
  - destruct (wi_cl _ _ _ W c Hl) as [ms C]. pose proof (ci_pc _ _ _ _ C) as P. unfold pc_ok in P. rewrite Hpc in P.
    destruct (do_app_ok e _ _ _ _ (wi_app _ _ _ W) P) as (r1 & x1 & E' & ER & EL & _).
    rewrite E in E'. injection E' as <- <-. 
    eapply (WI_update w0 w evs _ _ c); rewrite ?committed_app; cbn [committed flat_map]; rewrite ?app_nil_r; cbn [w_ring w_fsz w_cl setc set]; try eassumption; try reflexivity; eauto using live_bound.
    + rewrite ER. apply inv_app; exact I.
    + rewrite ER. repeat split.
    + rewrite EL. rewrite ER. reflexivity.
    + intros _. exists ms. apply CI_CIi. apply (CI_mono _ _ _ _ _ _ C); [rewrite ER; repeat split|lia].
  - assert (Hl : c_live (cli w c) = true).
    { destruct (c_live (cli w c)) eqn:Hl; [reflexivity|]. unfold wait_sid in Hs. rewrite (wi_dead _ _ _ W c Hl) in Hs. discriminate. }
    destruct (wi_cl _ _ _ W c Hl) as [ms C].
    apply (WI_setc w0 w evs); [exact W|repeat split; assumption|reflexivity|apply live_bound; exact Hl| | ]; try reflexivity.
    + intros _. exists ms. unfold resume. pose proof (ci_pc _ _ _ _ C) as P. unfold pc_ok in P.
      destruct (c_pc (cli w c)) eqn:Epc; try exact C; apply CI_pc; try exact C; unfold pc_ok; fin; exact P.
    + unfold resume. destruct (c_pc (cli w c)) eqn:Epc; fin; congruence.
  - assert (Hl : c_live (cli w c) = true).
    { destruct (c_live (cli w c)) eqn:Hl; [reflexivity|]. rewrite (wi_dead _ _ _ W c Hl) in Hpc. discriminate. }
    destruct (wi_cl _ _ _ W c Hl) as [ms C]. pose proof (ci_pc _ _ _ _ C) as P. unfold pc_ok in P. rewrite Hpc in P.
    destruct P as (Hw & Hi & -> & Hk & _).
    destruct (end_write_ok _ _ _ _ k iov sc I (CI_CIi _ _ _ _ C) Hw Hi Hk) as (cl1 & rs1 & ms' & E' & C').
    rewrite E in E'. injection E' as <- <-.
    apply (WI_setc w0 w evs); [exact W|repeat split|apply committed_rets|apply live_bound; exact Hl|eauto|].
    intros HD. apply end_write_id in E. destruct E as [[] _]. congruence.
  - assert (Hl : c_live (cli w c) = true).
    { destruct (c_live (cli w c)) eqn:Hl; [reflexivity|]. rewrite (wi_dead _ _ _ W c Hl) in Hpc. discriminate. }
    destruct (wi_cl _ _ _ W c Hl) as [ms C].
    apply (WI_setc w0 w evs); [exact W|repeat split; assumption|reflexivity|apply live_bound; exact Hl| | ]; try reflexivity.
    intros _. exists ms. apply CI_CIi; exact C.
  - apply (WI_setc w0 w evs); [exact W|repeat split; assumption|reflexivity|apply live_bound; exact Hl| | ]; try reflexivity.
    fin. discriminate.
Qed.
