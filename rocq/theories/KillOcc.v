(** * Slots are reclaimed also when processes are killed anywhere (C73). *)
From Verif Require Import BaseFacts MicroFacts Effects Final Pending PollFacts StepInv KillExec KillInv KillFinal KillBwFinal FineStep KillCount BwOcc KillBwStep.

Notation wrn h n := (nth n (h_wr h) ws_free).

(** existing sockets keep their names, and are closed if at all *)
Definition keepk (ks ks' : socks) : Prop := (length ks <= length ks')%nat /\ forall s, (s < length ks)%nat ->
  k_name (sk ks' s) = k_name (sk ks s) /\ (k_open (sk ks' s) = true -> k_open (sk ks s) = true).
Lemma keepk_refl ks : keepk ks ks. Proof. split; auto. Qed.
Lemma keepk_trans a b c : keepk a b -> keepk b c -> keepk a c.
Proof.
  intros [A1 A2] [B1 B2]. split; [lia|]. intros s L. destruct (A2 s L) as [N1 O1], (B2 s ltac:(lia)) as [N2 O2]. split; [congruence|auto].
Qed.
Lemma keepk_upd ks k f : (forall x, k_name (f x) = k_name x /\ (k_open (f x) = true -> k_open x = true)) -> keepk ks (sk_upd ks k f).
Proof.
  intros H. split; [rewrite sk_upd_len; lia|]. intros s L. destruct (Nat.eq_dec s k) as [->|N]; [rewrite sk_upd_same by exact L; apply H|rewrite sk_upd_other by exact N; auto].
Qed.
Lemma keepk_app ks l : keepk ks (ks ++ l).
Proof. split; [rewrite app_length; lia|]. intros s L. rewrite sk_app1 by exact L. auto. Qed.
Lemma keepk_shut ks ks' : shut ks ks' -> (forall s, k_open (sk ks' s) = true -> k_open (sk ks s) = true) -> keepk ks ks'.
Proof. intros [A B] H. split; [lia|]. intros s _. split; [apply B|apply H]. Qed.

(** a slot is what it was, is free, or has the name of a new socket *)
Definition cov (ks ks' : socks) (wr wr' : list wslot) : Prop := forall n, nth n wr' ws_free = nth n wr ws_free \/ ws_pid (nth n wr' ws_free) = 0
  \/ exists s, (length ks <= s < length ks')%nat /\ k_name (sk ks' s) = ws_name (nth n wr' ws_free).
Lemma cov_refl ks ks' wr : cov ks ks' wr wr. Proof. intros n. auto. Qed.
Lemma shk_cov ks ks' wr wr' : shk wr wr' -> cov ks ks' wr wr'.
Proof. intros S n. destruct (S n); auto. Qed.
Lemma cov_trans a b c x y z : keepk a b -> keepk b c -> cov a b x y -> cov b c y z -> cov a c x z.
Proof.
  intros [A1 _] [B1 B2] C1 C2 n. destruct (C2 n) as [E|[E|(s & L & E)]]; [|auto|].
  - rewrite E. destruct (C1 n) as [F|[F|(s & L & F)]]; [auto|auto|]. right. right. exists s. split; [lia|]. destruct (B2 s ltac:(lia)) as [-> _]. exact F.
  - right. right. exists s. split; [lia|exact E].
Qed.

(** ** one handle *)
Definition RB (s s' : bks) : Prop := keepk (b_ks s) (b_ks s') /\ cov (b_ks s) (b_ks s') (h_wr (b_h s)) (h_wr (b_h s')).
Lemma RB_refl s : RB s s. Proof. split; [apply keepk_refl|apply cov_refl]. Qed.
Lemma RB_trans a b c : RB a b -> RB b c -> RB a c.
Proof. intros [A1 A2] [B1 B2]. split; [apply (keepk_trans _ _ _ A1 B1)|apply (cov_trans _ _ _ _ _ _ A1 B1 A2 B2)]. Qed.
Lemma RB_free s n : RB s (set_pid s n 0).
Proof. split; [apply keepk_refl|]. apply shk_cov. cbn [set_pid b_h h_wr set]. apply shk_set. reflexivity. Qed.
Lemma RB_seq s : RB s (inc_seq s).
Proof. split; [apply keepk_refl|apply cov_refl]. Qed.
Lemma RB_pend s k v : RB s (s <| b_ks := sk_upd (b_ks s) k (fun x => x <| k_pend := v x |>) |>).
Proof. split; [cbn [b_ks set]; apply keepk_upd; intros x; cbn; auto|apply cov_refl]. Qed.
Lemma RB_shut s k : RB s (s <| b_ks := sk_upd (b_ks s) k (fun x => x <| k_open := false |>) |>).
Proof. split; [cbn [b_ks set]; apply keepk_upd; intros x; cbn; split; [reflexivity|discriminate]|apply cov_refl]. Qed.
Ltac bst := apply ea_at; let E := fresh "E" in intros ? ? ? E; cbv zeta in E;
  repeat match type of E with
  | (if ?b then _ else _) = Ok _ => destruct b
  | (match ?x with _ => _ end) = Ok _ => destruct x
  end; try discriminate E; apply ok_pair in E; destruct E as [<- <-];
  (split; [first [apply RB_refl|apply RB_free|apply RB_seq|apply RB_shut|idtac]|]).
Lemma rb_prune e : forall m n, each RB (prune_p e m n).
Proof. induction m as [|m IH]; intros n; cbn [prune_p]; [constructor|]. bst; [apply IH|]. bst. bst. apply IH. Qed.
Lemma rb_sync e : forall m n cs, each RB (sync_p e m n cs).
Proof. induction m as [|m IH]; intros n cs; cbn [sync_p]; [constructor|]. bst; try apply IH; try apply ea_ret. all: bst; bst; apply IH. Qed.
Lemma rb_bw_sync e q cs : each RB (bw_sync_p e q cs).
Proof.
  unfold bw_sync_p. bst; [constructor|]. apply each_bind; [apply rb_sync|]. intros x. destruct (snd x); [|constructor]. bst. constructor.
Qed.
Lemma rb_wake e : forall m n cs, each RB (wake_p e m n cs).
Proof.
  induction m as [|m IH]; intros n cs; cbn [wake_p]; [constructor|]. apply ea_at. intros s s' p' E. cbv zeta in E.
  destruct (cn_fd (nth n cs conn0)) as [k|]; [|apply ok_pair in E; destruct E as [<- <-]; split; [apply RB_refl|apply IH]].
  destruct (_ && _); apply ok_pair in E; destruct E as [<- <-].
  - split; [|apply IH]. destruct (_ <? _); [apply (RB_pend s k (fun x => k_pend x + 1))|apply RB_refl].
  - split; [apply RB_refl|]. bst. bst. apply IH.
Qed.
Lemma rb_bw_wake e x : each RB (bw_wake_p e x).
Proof.
  destruct x as [q cs|n s p]; cbn [bw_wake_p]; [|apply ea_at; discriminate]. apply each_bind; [apply rb_bw_sync|]. intros [[q1 cs1] ok].
  destruct ok; [|constructor]. apply each_bind; [apply rb_wake|]. intros c. constructor.
Qed.
Lemma rb_open_wake e : each RB (bw_open_wake_p e).
Proof.
  unfold bw_open_wake_p. destruct (negb _); [constructor|]. apply each_bind; [apply rb_prune|]. intros _. apply each_bind; [apply rb_bw_sync|]. intros [[q cs] ok]. constructor.
Qed.
Lemma rb_force e x want : each RB (bw_force_p e x want).
Proof.
  destruct x as [q cs|n s p]; cbn [bw_force_p]; [apply ea_at; discriminate|]. destruct (negb _); [constructor|]. apply ea_at. intros t t' p' E. cbv zeta in E.
  apply ok_pair in E. destruct E as [<- <-]. split; [|constructor].
  destruct (_ && _); [apply (RB_pend t s (fun _ => 0))|]. destruct (_ && _); [apply (RB_pend t s (fun x => k_pend x + 1))|apply RB_refl].
Qed.
Lemma rb_close x : each RB (bw_close_p x).
Proof. destruct x as [q cs|n s p]; cbn [bw_close_p]; [constructor|]. bst. bst. bst. constructor. Qed.

(** ** programs as a whole *)
Definition big {S A} (R : S -> S -> Prop) (p : prog S A) : Prop := forall s,
  (forall l s', dies_at p s l s' -> R s s') /\ (forall s' x, exec_all p s = Ok (s', x) -> R s s').
Lemma big_ret {S A} (R : S -> S -> Prop) (x : A) : (forall s, R s s) -> big R (Ret x).
Proof. intros H s. split; [intros l s' D; apply dies_ret in D; contradiction|]. intros s' y E. apply ok_pair in E. destruct E as [<- _]. apply H. Qed.
Lemma big_bind {S A B} (R : S -> S -> Prop) (p : prog S A) (k : A -> prog S B) : (forall a b c, R a b -> R b c -> R a c) ->
  big R p -> (forall x, big R (k x)) -> big R (bindp p k).
Proof.
  intros T H K s. destruct (H s) as [H1 H2]. split.
  - intros l s' D. apply dies_bind in D. destruct D as [D|(s1 & x & E & D)]; [apply (H1 _ _ D)|]. apply (T _ s1); [apply (H2 _ _ E)|apply (K x s1) in D; exact D].
  - intros s' y E. rewrite exec_bind in E. apply obind_ok in E. destruct E as ([s1 x] & E & E1). apply (T _ s1); [apply (H2 _ _ E)|]. apply (proj2 (K x s1) _ _ E1).
Qed.
Lemma big_each {S A} (R : S -> S -> Prop) (p : prog S A) : (forall s, R s s) -> (forall a b c, R a b -> R b c -> R a c) -> each R p -> big R p.
Proof. intros Rr Rt H s. split; [intros l s' D; apply (each_dies R Rr Rt p H _ _ _ D)|]. intros s' x E. apply (each_exec R Rr Rt p H _ _ _ E). Qed.
Lemma rb_big {A} (p : prog bks A) : each RB p -> big RB p.
Proof. apply big_each; [apply RB_refl|apply RB_trans]. Qed.

(** registering: the socket exists before its name is in the slot *)
Definition fresh_at (s0 s : bks) (n : nat) (name : Z) : Prop := RB s0 s /\ (n < length (h_wr (b_h s)))%nat
  /\ exists k, (length (b_ks s0) <= k < length (b_ks s))%nat /\ k_name (sk (b_ks s) k) = name.
Lemma rb_set s0 s n v : RB s0 s -> (n < length (h_wr (b_h s)))%nat ->
  (ws_pid v = 0 \/ exists k, (length (b_ks s0) <= k < length (b_ks s))%nat /\ k_name (sk (b_ks s) k) = ws_name v) ->
  RB s0 (s <| b_h := (b_h s) <| h_wr := set_nat (h_wr (b_h s)) n v |> |>).
Proof.
  intros [A B] L H. split; [exact A|]. intros m. cbn [b_h h_wr set b_ks]. rewrite nth_set_nat by exact L. destruct (Nat.eqb_spec m n) as [->|N]; [auto|apply B].
Qed.
Lemma big_open_wait e pid name : big RB (bw_open_wait_p e pid name).
Proof.
  intros s0. unfold bw_open_wait_p. destruct (negb (e_alloc e)); [apply (big_ret RB (@None bwt) RB_refl)|].
  enough (H : safe (eq s0) (RB s0) (fun _ => RB s0) (run! _ <- prune_p e BW_WAITMAX 0; At 10259 (fun s =>
    match find_free (h_wr (b_h s)) O with
    | None => Ok (s, Ret None)
    | Some n =>
        match (if e_bind e then sk_lookup (b_ks s) name else Some O) with
        | Some _ => Ok (s, Ret None)
        | None =>
            let sid := length (b_ks s) in
            Ok (s <| b_ks := b_ks s ++ [mksock name pid true 0 (Z.max 1 (e_cap e))] |>,
              At 10242 (fun s => Ok (set_name s n name,
              At 10269 (fun s => Ok (set_pid s n pid,
              At 10270 (fun s => Ok (inc_seq s,
              if e_self e then Ret (Some (Wait n sid []))
              else At 10424 (fun s => Ok (set_pid s n 0,
                   At 10425 (fun s => Ok (s <| b_ks := sk_upd (b_ks s) sid (fun x => x <| k_open := false |>) |>,
                   Ret None)))))))))))
        end
    end))) by apply (H s0 eq_refl).
  eapply safe_bind with (R := fun _ => RB s0).
  { intros s <-. split; [intros l s' D; apply (each_dies RB RB_refl RB_trans _ (rb_prune e _ _) _ _ _ D)|intros s' x E; apply (each_exec RB RB_refl RB_trans _ (rb_prune e _ _) _ _ _ E)]. }
  intros _. apply safe_at; [auto|]. intros s s' p' H E.
  assert (NONE : exists P' : bks -> Prop, P' s /\ safe P' (RB s0) (fun (_ : option bwt) => RB s0) (Ret None)) by (exists (RB s0); split; [exact H|apply safe_ret; auto]).
  destruct (find_free (h_wr (b_h s)) 0) as [n|] eqn:EF; [|apply ok_pair in E; destruct E as [<- <-]; exact NONE].
  destruct (if e_bind e then sk_lookup (b_ks s) name else Some O) as [k|]; [apply ok_pair in E; destruct E as [<- <-]; exact NONE|].
  cbv zeta in E. apply ok_pair in E. destruct E as [<- <-]. apply find_free_some in EF. rewrite Nat.sub_0_r in EF. destruct EF as (_ & L & Z0).
  set (sid := length (b_ks s)).
  exists (fun t => fresh_at s0 t n name /\ ws_pid (wrn (b_h t) n) = 0). split.
  { split; [|exact Z0]. split; [|split; [exact L|]].
    - apply (RB_trans _ _ _ H). split; [apply keepk_app|apply cov_refl].
    - exists (length (b_ks s)). cbn [b_ks set]. rewrite app_length, sk_app_last. cbn [length k_name]. destruct H as [[H _] _]. split; [lia|reflexivity]. }
  apply safe_at; [intros t [[Ht _] _]; exact Ht|]. intros t t' p' ((H1 & H2 & k & H3 & H4) & H5) E. apply ok_pair in E. destruct E as [<- <-].
  exists (fun t => fresh_at s0 t n name /\ ws_name (wrn (b_h t) n) = name). split.
  { unfold set_name. split; [split; [|split]|].
    - apply rb_set; [exact H1|exact H2|]. left. cbn. exact H5.
    - cbn [b_h h_wr set]. rewrite zlen_set_nat. exact H2.
    - exists k. split; [exact H3|exact H4].
    - cbn [b_h h_wr set]. rewrite nth_set_nat by exact H2. rewrite Nat.eqb_refl. reflexivity. }
  clear t H1 H2 k H3 H4 H5.
  apply safe_at; [intros t [[Ht _] _]; exact Ht|]. intros t t' p' ((H1 & H2 & k & H3 & H4) & H5) E. apply ok_pair in E. destruct E as [<- <-].
  exists (fun t => RB s0 t /\ (n < length (h_wr (b_h t)))%nat). split.
  { unfold set_pid. split.
    - apply rb_set; [exact H1|exact H2|]. right. exists k. split; [exact H3|]. rewrite H4. symmetry. exact H5.
    - cbn [b_h h_wr set]. rewrite zlen_set_nat. exact H2. }
  clear t H1 H2 k H3 H4 H5.
  apply safe_at; [intros t [Ht _]; exact Ht|]. intros t t' p' [H1 H2] E. apply ok_pair in E. destruct E as [<- <-].
  exists (RB s0). split; [apply (RB_trans _ _ _ H1), RB_seq|].
  destruct (e_self e); [apply safe_ret; auto|].
  apply safe_at; [auto|]. intros u u' p' Hu E. apply ok_pair in E. destruct E as [<- <-]. exists (RB s0). split; [apply (RB_trans _ _ _ Hu), RB_free|].
  apply safe_at; [auto|]. intros v v' p' Hv E. apply ok_pair in E. destruct E as [<- <-]. exists (RB s0). split; [apply (RB_trans _ _ _ Hv), RB_shut|].
  apply safe_ret. auto.
Qed.

(** ** both handles *)
Definition RM (m m' : shm) : Prop := keepk (sh_ks m) (sh_ks m') /\ forall b, cov (sh_ks m) (sh_ks m') (h_wr (hd b m)) (h_wr (hd b m')).
Lemma RM_refl m : RM m m. Proof. split; [apply keepk_refl|intros b; apply cov_refl]. Qed.
Lemma RM_trans a b c : RM a b -> RM b c -> RM a c.
Proof. intros [A1 A2] [B1 B2]. split; [apply (keepk_trans _ _ _ A1 B1)|intros d; apply (cov_trans _ _ _ _ _ _ A1 B1 (A2 d) (B2 d))]. Qed.
Lemma RB_put b m s : RB (get_bk b m) s -> RM m (put_bk b m s).
Proof.
  intros [A B]. split; [destruct b; exact A|]. intros d. destruct b, d; cbn [hd put_bk sh_w2r sh_r2w sh_ks get_bk b_ks b_h] in *; try exact B; apply cov_refl.
Qed.
Lemma rm_bw {A} b (p : prog bks A) : big RB p -> big RM (on_bw b p).
Proof.
  intros H m. destruct (H (get_bk b m)) as [H1 H2]. split.
  - intros l m' D. apply dies_bw in D. destruct D as (s & D & ->). apply RB_put, (H1 _ _ D).
  - intros m' x E. rewrite exec_bw in E. apply obind_ok in E. destruct E as ([s y] & E & E2). apply ok_pair in E2. destruct E2 as [<- <-]. apply RB_put, (H2 _ _ E).
Qed.
Lemma rm_ring {A} (p : prog ring A) : big RM (on_ring p).
Proof.
  intros m. split.
  - intros l m' D. apply dies_ring in D. destruct D as (s & D & ->). split; [apply keepk_refl|intros []; apply cov_refl].
  - intros m' x E. rewrite exec_ring in E. apply obind_ok in E. destruct E as ([s y] & E & E2). apply ok_pair in E2. destruct E2 as [<- <-]. split; [apply keepk_refl|intros []; apply cov_refl].
Qed.
Lemma rm_stop {A} l : big RM (At l (fun _ => @UB (shm * prog shm A))).
Proof. apply big_each; [apply RM_refl|apply RM_trans|]. apply each_stop. reflexivity. Qed.
Ltac rm := repeat first
  [ apply (big_ret RM _ RM_refl) | apply rm_ring | apply rm_stop
  | apply rm_bw, rb_big, rb_bw_wake | apply rm_bw, rb_big, rb_force | apply rm_bw, rb_big, rb_close | apply rm_bw, rb_big, rb_open_wake | apply rm_bw, big_open_wait
  | apply (big_bind RM _ _ RM_trans); [|intro]
  | match goal with |- big _ (match ?x with _ => _ end) => destruct x end ].
Lemma rm_section e cl : big RM (section e cl).
Proof. unfold section. destruct (c_pc cl); rm. Qed.
Lemma rm_open e w flags pid : big RM (open_section e w flags pid).
Proof. unfold open_section, fail_open, close_opt. rm. Qed.

(** ** executions *)
Lemma OCC_killed w w' m : OCC w -> RM (shared w) m -> shut (sh_ks m) (w_ks w') ->
  (forall s, k_open (sk (w_ks w') s) = true -> k_open (sk (sh_ks m) s) = true /\ (s < length (w_ks w))%nat) ->
  (forall b, whd b w' = hd b m) -> (forall b c n s, wt b w c n s -> k_open (sk (w_ks w') s) = true -> wt b w' c n s) -> OCC w'.
Proof.
  intros O [[K1 K2] CV] [SL SS] HO EH HW b n Hp. unfold BwOcc.slot in *. rewrite EH in *. specialize (CV b n). cbn [shared sh_ks] in *.
  assert (EW : hd b (shared w) = whd b w) by (destruct b; reflexivity). rewrite EW in CV.
  destruct CV as [E|[E|(s & L & E)]]; [|contradiction|].
  - rewrite E in *. destruct (O b n Hp) as (s & L & N & T). exists s. split; [lia|]. split; [destruct (SS s) as (-> & _); destruct (K2 s L) as [-> _]; exact N|].
    intros Op. destruct (HO s Op) as [Op' _]. destruct (T (proj2 (K2 s L) Op')) as [c Hc]. exists c. apply (HW _ _ _ _ Hc Op).
  - exists s. split; [lia|]. split; [destruct (SS s) as (-> & _); exact E|]. intros Op. destruct (HO s Op) as [_ Q]. lia.
Qed.
Lemma open_new n ks s : k_open (sk (close_new n ks) s) = true -> k_open (sk ks s) = true /\ (s < n)%nat.
Proof.
  rewrite sk_new. destruct (Nat.ltb_spec s n) as [L|L]; [auto|]. destruct (s <? length ks)%nat; discriminate.
Qed.
Lemma kill_OCC w c e line m : OCC w -> c_live (cli w c) = true -> dies_at (section e (cli w c)) (shared w) line m -> OCC (killed w c m).
Proof.
  intros O Hl D. pose proof (proj1 (rm_section e (cli w c) (shared w)) _ _ D) as R.
  set (ks0 := close_new (length (w_ks w)) (sh_ks m)).
  destruct (drop_one ks0 (c_w2r (cli w c))) as (A1 & A2 & A3 & A4).
  destruct (drop_one (drop_sock ks0 (c_w2r (cli w c))) (c_r2w (cli w c))) as (B1 & B2 & B3 & B4).
  assert (EK : w_ks (killed w c m) = drop_sock (drop_sock ks0 (c_w2r (cli w c))) (c_r2w (cli w c))) by reflexivity.
  apply (OCC_killed w _ m O R).
  - rewrite EK. eapply shut_trans; [|apply shut_drop]. eapply shut_trans; [apply shut_new|apply shut_drop].
  - intros s. rewrite EK. intros Q. apply B3, A3 in Q. apply open_new in Q. exact Q.
  - intros []; reflexivity.
  - intros b c' n s H Ho. rewrite EK in Ho. destruct (Nat.eq_dec c' c) as [->|N].
    + exfalso. destruct H as [_ [p H]]. destruct b; cbn [hnd] in H; [pose proof (B3 _ Ho) as Q; rewrite (A4 _ _ _ H) in Q|rewrite (B4 _ _ _ H) in Ho]; discriminate.
    + apply (wt_same b w); [apply cli_killed_other; exact N|exact H].
Qed.
Lemma kill_open_OCC w e flags pid line m : OCC w -> dies_at (open_section e w flags pid) (shared w) line m -> OCC (killed_opening w m).
Proof.
  intros O D. pose proof (proj1 (rm_open e w flags pid (shared w)) _ _ D) as R.
  apply (OCC_killed w _ m O R); [apply shut_new|apply open_new|intros []; reflexivity|].
  intros b c n s H _. apply (wt_same b w); [reflexivity|exact H].
Qed.
Lemma orderly_flaky : forall w a, orderly w a -> flaky w a.
Proof. intros w a [H _]. apply steady_flaky, H. Qed.
Lemma kexec_OCC r fsz w evs : fresh r fsz -> kexec orderly (world0 r fsz) w evs -> seq_bound r evs -> OCC w.
Proof.
  intros F X. induction X as [|w evs a w' ev X IH Pa S|w evs c e line m X IH Pa Hl D U|w evs e flags pid line m X IH Pa D]; intros HB.
  - intros b n Hp. elim Hp. unfold BwOcc.slot. assert (E : h_wr (whd b (world0 r fsz)) = repeat ws_free BW_WAITMAX) by (destruct b; reflexivity). rewrite E, repeat_nth. reflexivity.
  - pose proof (seq_bound_app _ _ _ HB) as HB0.
    destruct (kexec_inv contract r fsz (fun w a h => h) F _ _ (kexec_mono _ _ _ _ _ orderly_contract X) HB0) as (W & _ & _).
    destruct (kexec_BI2 _ _ _ _ F (kexec_mono _ _ _ _ _ orderly_flaky X) HB0) as [_ B2].
    apply (step_OCC _ _ _ _ _ _ W (b2_k _ B2) (IH HB0) Pa S).
  - apply (kill_OCC _ _ _ _ _ (IH (seq_bound_app _ _ _ HB)) Hl D).
  - apply (kill_open_OCC _ _ _ _ _ _ (IH HB) D).
Qed.
Theorem k_reclaimed r w evs e flags pid : kreach orderly r w evs -> orderly w (AOpen e flags pid) -> e_bind e = true -> e_self e = true ->
  has flags SHR_RDONLY || has flags SHR_WRONLY = true -> flags mod SHR_OPEN_FENCE = 0 ->
  (has flags SHR_RDONLY = true -> (length (readers w) < BW_WAITMAX)%nat) ->
  (has flags SHR_WRONLY = true -> has flags SHR_NONBLOCK = false -> r_drop (w_ring w) = false -> (length (waiting_writers w) < BW_WAITMAX)%nat) ->
  exists w', step w (AOpen e flags pid) = Ok (w', [EOpen flags (Some (length (w_cl w)))]).
Proof.
  intros R Ha. pose proof (kreach_mono _ contract _ _ _ orderly_contract R) as RC.
  pose proof (k_valid _ _ _ RC) as V. pose proof (k_total _ _ _ _ RC (orderly_contract _ _ Ha)) as T.
  destruct R as (fsz & F & X & HB). destruct (kexec_inv contract r fsz (fun w a h => h) F _ _ (kexec_mono _ _ _ _ _ orderly_contract X) HB) as (W & _ & _).
  destruct (kexec_BI2 _ _ _ _ F (kexec_mono _ _ _ _ _ orderly_flaky X) HB) as [_ B2].
  apply (reclaimed _ _ _ _ _ _ W V T (b2_k _ B2) (b2_len _ B2) (b2_seq _ B2) (kexec_OCC _ _ _ _ F X HB) Ha).
Qed.

(** ** scripts *)
Lemma act_orderly w k : names_b w = true -> ok_b w k = true -> orderly w (act w k).
Proof. intros N Ok. split; [apply act_steady; assumption|]. destruct k; cbn [act]; auto; repeat split. Qed.
Lemma kreach_orderly r fsz ks : fresh r fsz -> fplays (world0 r fsz) ks = true -> forallb connects ks = true ->
  kreach orderly r (fw (world0 r fsz) ks) (fe (world0 r fsz) ks).
Proof.
  intros F H HC. unfold fplays, fw, fe in *. destruct (fplay (world0 r fsz) ks) as [[w evs]|] eqn:E; [|discriminate].
  exists fsz. split; [exact F|]. split; [|intros _; apply Z.ltb_lt in H; exact H].
  apply (fplay_exec _ _ act_orderly ks ltac:(congruence) (world0 r fsz) []); [constructor|exact E].
Qed.
