(** * What a simulated state looks like. *)
From Verif Require Import BaseFacts MicroFacts KillExec KillFacts KillInv KillFinal BwInv KillBwInv LockFacts WorldFacts StepInv SysFacts KillSpec.
From Verif Require Export FineSim.

Lemma world_eq w w' : shared w = shared w' -> w_cl w = w_cl w' -> w_fsz w = w_fsz w' -> w = w'.
Proof. destruct w, w'. unfold shared. cbn. intros E -> ->. injection E as -> -> -> ->. reflexivity. Qed.
Lemma shared_with w m : shared (with_shared w m) = m. Proof. destruct m; reflexivity. Qed.
Definition rks (D : list (nat * nat)) (ks : socks) : socks := fold_right (fun d ks => bw_recv ks (snd d)) ks D.
Definition wcl (D : list (nat * nat)) (l : list client) : list client := fold_right (fun d l => set_nat l (fst d) (resume (nth (fst d) l client0))) l D.
Lemma recvs_rks D m : recvs D m = kputs m (rks D (sh_ks m)).
Proof. induction D as [|d D IH]; [destruct m; reflexivity|]. rewrite recvs_cons, IH. reflexivity. Qed.
Lemma wcl_wakes D w : w_cl (wakes D w) = wcl D (w_cl w).
Proof. induction D as [|d D IH]; [reflexivity|]. rewrite wakes_cons. unfold wcl. cbn [fold_right]. fold (wcl D (w_cl w)). rewrite <- IH. reflexivity. Qed.
Lemma fsz_wakes D w : w_fsz (wakes D w) = w_fsz w.
Proof. induction D as [|d D IH]; [reflexivity|]. rewrite wakes_cons, <- IH. reflexivity. Qed.
Lemma ring_wakes D w : w_ring (wakes D w) = w_ring w.
Proof. pose proof (f_equal sh_ring (shared_wakes D w)) as E. rewrite recvs_rks in E. exact E. Qed.
Lemma ks_wakes D w : w_ks (wakes D w) = rks D (w_ks w).
Proof. pose proof (f_equal sh_ks (shared_wakes D w)) as E. rewrite recvs_rks in E. exact E. Qed.
Lemma wcl_set D : forall l c x, ~ In c (map fst D) -> set_nat (wcl D l) c x = wcl D (set_nat l c x).
Proof.
  induction D as [|d D IH]; intros l c x N; [reflexivity|]. cbn [map In] in N. unfold wcl. cbn [fold_right]. fold (wcl D l) (wcl D (set_nat l c x)).
  rewrite <- IH by tauto. assert (Nd : fst d <> c) by (intros E; apply N; left; exact E). destruct (nth_set_any client0 (wcl D l) c (fst d) x) as [->|[E _]]; [|congruence]. apply set_nat_comm, Nd.
Qed.
Lemma wcl_len D l : length (wcl D l) = length l.
Proof. induction D as [|d D IH]; [reflexivity|]. etransitivity; [apply zlen_set_nat|exact IH]. Qed.
Lemma set_nat_app {A} (l t : list A) : forall n x, (n < length l)%nat -> set_nat (l ++ t) n x = set_nat l n x ++ t.
Proof. induction l as [|y l IH]; intros [|n] x H; cbn in *; try lia; [reflexivity|]. rewrite IH by lia. reflexivity. Qed.
Lemma wcl_app D l x : (forall d, In d D -> (fst d < length l)%nat) -> wcl D (l ++ [x]) = wcl D l ++ [x].
Proof.
  induction D as [|d D IH]; intros H; [reflexivity|]. unfold wcl. cbn [fold_right]. fold (wcl D l) (wcl D (l ++ [x])). rewrite IH by (intros d' I; apply H; right; exact I).
  pose proof (H d (or_introl eq_refl)) as L. rewrite <- (wcl_len D) in L. rewrite app_nth1 by exact L. apply set_nat_app, L.
Qed.
Lemma wakes_shared D w m m1 : with_shared (wakes D (with_shared w m)) (recvs D m1) = wakes D (with_shared w m1).
Proof. apply world_eq; [rewrite shared_wakes, !shared_with; reflexivity|rewrite wcl_wakes; cbn; rewrite wcl_wakes; reflexivity|rewrite fsz_wakes; cbn; rewrite fsz_wakes; reflexivity]. Qed.
Lemma wakes_setc D w c x : ~ In c (map fst D) -> setc (wakes D w) c x = wakes D (setc w c x).
Proof.
  intros N. apply world_eq; [rewrite shared_setc, !shared_wakes; reflexivity| |rewrite fsz_wakes; cbn; rewrite fsz_wakes; reflexivity].
  rewrite wcl_wakes. cbn. rewrite wcl_wakes. apply wcl_set, N.
Qed.
Lemma wakes_add D w x : (forall d, In d D -> (fst d < length (w_cl w))%nat) -> wakes D w <| w_cl := w_cl (wakes D w) ++ [x] |> = wakes D (w <| w_cl := w_cl w ++ [x] |>).
Proof.
  intros H. apply world_eq; [|cbn; rewrite !wcl_wakes; cbn; symmetry; apply wcl_app, H|cbn; rewrite !fsz_wakes; reflexivity].
  change (shared (wakes D w) = shared (wakes D (w <| w_cl := w_cl w ++ [x] |>))). rewrite !shared_wakes. reflexivity.
Qed.
Lemma wakes_comm d D w : ~ In (fst d) (map fst D) -> ~ In (snd d) (map snd D) -> wake d (wakes D w) = wakes D (wake d w).
Proof.
  intros N1 N2. apply world_eq.
  - unfold wake. rewrite shared_setc, shared_wakes, shared_setc.
    change (shared (wakes D w <| w_ks := bw_recv (w_ks (wakes D w)) (snd d) |>)) with (recv (snd d) (shared (wakes D w))). rewrite shared_wakes.
    change (shared (w <| w_ks := bw_recv (w_ks w) (snd d) |>)) with (recv (snd d) (shared w)).
    clear N1. induction D as [|d' D IH]; [reflexivity|]. cbn [map In] in N2. rewrite !recvs_cons, recv_comm by (intros E; apply N2; left; congruence). rewrite IH by tauto. reflexivity.
  - unfold wake. rewrite cli_wakes by exact N1. cbn [setc w_cl set]. rewrite !wcl_wakes. cbn. apply wcl_set, N1.
  - rewrite fsz_wakes. unfold wake. cbn. apply fsz_wakes.
Qed.
Lemma rks_drop D h : forall ks, drop_sock (rks D ks) h = rks D (drop_sock ks h).
Proof.
  induction D as [|d D IH]; intros ks; [reflexivity|]. unfold rks. cbn [fold_right]. fold (rks D ks) (rks D (drop_sock ks h)). rewrite <- IH.
  destruct h as [[|n s p]|]; try reflexivity. cbn [drop_sock]. unfold bw_recv. apply upd_comm_any. reflexivity.
Qed.
Lemma close_recv n s ks : (s < n)%nat -> (n <= length ks)%nat -> close_new n (bw_recv ks s) = bw_recv (close_new n ks) s.
Proof.
  intros L Ln. unfold close_new, bw_recv, sk_upd. assert (Lf : (s < length (firstn n ks))%nat) by (rewrite firstn_length; lia).
  rewrite set_nat_app by exact Lf. assert (E : sk (firstn n ks ++ map (fun k => k <| k_open := false |>) (skipn n ks)) s = sk ks s).
  { unfold sk. rewrite app_nth1 by exact Lf. rewrite <- (firstn_skipn n ks) at 2. rewrite app_nth1 by exact Lf. reflexivity. }
  rewrite E. set (x := sk ks s <| k_pend := _ |>). clearbody x. clear E Lf Ln. revert s ks L.
  induction n as [|n IH]; intros s ks L; [lia|]. destruct ks as [|y ks]; [destruct s; reflexivity|]. destruct s as [|s]; [reflexivity|]. cbn [set_nat firstn skipn app].
  f_equal. apply IH. lia.
Qed.
Lemma rks_len D ks : length (rks D ks) = length ks.
Proof. induction D as [|d D IH]; [reflexivity|]. etransitivity; [apply sk_upd_len|exact IH]. Qed.
Lemma rks_close D n ks : (forall d, In d D -> (snd d < n)%nat) -> (n <= length ks)%nat -> close_new n (rks D ks) = rks D (close_new n ks).
Proof.
  intros H L. induction D as [|d D IH]; [reflexivity|]. unfold rks. cbn [fold_right]. fold (rks D ks) (rks D (close_new n ks)).
  rewrite <- IH by (intros d' I; apply H; right; exact I). apply close_recv; [apply H; left; reflexivity|rewrite rks_len; exact L].
Qed.

(** ** which conditions on the actions are about what is theirs *)
Record local (P : world -> action -> Prop) : Prop := {
  lo_contract : forall w a, P w a -> contract w a;
  lo_names : forall w a, P w a -> new_names w a;
  lo_wake : forall w c, P w (AWake c);
  lo_crash : forall w c, P w (ACrash c);
  lo_intr : forall w w' a, (match a with AEintr _ | APoll _ _ => True | _ => False end) -> P w a -> P w' a;
  lo_call : forall w w' c x, cli w' c = cli w c -> fixd (w_ring w) (w_ring w') -> P w (ACall c x) -> P w' (ACall c x);
  lo_run : forall w w' a, (match a with AOpen _ _ _ | ARun _ _ => True | _ => False end) -> pends (w_ks w) (w_ks w') -> P w a -> P w' a }.

Record sim (P : world -> action -> Prop) (st w : world) (i : inside) (evs : list event) (w0 : world) (m0 : shm) (D : list (nat * nat)) : Prop := mksim {
  si_k : kexec P st w0 evs;
  si_hi : HI w0;
  si_p : P w0 (act (in_who i));
  si_r : ready w0 (in_who i);
  si_w : partway (body w0 (in_who i)) (shared w0) (in_p i) m0;
  si_e : w = wakes D (with_shared w0 m0);
  si_nd : NoDup (map fst D);
  si_ns : NoDup (map snd D);
  si_d : forall d, In d D -> ~ holds (in_who i) (fst d) /\ (exists p, wait_sid (cli w0 (fst d)) = Some (snd d, p)) /\ 0 < pend m0 (snd d)
           /\ advs (T (snd d)) (snd d) false (in_p i) m0;
  si_ring : w_ring w0 = w_ring (in_w i);
  si_h : forall c, holds (in_who i) c -> cli w0 c = cli (in_w i) c;
  si_l : length (w_ks w0) = length (w_ks (in_w i)) }.

Lemma wait_hnd cl s p : wait_sid cl = Some (s, p) -> exists b n, hnd b cl = Some (Wait n s p).
Proof.
  unfold wait_sid. destruct (c_pc cl); try discriminate.
  - destruct (c_r2w cl) as [[|n s' p']|] eqn:E; try discriminate. intros H. injection H as -> ->. exists false, n. exact E.
  - destruct (c_w2r cl) as [[|n s' p']|] eqn:E; try discriminate. intros H. injection H as -> ->. exists true, n. exact E.
Qed.
Lemma wait_lt w c s p : HI w -> wait_sid (cli w c) = Some (s, p) -> (s < length (w_ks w))%nat.
Proof. intros [home H] E. apply wait_hnd in E. destruct E as (b & n & E). apply (hi_lt _ _ H _ _ _ _ _ E). Qed.
Lemma wait_own w c c' s p p' : HI w -> wait_sid (cli w c) = Some (s, p) -> wait_sid (cli w c') = Some (s, p') -> c = c'.
Proof. intros [home H] E E'. apply wait_hnd in E. apply wait_hnd in E'. destruct E as (b & n & E), E' as (b' & n' & E'). apply (hi_own _ _ H _ _ _ _ _ _ _ _ _ E E'). Qed.
Lemma wait_in w c s p : wait_sid (cli w c) = Some (s, p) -> (c < length (w_cl w))%nat.
Proof.
  intros H. destruct (Nat.lt_ge_cases c (length (w_cl w))) as [L|L]; [exact L|]. unfold cli in H. rewrite nth_overflow in H by lia. discriminate H.
Qed.
(** ** in the middle of a section *)
Lemma partway_I {S A} (p : prog S A) s I Q p' s' : ok p s I Q -> (forall x s1, Q x s1 -> I s1) -> partway p s p' s' -> I s'.
Proof.
  intros [H1 H2] HQ W. destruct p' as [x|l f].
  - apply (HQ x). apply H2. rewrite (partway_exec _ _ _ _ W). reflexivity.
  - apply (H1 l). apply (partway_dies _ _ _ _ W). constructor.
Qed.
Lemma body_JS w x home p m : HIw home w -> new_names w (act x) -> partway (body w x) (shared w) p m -> JS (w_ks w) home m.
Proof.
  intros H N W. refine (partway_I _ _ _ _ _ _ (body_ok w x home H N) _ W).
  intros y m1. destruct x; intros (h & J & _); exists h; exact J.
Qed.
Lemma body_len w x p m : HI w -> new_names w (act x) -> partway (body w x) (shared w) p m -> (length (w_ks w) <= length (sh_ks m))%nat.
Proof. intros [home H] N W. destruct (body_JS _ _ _ _ _ H N W) as (h & _ & _ & _ & _ & K). apply K. Qed.
Lemma body_fixd w x p m : partway (body w x) (shared w) p m -> fixd (w_ring w) (sh_ring m).
Proof.
  intros W. destruct (each_partway sfix (fun s => fixd_r _) (fun a b c => fixd_t _ _ _) _ _ _ _ W) as [F _]; [destruct x; [apply sfix_section|apply sfix_open]|exact F].
Qed.
(** a socket of somebody who is asleep is touched at most once *)
Lemma body_once w x c s p0 p m : HI w -> new_names w (act x) -> ~ holds x c -> wait_sid (cli w c) = Some (s, p0) -> partway (body w x) (shared w) p m ->
  advs (T s) s false p m \/ pend m s = pend (shared w) s /\ forall v, partway (body w x) (setps s v (shared w)) p (setps s v m).
Proof.
  intros H N Nh E W. pose proof (wait_lt _ _ _ _ H E) as L.
  assert (Ln : forall p1 m1, partway (body w x) (shared w) p1 m1 -> (s < length (sh_ks m1))%nat) by (intros p1 m1 W1; pose proof (body_len _ _ _ _ H N W1); lia).
  destruct x as [c0 e|e flags pid]; cbn [body holds] in *.
  - destruct H as [home H]. assert (O : advs (T s) s true (fsection e (shr_sync e (w_ring w)) c0 (cli w c0)) (shared w)).
    { apply (section_once s e home); [exact L|apply H| |apply H|].
      - intros b. pose proof (hi_s _ _ H b) as G. destruct b; exact G.
      - intros n q E1. apply wait_hnd in E. destruct E as (b & n' & E). apply Nh. apply (hi_own _ _ H _ _ _ _ _ _ _ _ _ E E1). }
    destruct (adv_partway sh_ks kputs kgps kpgs (T s) s _ _ _ _ Ln O W) as [A|(_ & A & B)]; [left; exact A|right; auto].
  - left. apply (adv_partway0 sh_ks kputs kpgs (T s) s _ _ _ _ (open_never s e _ _ _ (shared w) L) W).
Qed.
