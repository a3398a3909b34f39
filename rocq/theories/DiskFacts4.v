(** * Facts about Disk.v, continued: what changes during a call (C84) *)
From Verif Require Import MicroFacts Crash Effects Final Pending PollFacts StepInv WorldFacts FineStep FineSect RingFacts QueueFacts.
From Verif Require Export DiskFacts3.

(** ** sizes are not changed *)
Definition geo (r r' : ring) : Prop := same_dims r r' /\ zlen (r_d r') = zlen (r_d r) /\ zlen (r_mv r') = zlen (r_mv r) /\ zlen (r_app r') = zlen (r_app r).
Lemma geo_r r : geo r r. Proof. repeat split. Qed.
Lemma geo_t a b c : geo a b -> geo b c -> geo a c.
Proof. intros (A & B & C & D) (A' & B' & C' & D'). split; [eapply same_dims_trans; eassumption|]. repeat split; congruence. Qed.
(** only the control page is changed *)
Definition ctl (r r' : ring) : Prop := same_dims r r' /\ r_d r' = r_d r /\ r_mv r' = r_mv r /\ r_app r' = r_app r.
Lemma ctl_r r : ctl r r. Proof. repeat split. Qed.
Lemma ctl_t a b c : ctl a b -> ctl b c -> ctl a c.
Proof. intros (A & B & C & D) (A' & B' & C' & D'). split; [eapply same_dims_trans; eassumption|]. repeat split; congruence. Qed.
Lemma ctl_geo a b : ctl a b -> geo a b.
Proof. intros (A & B & C & D). split; [exact A|]. rewrite B, C, D. repeat split. Qed.
Ltac gz := repeat match goal with
  | H : zset _ _ _ = Ok _ |- _ => apply zset_inv in H; destruct H as [_ ->] end;
  split; [repeat split|]; cbn; rewrite ?zlen_zupd; repeat split.
Ltac gstep := apply ea_at; let E := fresh "E" in intros ? ? ? E; cbn [obind] in E;
  repeat match type of E with
  | (if ?b then _ else _) = Ok _ => destruct b; try discriminate E
  | obind _ _ = Ok _ => apply obind_ok in E; let y := fresh "y" in destruct E as (y & ? & E); cbn [obind] in E
  | (let '(_, _) := ?x in _) = Ok _ => destruct x
  end; try discriminate E; apply ok_pair in E; destruct E as [<- <-]; (split; [gz|]).

Section Geo.
Lemma g_drop_loop {R} smm fuel niov need am ab (k : Z -> Z -> Z -> prog ring R) : (forall i z p, each geo (k i z p)) ->
  forall i z p, each geo (drop_loop_p smm fuel niov need am ab i z p k).
Proof.
  intros K. induction fuel as [|fuel IH]; intros i z p; cbn [drop_loop_p]; destruct (_ || _); try apply K.
  - apply ea_at. intros s s' p' E. discriminate E.
  - gstep. apply IH.
Qed.
Lemma g_drop {R} smm need niov (k : prog ring R) : each geo k -> each geo (drop_p smm need niov k).
Proof. intros K. unfold drop_p. gstep. apply g_drop_loop. intros i z p. do 6 gstep. exact K. Qed.
Lemma g_evict {R} smm len niov n i (k : Z -> Z -> Z -> prog ring R) : (forall e a mp, each geo (k e a mp)) ->
  forall mp e a, each geo (evict_p smm len mp n niov i e a k).
Proof. intros K. induction mp as [|mp IH]; intros e a; cbn [evict_p]; [apply K|]. gstep; first [apply K|apply IH]. Qed.
Lemma g_bytes {R} line (k : prog ring R) : each geo k -> forall bs pos, each geo (bytes_p line pos bs k).
Proof. intros K. induction bs as [|x t IH]; intros pos; cbn [bytes_p]; [exact K|]. gstep. apply IH. Qed.
Lemma g_copy {R} (k : prog ring R) : each geo k -> forall iov p, each geo (copy_p iov p k).
Proof.
  intros K. induction iov as [|b t IH]; intros p; cbn [copy_p]; [exact K|]. cbv zeta. do 3 gstep; apply g_bytes, g_bytes; gstep; apply IH.
Qed.
Lemma g_commit smm iov len : each geo (commit_p smm iov len false).
Proof. unfold commit_p. cbv zeta. gstep. apply g_evict. intros e a mp. do 4 gstep. apply g_copy. do 4 gstep. constructor. Qed.
Lemma g_write smm iov len : each geo (write_p smm iov len false).
Proof. unfold write_p. gstep; first [apply g_commit|apply g_drop, g_commit|constructor]. Qed.
Lemma g_app : forall bs pos, each geo (app_p pos bs).
Proof. induction bs as [|x t IH]; intros pos; cbn [app_p]; [constructor|]. gstep. apply IH. Qed.
Lemma c_read_loop {R} (k : rloc -> option seg -> prog ring R) : (forall x c, each ctl (k x c)) -> forall niov cur x, each ctl (read_loop_p niov cur x k).
Proof.
  intros K. induction niov as [|niov IH]; intros [s|] x; cbn [read_loop_p]; try apply K.
  cbv zeta. destruct (_ >? _); [apply K|]. gstep;
    (match goal with |- each _ (if ?b then _ else _) => destruct b end; [gstep; apply IH|]; do 4 gstep; apply IH).
Qed.
Lemma c_read q md buf niov : each ctl (read_p q md buf niov).
Proof. unfold read_p. cbv zeta. gstep. destruct o; [|constructor]. apply c_read_loop. intros x c. do 2 gstep. constructor. Qed.
Lemma c_wrote len niov : each ctl (wrote_p len niov).
Proof. unfold wrote_p. do 2 gstep. constructor. Qed.
Lemma c_reset t : each ctl (reset_p t).
Proof. unfold reset_p. do 2 gstep. constructor. Qed.
End Geo.
Lemma each_impl {S A} (R R' : S -> S -> Prop) (p : prog S A) : (forall a b, R a b -> R' a b) -> each R p -> each R' p.
Proof. intros H. induction 1 as [x|l f H1 H2 IH]; [constructor|]. constructor; intros; [apply H|]; eauto. Qed.

Definition mgeo (m m' : shm) : Prop := geo (sh_ring m) (sh_ring m').
Definition mctl (m m' : shm) : Prop := ctl (sh_ring m) (sh_ring m').
Lemma g_ring {A} (p : prog ring A) : each geo p -> each mgeo (on_ring p).
Proof. apply each_lift. intros t s H. exact H. Qed.
Lemma c_ring {A} (p : prog ring A) : each ctl p -> each mctl (on_ring p).
Proof. apply each_lift. intros t s H. exact H. Qed.
Lemma c_bw {A} b (p : prog bks A) : each mctl (on_bw b p).
Proof. apply (each_lift (fun _ _ => True)); [|apply each_any; auto]. intros t s _. unfold mctl. rewrite ring_bk. apply ctl_r. Qed.
Lemma mcg {A} (p : prog shm A) : each mctl p -> each mgeo p.
Proof. apply each_impl. intros a b. apply ctl_geo. Qed.
Ltac cx := repeat first
  [ apply ea_ret | apply c_bw | apply c_ring, c_read | apply c_ring, c_wrote | apply c_ring, c_reset
  | apply each_bind; [|intro] | match goal with |- each _ (At _ (fun _ => UB)) => apply each_stop; reflexivity
                   | |- each _ (match ?x with _ => _ end) => destruct x end ].
Lemma c_section e cl : only_control cl -> each mctl (section e cl).
Proof.
  unfold only_control, section. intros H. destruct (e_lock e); cbn [negb]; [|apply ea_ret]. destruct (c_pc cl); try contradiction; cx.
  apply c_ring. unfold setapp_p. destruct set; [contradiction|]. apply ea_at. intros s s' p' E.
  destruct (r_app_len s =? 0); [|destruct get]; apply ok_pair in E; destruct E as [<- <-]; (split; [apply ctl_r|constructor]).
Qed.
Lemma g_section e cl : each mgeo (section e cl).
Proof.
  unfold section. destruct (e_lock e); cbn [negb]; [|apply ea_ret]. destruct (c_pc cl); try (apply mcg; cx; fail).
  - apply each_bind; [apply g_ring, g_write|]. intros [|]; apply mcg; cx.
  - apply g_ring. unfold setapp_p. apply ea_at. intros s s' p' E.
    destruct (r_app_len s =? 0); [apply ok_pair in E; destruct E as [<- <-]; split; [apply geo_r|constructor]|].
    destruct get, set; try (destruct (negb _)); try (apply obind_ok in E; destruct E as (y & _ & E)); apply ok_pair in E; destruct E as [<- <-]; (split; [apply geo_r|first [constructor|apply g_app]]).
Qed.
Lemma c_open e w flags pid : each mctl (open_section e w flags pid).
Proof. unfold open_section, fail_open, close_opt. cx. Qed.
Lemma each_dies {S A} (R : S -> S -> Prop) (p : prog S A) : (forall s, R s s) -> (forall a b c, R a b -> R b c -> R a c) -> each R p ->
  forall s l s', dies_at p s l s' -> R s s'.
Proof.
  intros Rr Rt H. induction H as [x|l f H1 H2 IH]; intros s ln s' D; [apply dies_ret in D; contradiction|].
  apply dies_at_inv in D. destruct D as [[_ ->]|(s1 & p1 & E & D)]; [apply Rr|]. eapply Rt; [exact (H1 _ _ _ E)|exact (IH _ _ _ E _ _ _ D)].
Qed.
Lemma each_point {A} (R : shm -> shm -> Prop) (p : prog shm A) m m1 : (forall s, R s s) -> (forall a b c, R a b -> R b c -> R a c) -> each R p -> point p m m1 -> R m m1.
Proof. intros Rr Rt H [[l D]|[x X]]; [eapply each_dies; eassumption|eapply each_exec; eassumption]. Qed.
Lemma mgeo_t : forall a b c, mgeo a b -> mgeo b c -> mgeo a c. Proof. intros a b c. apply geo_t. Qed.
Lemma mctl_t : forall a b c, mctl a b -> mctl b c -> mctl a c. Proof. intros a b c. apply ctl_t. Qed.

(** ** the images that may survive *)
Lemma fails_points r w evs u a x : dreach faultless r w evs u -> has (r_gflags r) SHR_SYNC = true -> was_opened evs -> fails_in w u a x ->
  exists h, survives (Some h) x /\ forall s, In s h -> exists m1, point (kprog w a) (shared w) m1 /\ im_ring s = sh_ring m1.
Proof.
  intros D SY O (line & m & u' & F & S). destruct (synced_inv _ _ _ _ D SY) as [I J]. specialize (J O).
  assert (K : from (kprog w a) (shared w) u u').
  { destruct a as [e f p|c y|c e|c|c|c fd|c]; cbn [dprog kprog] in *; try (apply dies_ret in F; contradiction).
    - exact (proj1 (open_dies _ _ _ _ _ _ _ _ _ F)).
    - destruct (c_live (cli w c)); [|apply dies_ret in F; contradiction]. exact (proj1 (section_dies _ _ _ _ _ _ _ F)). }
  destruct K as [K1 K2]. specialize (K1 J). destruct u' as [h'|]; [|congruence]. exists h'. split; [exact S|]. intros s Hs.
  destruct (K2 _ eq_refl s Hs) as [(h & -> & Hh)|(m1 & P & ->)].
  - exists (shared w). split; [apply point_here|]. exact (I s Hh).
  - exists m1. split; [exact P|reflexivity].
Qed.
Lemma zget_out {A} (l : list A) k : zlen l <= k -> zget l k = UB.
Proof. intros H. unfold zget. pose proof (zlen_nonneg l). destruct (0 <=? k) eqn:E; [|reflexivity]. unfold zlen in H. rewrite (proj2 (nth_error_None l (Z.to_nat k))); [reflexivity|lia]. Qed.
