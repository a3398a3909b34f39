(** * C32, C46 in the form of Props5.v, and their witnesses *)
From Verif Require Export Crash Witness Final.

Lemma p_write_left r w evs iov woken line s : reach contract r w evs -> okb (r_n (w_ring w)) (r_mm (w_ring w)) iov = true ->
  dies_at (write_p (r_mm (w_ring w)) iov (nbytes iov) woken) (w_ring w) line s -> left_w (w_ring w) (committed evs) iov line s.
Proof.
  intros H O D. destruct (reach_inv contract r w evs (fun _ _ x => x) H) as (fsz & _ & _ & _ & W & _).
  apply okb_ok in O. pose proof (write_always (w_ring w) (committed evs) iov woken (wi_ring _ _ _ W) O) as A.
  apply (always_dies _ _ _ _ _ D A).
Qed.
Lemma p_unread r w evs iov woken line s : reach contract r w evs -> okb (r_n (w_ring w)) (r_mm (w_ring w)) iov = true ->
  dies_at (write_p (r_mm (w_ring w)) iov (nbytes iov) woken) (w_ring w) line s ->
  line <> 663 -> line <> 664 ->
  let before := ring_unread (w_ring w) in
  let kept := fit_suffix (r_n (w_ring w)) (r_mm (w_ring w)) iov before in
  ring_unread s = if (line =? 929) || (line <=? 662) then before else if line <? 1004 then kept else kept ++ iov.
Proof.
  intros H O D L1 L2. destruct (p_write_left r w evs iov woken line s H O D L1 L2) as (s0 & hh & _ & _ & _ & _ & _ & U & _). exact U.
Qed.
Lemma p_usable r w evs iov woken line s : reach contract r w evs -> okb (r_n (w_ring w)) (r_mm (w_ring w)) iov = true ->
  (r_farm r = true -> zlen (committed evs) + zlen iov < W64) ->
  dies_at (write_p (r_mm (w_ring w)) iov (nbytes iov) woken) (w_ring w) line s ->
  torn (w_ring w) s line = false -> works_as_queue s.
Proof.
  intros H O B D T. assert (L : line <> 663 /\ line <> 664) by (split; intros ->; discriminate T). destruct L as [L1 L2].
  destruct (p_write_left r w evs iov woken line s H O D L1 L2) as (s0 & hh & _ & X & _ & SF & HH & _). destruct (X T) as [Es I].
  destruct (reach_inv contract r w evs (fun _ _ x => x) H) as (fsz & _ & _ & SB & W & _ & _ & EF & _).
  apply (works_inv s hh I). intros Hf. rewrite Es, (same_fixed_farm _ _ SF), EF in Hf. specialize (B Hf).
  pose proof (zlen_nonneg iov). destruct HH as [[-> _]|[-> _]]; rewrite ?zlen_app; lia.
Qed.
Lemma p_drain r w evs iov woken line s ops : reach contract r w evs -> okb (r_n (w_ring w)) (r_mm (w_ring w)) iov = true ->
  r_farm r = false -> dies_at (write_p (r_mm (w_ring w)) iov (nbytes iov) woken) (w_ring w) line s ->
  line <> 663 -> line <> 664 -> forallb is_read ops = true ->
  exists s' xs, r_run s ops = Ok (s', xs) /\ map got xs = drain (ring_unread s) ops.
Proof.
  intros H O Hf D L1 L2 R. destruct (p_write_left r w evs iov woken line s H O D L1 L2) as (s0 & hh & A & _ & I0 & SF & _).
  destruct (reach_inv contract r w evs (fun _ _ x => x) H) as (fsz & _ & _ & SB & W & _ & _ & EF & _).
  assert (Hf0 : r_farm s0 = false) by (rewrite (same_fixed_farm _ _ SF); congruence).
  apply (drain_inv ops R s s0 hh A); [|exact Hf0]. constructor; [exact I0|congruence].
Qed.
Lemma p_read_left r w evs q md buf niov line s : reach contract r w evs -> 0 < zlen buf -> 0 <= niov ->
  dies_at (read_p q md buf niov) (w_ring w) line s -> torn_read line = false ->
  works_as_queue s /\ ring_retained s = ring_retained (w_ring w)
  /\ (if r_farm r then ring_unread s = ring_unread (w_ring w)
      else exists c, 0 <= c <= zlen (take_fit (Z.to_nat niov) (usable buf) (ring_unread (w_ring w)))
                     /\ ring_unread s = skipn (Z.to_nat c) (ring_unread (w_ring w))).
Proof.
  intros H Hb Hv D T. destruct (reach_inv contract r w evs (fun _ _ x => x) H) as (fsz & _ & _ & _ & W & _ & SB & EF & _).
  pose proof (wi_ring _ _ _ W) as I. pose proof (read_always (w_ring w) _ q md buf niov I Hb Hv) as A.
  destruct (always_dies _ _ _ _ _ D A T) as (Is & SF & Emp & Em & C). rewrite EF in *.
  split; [|split].
  - apply (works_inv s (committed evs) Is). intros Hf. apply SB. rewrite <- (same_fixed_farm _ _ SF). exact Hf.
  - rewrite (retained_eq _ _ (i_inv0 _ _ Is)), (retained_eq _ _ (i_inv0 _ _ I)), Emp. reflexivity.
  - rewrite (unread_eq _ _ (i_inv0 _ _ Is)), (unread_eq _ _ (i_inv0 _ _ I)) in *.
    pose proof (i_m _ _ (i_inv0 _ _ I)). pose proof (i_m _ _ (i_inv0 _ _ Is)). pose proof (w_old _ _ _ (i_win _ _ (i_inv0 _ _ I))).
    destruct (r_farm r); [rewrite Em by reflexivity; reflexivity|].
    exists (r_m (w_ring w) - r_m s). split; [exact C|].
    unfold lastn. rewrite skipn_skipn. f_equal. lia.
Qed.
(** reading a ring with SHR_FARM stores nothing but the counters *)
Lemma p_read_farm r w evs q md buf niov line s : reach contract r w evs -> 0 < zlen buf -> 0 <= niov -> r_farm r = true ->
  dies_at (read_p q md buf niov) (w_ring w) line s -> torn_read line = false.
Proof.
  intros H Hb Hv Hf D. destruct (reach_inv contract r w evs (fun _ _ x => x) H) as (fsz & _ & _ & _ & W & _ & SB & EF & _).
  rewrite Hf in EF. clear H W SB.
  assert (A : always (fun line (_ : ring) => torn_read line = false) (read_p q md buf niov) (w_ring w)).
  2:{ apply (always_dies _ _ _ _ _ D A). }
  clear D. unfold read_p. apply always_at; [reflexivity|]. intros s1 p1 E1.
  destruct (next_msg_info (w_ring w) q md) as [[[q1 md1] cur]| | |] eqn:EN; cbn [obind] in E1; try discriminate.
  match type of E1 with Ok (_, ?x) = _ => set (body := x) in E1 end. injection E1 as <- <-. unfold body. clear body.
  destruct cur as [sg|]; [|exact Logic.I]. set (r0 := w_ring w) in *. clearbody r0.
  assert (F : forall niov cur x k, (forall x cur r, r_farm r = true -> always (fun line (_ : ring) => torn_read line = false) (k x cur) r) ->
    forall r, r_farm r = true -> always (fun line (_ : ring) => torn_read line = false)
      (read_loop_p niov cur x k : prog ring (Z * Z * option (rloc * option seg))) r).
  { clear. induction niov as [|niov IH]; intros [sg|] x k HK r Hf; cbn [read_loop_p]; try (apply HK; exact Hf).
    destruct (_ >? _); [apply HK; exact Hf|]. apply always_at; [reflexivity|]. intros s1 p1 E1.
    destruct (rd_mem (seg_pos sg) (seg_l1 sg) (r_d r)) as [a| | |]; cbn [obind] in E1; try discriminate.
    destruct (wr_mem (rl_off x) a (rl_buf x)) as [bf| | |]; cbn [obind] in E1; try discriminate.
    match type of E1 with obind (if ?c then ?A else ?B) _ = _ => destruct (if c then A else B) as [bf2| | |] end; cbn [obind] in E1; try discriminate.
    rewrite Hf in E1. injection E1 as <- <-. apply always_at; [reflexivity|]. intros s1 p1 E1.
    destruct (next_msg_info r _ _) as [[[q' md'] cur']| | |]; cbn [obind] in E1; try discriminate.
    injection E1 as <- <-. apply IH; [exact HK|exact Hf]. }
  apply F; [|exact EF]. intros x cur r1 _.
  apply always_at; [reflexivity|]. intros s1 p1 E1. injection E1 as <- <-.
  apply always_at; [reflexivity|]. intros s1 p1 E1. injection E1 as <- <-. exact Logic.I.
Qed.

(** ** witnesses *)
Fixpoint kill_at {S R} (k : nat) (p : prog S R) (s : S) : option (Z * S) :=
  match p, k with
  | At l _, O => Some (l, s)
  | At _ f, S k => match f s with Ok (s', p') => kill_at k p' s' | _ => None end
  | Ret _, _ => None
  end.
Lemma kill_dies {S R} : forall k (p : prog S R) s l s', kill_at k p s = Some (l, s') -> dies_at p s l s'.
Proof.
  induction k as [|k IH]; intros [x|l0 f] s l s' H; cbn [kill_at] in H; try discriminate.
  - injection H as <- <-. constructor.
  - destruct (f s) as [[s1 p1]| | |] eqn:E; try discriminate. econstructor; [exact E|apply IH, H].
Qed.
Definition killed_writing (w : world) (iov : list bytes) (k : nat) : option (Z * ring) :=
  kill_at k (write_p (r_mm (w_ring w)) iov (nbytes iov) true) (w_ring w).
Definition killed_reading (w : world) (q md : Z) (buf : bytes) (niov : Z) (k : nat) : option (Z * ring) :=
  kill_at k (read_p q md buf niov) (w_ring w).
Definition left_ring (x : option (Z * ring)) : ring := match x with Some (_, s) => s | None => plain_ring end.
Definition left_line (x : option (Z * ring)) : Z := match x with Some (l, _) => l | None => 0 end.
(** results only *)
Definition then_run (x : option (Z * ring)) (ops : list qop) : option (list qres) :=
  match x with Some (_, s) => match r_run s ops with Ok (_, xs) => Some xs | _ => None end | None => None end.
Lemma refute_write ks w0 r fsz iov k line ops xs (P : ring -> Prop) : w0 = world0 r fsz -> fresh r fsz -> plays w0 ks = true ->
  okb (r_n (w_ring (sw w0 ks))) (r_mm (w_ring (sw w0 ks))) iov = true ->
  left_line (killed_writing (sw w0 ks) iov k) = line -> P (w_ring (sw w0 ks)) ->
  then_run (killed_writing (sw w0 ks) iov k) ops = Some xs ->
  exists w evs s, reach contract r w evs /\ okb (r_n (w_ring w)) (r_mm (w_ring w)) iov = true /\ P (w_ring w)
    /\ dies_at (write_p (r_mm (w_ring w)) iov (nbytes iov) true) (w_ring w) line s
    /\ exists s', r_run s ops = Ok (s', xs).
Proof.
  intros -> F Pl O L HP T. exists (sw (world0 r fsz) ks), (se (world0 r fsz) ks).
  unfold then_run, killed_writing in *. destruct (kill_at _ _ _) as [[l s]|] eqn:E; [|discriminate]. cbn [left_line] in L. subst l.
  exists s. split; [apply reach_contract; assumption|]. split; [exact O|]. split; [exact HP|]. split; [apply (kill_dies k), E|].
  destruct (r_run s ops) as [[s' xs']| | |]; try discriminate. injection T as <-. exists s'. reflexivity.
Qed.
Lemma refute_read ks w0 r fsz q md buf niov k line ops xs (P : ring -> Prop) : w0 = world0 r fsz -> fresh r fsz -> plays w0 ks = true ->
  left_line (killed_reading (sw w0 ks) q md buf niov k) = line -> P (w_ring (sw w0 ks)) ->
  then_run (killed_reading (sw w0 ks) q md buf niov k) ops = Some xs ->
  exists w evs s, reach contract r w evs /\ P (w_ring w)
    /\ dies_at (read_p q md buf niov) (w_ring w) line s
    /\ exists s', r_run s ops = Ok (s', xs).
Proof.
  intros -> F Pl L HP T. exists (sw (world0 r fsz) ks), (se (world0 r fsz) ks).
  unfold then_run, killed_reading in *. destruct (kill_at _ _ _) as [[l s]|] eqn:E; [|discriminate]. cbn [left_line] in L. subst l.
  exists s. split; [apply reach_contract; assumption|]. split; [exact HP|]. split; [apply (kill_dies k), E|].
  destruct (r_run s ops) as [[s' xs']| | |]; try discriminate. injection T as <-. exists s'. reflexivity.
Qed.
