From Verif Require Export Create InitFacts.

Lemma blit_step {A} (dn : list A) x y j : zset (dn ++ y :: j) (zlen dn) x = Ok ((dn ++ [x]) ++ j).
Proof.
  rewrite zset_ok by (rewrite zlen_app, zlen_cons; pose proof (zlen_nonneg dn); pose proof (zlen_nonneg j); lia).
  f_equal. unfold zupd, zlen. rewrite Nat2Z.id. induction dn as [|c dn IH]; [reflexivity|]. cbn [length app set_nat]. rewrite IH. reflexivity.
Qed.
Lemma app_dies k : forall bs dn c line c', r_app (f_ring c) = dn ++ repeat 0 (length bs) -> dies_at (app_p (zlen dn) bs k) c line c' ->
  (line = 289 /\ exists d t, bs = d ++ t /\ c' = mkcf (f_sz c) (f_magic c) (f_ring c <| r_app := dn ++ d ++ repeat 0 (length t) |>))
  \/ dies_at k (mkcf (f_sz c) (f_magic c) (f_ring c <| r_app := dn ++ bs |>)) line c'.
Proof.
  induction bs as [|x bs IH]; intros dn c line c' E D; cbn [app_p] in D.
  - right. cbn [length repeat] in E. rewrite <- E. destruct c as [sz m r]; destruct r; exact D.
  - inversion D as [ln f s A B C|ln f s s' p' l s'' F D' A B C]; subst.
    + left. split; [reflexivity|]. exists [], (x :: bs). split; [reflexivity|]. cbn [app]. rewrite <- E. destruct c' as [sz m r]; destruct r; reflexivity.
    + cbn [length repeat] in E. rewrite E, blit_step in F. cbn [obind] in F. injection F as <- <-.
      replace (zlen dn + 1) with (zlen (dn ++ [x])) in D' by (rewrite zlen_app; reflexivity).
      pose proof (fun H => IH (dn ++ [x]) _ line c' H D') as Q. specialize (Q eq_refl). destruct Q as [(-> & d & t & -> & ->)|D2].
      * left. split; [reflexivity|]. exists (x :: d), t. split; [reflexivity|]. cbn [f_sz f_magic f_ring]. rewrite <- app_assoc. destruct c as [sz m r]; destruct r; reflexivity.
      * right. cbn [f_sz f_magic f_ring] in D2. rewrite <- app_assoc in D2. destruct c as [sz m r]; destruct r; exact D2.
Qed.

(** the flags that are set when the process is killed just before [line] *)
Definition unset (line : Z) : Z :=
  Z.lor (if line <=? 284 then SHR_SYNC else 0) (Z.lor (if line <=? 285 then SHR_DROP else 0)
    (Z.lor (if line <=? 286 then SHR_FARM else 0) (if line <=? 287 then SHR_MLOCK else 0))).
Definition flags_at (flags line : Z) : Z := Z.land flags (Z.lnot (unset line)).

Definition early (c : cfile) : Prop := r_n (f_ring c) = 0 /\ r_i (f_ring c) = 0.
Definition late (l : layout) (flags : Z) (app : bytes) (line : Z) (c : cfile) : Prop :=
  282 < line <= 292 /\ f_sz c = l_sz l /\ f_magic c = MAGIC
  /\ exists d t, app = d ++ t /\ f_ring c = ring_of_layout l (flags_at flags line) (d ++ repeat 0 (length t)) /\ (line = 292 -> t = [] \/ has flags SHR_APPDATA_1 = false).
Lemma has_at flags line b : 0 <= b -> has (flags_at flags line) (2 ^ b) = has flags (2 ^ b) && negb (Z.testbit (unset line) b).
Proof. intros H. rewrite !has_bit by exact H. unfold flags_at. rewrite Z.land_spec, Z.lnot_spec by exact H. reflexivity. Qed.
Lemma has_sync flags ln : has (flags_at flags ln) SHR_SYNC = has flags SHR_SYNC && (284 <? ln).
Proof. change SHR_SYNC with (2 ^ 5). rewrite has_at by lia. f_equal. unfold unset. destruct (Z.leb_spec ln 284), (ln <=? 285), (ln <=? 286), (ln <=? 287), (Z.ltb_spec 284 ln); try reflexivity; lia. Qed.
Lemma has_drop flags ln : has (flags_at flags ln) SHR_DROP = has flags SHR_DROP && (285 <? ln).
Proof. change SHR_DROP with (2 ^ 1). rewrite has_at by lia. f_equal. unfold unset. destruct (ln <=? 284), (Z.leb_spec ln 285), (ln <=? 286), (ln <=? 287), (Z.ltb_spec 285 ln); try reflexivity; lia. Qed.
Lemma has_farm flags ln : has (flags_at flags ln) SHR_FARM = has flags SHR_FARM && (286 <? ln).
Proof. change SHR_FARM with (2 ^ 3). rewrite has_at by lia. f_equal. unfold unset. destruct (ln <=? 284), (ln <=? 285), (Z.leb_spec ln 286), (ln <=? 287), (Z.ltb_spec 286 ln); try reflexivity; lia. Qed.
Lemma has_mlock flags ln : has (flags_at flags ln) SHR_MLOCK = has flags SHR_MLOCK && (287 <? ln).
Proof. change SHR_MLOCK with (2 ^ 6). rewrite has_at by lia. f_equal. unfold unset. destruct (ln <=? 284), (ln <=? 285), (ln <=? 286), (Z.leb_spec ln 287), (Z.ltb_spec 287 ln); try reflexivity; lia. Qed.
Lemma has_app flags ln : has (flags_at flags ln) SHR_APPDATA_1 = has flags SHR_APPDATA_1.
Proof. change SHR_APPDATA_1 with (2 ^ 2). rewrite has_at by lia. unfold unset. destruct (ln <=? 284), (ln <=? 285), (ln <=? 286), (ln <=? 287); cbn; apply andb_true_r. Qed.
Lemma has_max flags ln : has (flags_at flags ln) SHR_MAXMSGS_2 = has flags SHR_MAXMSGS_2.
Proof. change SHR_MAXMSGS_2 with (2 ^ 4). rewrite has_at by lia. unfold unset. destruct (ln <=? 284), (ln <=? 285), (ln <=? 286), (ln <=? 287); cbn; apply andb_true_r. Qed.
Lemma at_dies {S R} line f (s : S) l s' : dies_at (@At S R line f) s l s' -> (l = line /\ s' = s) \/ exists s1 p1, f s = Ok (s1, p1) /\ dies_at p1 s1 l s'.
Proof. intros D. inversion D; subst; [left; auto|right; eauto]. Qed.
Lemma at_ok {S R} line f (s : S) l s' s1 p1 : f s = Ok (s1, p1) -> dies_at (@At S R line f) s l s' -> (l = line /\ s' = s) \/ dies_at p1 s1 l s'.
Proof. intros E D. apply at_dies in D. destruct D as [D|(s2 & p2 & E2 & D)]; [left; exact D|right]. rewrite E in E2. injection E2 as <- <-. exact D. Qed.
Lemma st_dies line g k c l c' : dies_at (st line g k) c l c' -> (l = line /\ c' = c) \/ dies_at k (mkcf (f_sz c) (f_magic c) (g (f_ring c))) l c'.
Proof. intros D. apply at_dies in D. destruct D as [D|(s1 & p1 & E & D)]; [left; exact D|right]. injection E as <- <-. exact D. Qed.
Lemma magic_dies k : forall bs dn c line c', f_magic c = dn ++ repeat 0 (length bs) -> dies_at (magic_p (zlen dn) bs k) c line c' ->
  (line = 277 /\ f_ring c' = f_ring c) \/ dies_at k (mkcf (f_sz c) (dn ++ bs) (f_ring c)) line c'.
Proof.
  induction bs as [|x bs IH]; intros dn c line c' E D; cbn [magic_p] in D.
  - right. cbn [length repeat] in E. rewrite <- E. destruct c; exact D.
  - apply at_dies in D. destruct D as [[-> ->]|(s1 & p1 & F & D)]; [left; auto|]. cbn [length repeat] in E. rewrite E, blit_step in F. cbn [obind] in F. injection F as <- <-.
    replace (zlen dn + 1) with (zlen (dn ++ [x])) in D by (rewrite zlen_app; reflexivity).
    destruct (IH (dn ++ [x]) (mkcf (f_sz c) ((dn ++ [x]) ++ repeat 0 (length bs)) (f_ring c)) line c' eq_refl D) as [Q|Q]; [left; exact Q|right].
    cbn [f_sz f_ring] in Q. rewrite <- app_assoc in Q. exact Q.
Qed.
Ltac one D := apply st_dies in D; cbn [f_sz f_magic f_ring] in D; destruct D as [[-> ->]|D].
Lemma create_dies l flags ad line c : l_app l = (if has flags SHR_APPDATA_1 then zlen ad else 0) ->
  dies_at (create l flags ad) (created l) line c -> (line <= 282 /\ early c) \/ late l flags ad line c.
Proof.
  intros La D. unfold create, created in D.
  do 3 (eapply at_ok in D; [|reflexivity]; destruct D as [[-> ->]|D]; [left; split; [lia|split; reflexivity]|]).
  cbn [f_sz f_magic f_ring] in D.
  change 0 with (zlen (@nil Z)) in D at 1. apply magic_dies in D; [|reflexivity]. cbn [f_sz f_magic f_ring app] in D.
  destruct D as [[-> D]|D]; [left; split; [lia|]; unfold early; rewrite D; split; reflexivity|].
  do 5 (one D; [left; split; [lia|split; reflexivity]|]).
  (* the flags, one after the other *)
  set (R := fun g a => mkring g (l_n l) 0 0 0 0 0 0 0 stat0 (l_mm l) (l_mv l) (l_pad l) (l_app l)
     (repeat 0 (Z.to_nat (l_n l))) (repeat (mkslot 0 0) (Z.to_nat (l_mv l / SIZEOF_MSG))) a).
  set (z := repeat 0 (Z.to_nat (l_app l))) in *.
  assert (O : forall b x g a, orflag flags b x (R g a) = R (if has flags b then Z.lor g x else g) a).
  { intros b x g a. unfold orflag. destruct (has flags b); reflexivity. }
  assert (RA : forall ln d t, 0 <= ln -> d ++ t = ad -> R (init_gflags (flags_at flags ln)) (if has flags SHR_APPDATA_1 then d ++ repeat 0 (length t) else z) =
     ring_of_layout l (flags_at flags ln) (d ++ repeat 0 (length t))).
  { intros ln d t Hl He. unfold ring_of_layout, R, z. rewrite has_app. rewrite La. destruct (has flags SHR_APPDATA_1); reflexivity. }
  assert (Z0 : z = if has flags SHR_APPDATA_1 then [] ++ repeat 0 (length ad) else z).
  { unfold z. rewrite La. destruct (has flags SHR_APPDATA_1); [unfold zlen; rewrite Nat2Z.id; reflexivity|reflexivity]. }
  assert (L : forall ln g, 282 < ln <= 287 -> init_gflags (flags_at flags ln) = g -> late l flags ad ln (mkcf (l_sz l) MAGIC (R g z))).
  { intros ln g Hl Hi. split; [lia|]. split; [reflexivity|]. split; [reflexivity|]. exists [], ad. split; [reflexivity|]. split; [|lia].
    cbn [f_ring]. rewrite Z0, <- Hi. apply RA; [lia|reflexivity]. }
  match type of D with dies_at _ (mkcf _ _ ?r) _ _ => change r with (R 0 z) in D end.
  Ltac gf := unfold init_gflags; rewrite has_sync, has_drop, has_farm, has_mlock; cbn [Z.ltb Z.compare Pos.compare Pos.compare_cont]; rewrite ?andb_false_r, ?andb_true_r; reflexivity.
  one D; [right; apply L; [lia|gf]|].
  change (R 0 z <| r_gflags := 0 |>) with (R 0 z) in D.
  one D; [right; apply L; [lia|gf]|]. rewrite O in D.
  one D; [right; apply L; [lia|gf]|]. rewrite O in D.
  one D; [right; apply L; [lia|gf]|]. rewrite O in D.
  one D; [right; apply L; [lia|gf]|]. rewrite O in D.
  match type of D with dies_at _ (mkcf _ _ (R ?g _)) _ _ => assert (G : forall ln, 287 < ln -> g = init_gflags (flags_at flags ln)) end.
  { intros ln Hl. unfold init_gflags; rewrite has_sync, has_drop, has_farm, has_mlock. replace (284 <? ln) with true by lia. replace (285 <? ln) with true by lia.
    replace (286 <? ln) with true by lia. replace (287 <? ln) with true by lia. rewrite !andb_true_r. reflexivity. }
  match type of D with dies_at _ (mkcf _ _ (R ?g _)) _ _ => set (g' := g) in * end. clearbody g'.
  destruct (has flags SHR_APPDATA_1) eqn:HA.
  - change 0 with (zlen (@nil Z)) in D. apply app_dies in D.
    2:{ cbn [f_ring]. unfold R. cbn [r_app]. rewrite Z0. reflexivity. }
    cbn [f_sz f_magic f_ring] in D. destruct D as [(-> & d & t & Ed & ->)|D].
    + right. split; [lia|]. split; [reflexivity|]. split; [reflexivity|]. exists d, t. split; [exact Ed|]. split; [|discriminate].
      cbn [f_ring]. rewrite <- RA by (auto; lia). rewrite <- G by lia. reflexivity.
    + apply at_dies in D; destruct D as [[-> ->]|(s1 & p1 & F & D)]; [|injection F as <- <-; inversion D]. right. split; [lia|]. split; [reflexivity|]. split; [reflexivity|]. exists ad, []. split; [symmetry; apply app_nil_r|]. split; [|auto].
      cbn [f_ring]. rewrite <- RA by (try apply app_nil_r; lia). rewrite <- G by lia. cbn [length repeat app]. rewrite app_nil_r. reflexivity.
  - apply at_dies in D; destruct D as [[-> ->]|(s1 & p1 & F & D)]; [|injection F as <- <-; inversion D]. right. split; [lia|]. split; [reflexivity|]. split; [reflexivity|]. exists ad, []. split; [symmetry; apply app_nil_r|]. split; [|auto].
    cbn [f_ring]. rewrite <- RA by (try apply app_nil_r; lia). rewrite <- G by lia. reflexivity.
Qed.

(** ** what a later shr_open makes of it *)
Lemma early_refused c : early c -> ~ accepts c.
Proof.
  intros [N I]. unfold accepts, validate_ring. rewrite N, I. destruct (_ <? MIN_RING_SZ); [discriminate|]. destruct (negb _); [discriminate|].
  destruct (_ <? s64 _); [discriminate|]. destruct (_ >? 0); discriminate.
Qed.
Lemma c_refused data_sz flags ad maxarg l line c : init_layout data_sz flags (zlen ad) maxarg = Ok (Some l) ->
  dies_at (create l flags ad) (created l) line c -> line <= 282 -> ~ accepts c.
Proof.
  intros H D L. assert (La : l_app l = if has flags SHR_APPDATA_1 then zlen ad else 0).
  { unfold init_layout in H. destruct (_ || _); [discriminate|]. destruct (_ <? SIZEOF_PTR); [|discriminate]. destruct (_ =? 0) in H; [|discriminate]. injection H as <-. reflexivity. }
  destruct (create_dies _ _ _ _ _ La D) as [[_ E]|E]; [apply early_refused, E|]. destruct E as [E _]. lia.
Qed.
Lemma init_layout_flags data_sz flags flags' appsize maxarg : flags' <= flags -> has flags' SHR_APPDATA_1 = has flags SHR_APPDATA_1 -> has flags' SHR_MAXMSGS_2 = has flags SHR_MAXMSGS_2 ->
  forall l, init_layout data_sz flags appsize maxarg = Ok (Some l) -> init_layout data_sz flags' appsize maxarg = Ok (Some l).
Proof.
  intros L A M l. unfold init_layout. rewrite A, M. destruct (Z.geb_spec flags SHR_OPEN_FENCE) as [F|F]; [discriminate|].
  destruct (Z.geb_spec flags' SHR_OPEN_FENCE) as [F'|F']; [lia|]. auto.
Qed.
Lemma flags_at_le flags ln : 0 <= flags -> 0 <= flags_at flags ln <= flags.
Proof.
  intros H. apply Z.ldiff_le; [exact H|]. apply Z.bits_inj'. intros n Hn. unfold flags_at.
  rewrite Z.ldiff_spec, Z.land_spec, Z.bits_0. destruct (Z.testbit flags n), (Z.testbit _ n); reflexivity.
Qed.
Lemma c_accepted data_sz flags ad maxarg l line c : 0 <= data_sz -> 0 <= flags -> 0 <= maxarg ->
  SIZEOF_CTRL + data_sz + SIZEOF_PTR + SIZEOF_MSG * l_mm l + zlen ad <= SSIZE_MAX ->
  init_layout data_sz flags (zlen ad) maxarg = Ok (Some l) ->
  dies_at (create l flags ad) (created l) line c -> accepts c ->
  282 < line <= 292
  /\ fresh (f_ring c) (f_sz c)
  /\ exists flags' ad', f_sz c = l_sz l /\ f_ring c = ring_of_layout l flags' ad'
     /\ has flags' SHR_SYNC = has flags SHR_SYNC && (284 <? line)
     /\ has flags' SHR_DROP = has flags SHR_DROP && (285 <? line)
     /\ has flags' SHR_FARM = has flags SHR_FARM && (286 <? line)
     /\ has flags' SHR_MLOCK = has flags SHR_MLOCK && (287 <? line)
     /\ has flags' SHR_APPDATA_1 = has flags SHR_APPDATA_1
     /\ (exists d t, ad = d ++ t /\ ad' = d ++ repeat 0 (length t))
     /\ (line = 292 -> f_ring c = ring_of_layout l flags ad).
Proof.
  intros H1 H2 H3 H4 H D A. assert (La : l_app l = if has flags SHR_APPDATA_1 then zlen ad else 0).
  { unfold init_layout in H. destruct (_ || _); [discriminate|]. destruct (_ <? SIZEOF_PTR); [|discriminate]. destruct (_ =? 0) in H; [|discriminate]. injection H as <-. reflexivity. }
  destruct (create_dies _ _ _ _ _ La D) as [[_ E]|E]; [elim (early_refused _ E A)|]. destruct E as (L & Sz & M & d & t & Ed & Er & Et).
  split; [exact L|]. pose proof (flags_at_le flags line H2) as Fl. split.
  - rewrite Sz, Er. constructor. exists data_sz, (flags_at flags line), (zlen ad), maxarg, l, (d ++ repeat 0 (length t)).
    split; [apply (init_layout_flags data_sz flags); [lia|apply has_app|apply has_max|exact H]|]. split; [reflexivity|]. pose proof (zlen_nonneg ad). repeat split; try lia.
    + rewrite Ed, !zlen_app. unfold zlen. rewrite repeat_length. reflexivity.
    + exact H4.
  - exists (flags_at flags line), (d ++ repeat 0 (length t)). split; [exact Sz|]. split; [exact Er|]. split; [apply has_sync|]. split; [apply has_drop|].
    split; [apply has_farm|]. split; [apply has_mlock|]. split; [apply has_app|]. split; [exists d, t; auto|]. intros ->. rewrite Er. unfold ring_of_layout.
    rewrite has_app. f_equal.
    + unfold init_gflags. rewrite has_sync, has_drop, has_farm, has_mlock. cbn [Z.ltb Z.compare Pos.compare Pos.compare_cont]. rewrite !andb_true_r. reflexivity.
    + destruct (Et eq_refl) as [->|F]; [|rewrite F; reflexivity]. cbn [length repeat]. rewrite app_nil_r in *. rewrite Ed. reflexivity.
Qed.
(** not killed: the same file as in one step *)
Lemma exec_app k : forall bs dn c, r_app (f_ring c) = dn ++ repeat 0 (length bs) ->
  exec_all (app_p (zlen dn) bs k) c = exec_all k (mkcf (f_sz c) (f_magic c) (f_ring c <| r_app := dn ++ bs |>)).
Proof.
  induction bs as [|x bs IH]; intros dn c E; cbn [app_p exec_all].
  - cbn [length repeat] in E. rewrite <- E. destruct c as [sz m r]; destruct r; reflexivity.
  - cbn [length repeat] in E. rewrite E, blit_step. cbn [obind]. replace (zlen dn + 1) with (zlen (dn ++ [x])) by (rewrite zlen_app; reflexivity).
    rewrite (IH (dn ++ [x])) by reflexivity. cbn [f_sz f_magic f_ring]. rewrite <- app_assoc. destruct c as [sz m r]; destruct r; reflexivity.
Qed.
Lemma exec_at {S R} line f (s : S) s1 p1 : f s = Ok (s1, p1) -> exec_all (@At S R line f) s = exec_all p1 s1.
Proof. intros E. cbn [exec_all]. rewrite E. reflexivity. Qed.
Lemma exec_st line g k c : exec_all (st line g k) c = exec_all k (mkcf (f_sz c) (f_magic c) (g (f_ring c))).
Proof. unfold st. apply exec_at. reflexivity. Qed.
Lemma exec_magic k : forall bs dn c, f_magic c = dn ++ repeat 0 (length bs) ->
  exec_all (magic_p (zlen dn) bs k) c = exec_all k (mkcf (f_sz c) (dn ++ bs) (f_ring c)).
Proof.
  induction bs as [|x bs IH]; intros dn c E; cbn [magic_p].
  - cbn [length repeat] in E. rewrite <- E. destruct c; reflexivity.
  - cbn [length repeat] in E. erewrite exec_at; [|rewrite E, blit_step; reflexivity].
    replace (zlen dn + 1) with (zlen (dn ++ [x])) by (rewrite zlen_app; reflexivity).
    rewrite IH by reflexivity. cbn [f_sz f_ring]. rewrite <- app_assoc. reflexivity.
Qed.
Lemma c_done l flags ad : l_app l = (if has flags SHR_APPDATA_1 then zlen ad else 0) ->
  exec_all (create l flags ad) (created l) = Ok (mkcf (l_sz l) MAGIC (ring_of_layout l flags ad), tt).
Proof.
  intros La. unfold create, created.
  do 3 (erewrite exec_at; [|reflexivity]). cbn [f_sz f_magic f_ring].
  change 0 with (zlen (@nil Z)) at 1. rewrite exec_magic by reflexivity. cbn [f_sz f_magic f_ring app].
  rewrite !exec_st. cbn [f_sz f_magic f_ring].
  assert (G : forall r, orflag flags SHR_MLOCK SHR_MLOCK (orflag flags SHR_FARM (Z.lor SHR_FARM SHR_DROP) (orflag flags SHR_DROP SHR_DROP (orflag flags SHR_SYNC SHR_SYNC (r <| r_gflags := 0 |>))))
     = r <| r_gflags := init_gflags flags |>).
  { intros r. unfold orflag, init_gflags. destruct (has flags SHR_SYNC), (has flags SHR_DROP), (has flags SHR_FARM), (has flags SHR_MLOCK); reflexivity. }
  rewrite G. clear G. set (g := init_gflags flags).
  destruct (has flags SHR_APPDATA_1) eqn:HA.
  - change 0 with (zlen (@nil Z)) at 1. rewrite exec_app.
    + erewrite exec_at; [|reflexivity]. cbn [exec_all f_sz f_magic f_ring]. unfold ring_of_layout. rewrite HA. reflexivity.
    + cbn [f_ring]. cbn. rewrite La. unfold zlen. rewrite Nat2Z.id. reflexivity.
  - erewrite exec_at; [|reflexivity]. cbn [exec_all]. unfold ring_of_layout. rewrite HA. cbn. rewrite La. reflexivity.
Qed.
