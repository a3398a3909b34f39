(** * Facts about main() of shr-tool (C80-C82) *)
From Verif Require Export MainSpec.
From Verif Require Import ToolFacts2 ToolFacts4 BaseFacts.
Local Open Scope Z_scope.
Local Open Scope list_scope.

Ltac rn H := repeat first
  [ match type of H with
    | runs (Ask _ _) _ _ => let a := fresh "a" in let t := fresh "t" in destruct H as (a & t & -> & H)
    | runs (End _) _ _ => destruct H as [-> H]; try discriminate H
    | runs fails _ _ => destruct H as [-> H]; try discriminate H
    | runs usage _ _ => destruct H as [-> H]; try discriminate H
    | runs okay _ _ => destruct H as [-> H]; try discriminate H
    end
  | progress cbv beta iota in H ].
Lemma runs_need mk p t x : runs (need mk p) t x -> exists ok t', t = mk ok :: t' /\ ((ok = true /\ runs p t' x) \/ (ok = false /\ t' = [] /\ x = Exited (-1))).
Proof. intros (a & t' & -> & H). exists a, t'. split; [reflexivity|]. destruct a; [left; auto|right]. destruct H as [-> ->]. auto. Qed.

(** ** options *)
Lemma getopts_app : forall os1 os2 c, getopts (os1 ++ os2) c = match getopts os1 c with Some c => getopts os2 c | None => None end.
Proof.
  induction os1 as [|o os1 IH]; intros os2 c; [reflexivity|]. cbn [app getopts]. destruct o; try apply IH.
  - destruct (size_arg arg); [apply IH|reflexivity].
  - destruct (mode_flags arg (cc_flags c)); [apply IH|reflexivity].
Qed.
Lemma options_spec : forall os g g', options os g = Some g' ->
  getopts (create_opts os) (g_c g) = Some (g_c g')
  /\ g_mode g' = fold_left (fun m o => match o with OD => MSubdirs | OU => MUnmount | OQ => MQuery | _ => m end) os (g_mode g)
  /\ g_fs g' = fold_left (fun t o => match o with OT fs => fs | _ => t end) os (g_fs g)
  /\ g_block g' = g_block g || blocking os.
Proof.
  induction os as [|o os IH]; intros g g' H; cbn [options] in H.
  { injection H as <-. cbn. rewrite orb_false_r. auto. }
  assert (ST : forall o c, getopts [o] (g_c g) = Some c -> getopts (create_opts os) c = Some (g_c g') -> getopts (o :: create_opts os) (g_c g) = Some (g_c g')).
  { intros o' c E1 E2. change (o' :: create_opts os) with ([o'] ++ create_opts os). rewrite getopts_app, E1. exact E2. }
  destruct o; try discriminate H; cbn [create_opts flat_map fold_left blocking existsb app]; fold (create_opts os); fold (blocking os).
  1-6,9: destruct (IH _ _ H) as (A1 & A2 & A3 & A4); cbn in A1, A2, A3, A4; rewrite ?A4, ?orb_true_r; auto.
  - destruct (getopts [OptN arg] (g_c g)) as [c|] eqn:E; [|discriminate]. destruct (IH _ _ H) as (A1 & A2 & A3 & A4). cbn in A2, A3, A4. split; [apply (ST _ c E A1)|]. cbn [orb]. auto.
  - destruct (getopts [o] (g_c g)) as [c|] eqn:E; [|discriminate]. destruct (IH _ _ H) as (A1 & A2 & A3 & A4). cbn in A2, A3, A4. split; [apply (ST _ c E A1)|]. cbn [orb]. auto.
Qed.
Lemma options0 os g : options os g0 = Some g ->
  getopts (create_opts os) (mkcc 0 0 0 None) = Some (g_c g) /\ g_mode g = mode_of os /\ g_fs g = type_of os /\ g_block g = blocking os.
Proof. intros H. apply options_spec in H. exact H. Qed.

Lemma runs_tool k os pos stdin fuel t x : runs (tool k os pos stdin fuel) t x ->
  (t = [] /\ x = Exited (-1)) \/ exists g ring rest, options os g0 = Some g /\ pos = ring :: rest /\ runs (tool k os pos stdin fuel) t x.
Proof.
  intros H. unfold tool in *. destruct (options os g0) as [g|] eqn:E; [|left; exact H]. destruct pos as [|ring rest]; [left; exact H|].
  right. exists g, ring, rest. auto.
Qed.

(** ** create *)
Lemma inits_ok : forall rings n fl mx app t, runs (inits rings n fl mx app) t (Exited 0) ->
  made t = map (fun r => (r, n, fl, mx, app)) rings /\ (forall r n fl mx app rc, In (XInit r n fl mx app rc) t -> 0 <= rc)
  /\ (forall f r, ~ In (XMap f r) t).
Proof.
  induction rings as [|r rings IH]; intros n fl mx app t H; cbn [inits] in H.
  - destruct H as [-> _]. cbn. intuition.
  - destruct H as (rc & t' & -> & H). destruct (rc <? 0) eqn:E. { destruct H as [_ H]. injection H as <-. discriminate. }
    destruct (IH _ _ _ _ _ H) as (A & B & C). cbn [made flat_map map List.app]. fold (made t'). rewrite A. split; [reflexivity|]. split.
    + intros r0 n0 fl0 mx0 app0 rc0 [I|I]; [injection I as <- <- <- <- <- <-; apply Z.ltb_ge; exact E|eapply B; exact I].
    + intros f r0 [I|I]; [discriminate|eapply C; exact I].
Qed.
Lemma inits_bad : forall rings n fl mx app t x, runs (inits rings n fl mx app) t x ->
  x = Exited 0 \/ exists rc, x = Exited rc /\ exists e, In e t /\ call_failed e.
Proof.
  induction rings as [|r rings IH]; intros n fl mx app t x H; cbn [inits] in H.
  - destruct H as [_ ->]. auto.
  - destruct H as (rc & t' & -> & H). destruct (rc <? 0) eqn:E.
    + destruct H as [-> ->]. right. exists rc. split; [reflexivity|]. eexists. split; [left; reflexivity|]. cbn. apply Z.ltb_lt. exact E.
    + destruct (IH _ _ _ _ _ _ H) as [A|(rc' & A & e & B & C)]; [auto|]. right. exists rc'. split; [exact A|]. exists e. split; [right; exact B|exact C].
Qed.
Lemma m_create os rings stdin fuel t : runs (tool KCreate os rings stdin fuel) t (Exited 0) ->
  rings <> [] /\ exists n fl mx app, made t = map (fun r => (r, n, fl, mx, app)) rings
  /\ (forall r n fl mx app rc, In (XInit r n fl mx app rc) t -> 0 <= rc)
  /\ (app = None <-> has_A (create_opts os) = false)
  /\ forall content, (forall f r, In (XMap f r) t -> content f = r) ->
       create_args content (create_opts os) = Some (n, fl, mx, match app with Some a => a | None => [] end).
Proof.
  intros H. unfold tool in H. destruct (options os g0) as [g|] eqn:E; [|destruct H; discriminate]. destruct rings as [|ring rest]; [destruct H; discriminate|].
  split; [discriminate|]. destruct (options0 _ _ E) as (EG & _). unfold run_create in H. unfold create_args. rewrite EG.
  assert (HA : cc_file (g_c g) = None <-> has_A (create_opts os) = false).
  { assert (GEN : forall os c c', getopts os c = Some c' -> (cc_file c' = None <-> cc_file c = None /\ has_A os = false)).
    { clear. induction os as [|o os IH]; intros c c' H; cbn [getopts] in H.
      - injection H as <-. cbn. intuition.
      - destruct o; cbn [has_A existsb]; fold (has_A os).
        + destruct (size_arg arg); [|discriminate]. apply IH in H. exact H.
        + destruct (mode_flags arg _); [|discriminate]. apply IH in H. exact H.
        + apply IH in H. exact H.
        + apply IH in H. cbn in H. rewrite H. cbn. intuition discriminate. }
    rewrite (GEN _ _ _ EG). cbn. intuition. }
  destruct (cc_size (g_c g) =? 0); [destruct H; discriminate|].
  destruct (cc_file (g_c g)) as [f|] eqn:Ef.
  - destruct H as (res & t' & -> & H). destruct res as [app|]; [|destruct H; discriminate]. destruct (inits_ok _ _ _ _ _ _ H) as (A & B & C).
    do 3 eexists. exists (Some app). split; [exact A|]. split; [intros r n fl mx a rc [I|I]; [discriminate|eapply B; exact I]|]. split.
    + rewrite <- HA. split; discriminate.
    + intros content Hc. rewrite (Hc f (Some app)) by (left; reflexivity). reflexivity.
  - destruct (inits_ok _ _ _ _ _ _ H) as (A & B & C). do 3 eexists. exists None. split; [exact A|]. split; [exact B|]. split; [rewrite <- HA; tauto|].
    intros content _. reflexivity.
Qed.

(** ** the one-shot commands: failure is always somebody's *)
Lemma lines_ends : forall fuel s t x, runs (put_lines fuel s) t x -> (length s < fuel)%nat -> x = Exited 0 \/ (x = Exited (-1) /\ exists e, In e t /\ call_failed e).
Proof.
  induction fuel as [|fuel IH]; intros s t x H L; [lia|]. cbn [put_lines] in H. destruct (zlen s =? 0) eqn:Z0; [destruct H as [_ ->]; auto|].
  destruct (fgets _ s) as [l s'] eqn:F. destruct H as (rc & t' & -> & H).
  assert (L' : (length s' < length s)%nat).
  { assert (G : forall r s l s', fgets r s = (l, s') -> (length s' <= length s)%nat /\ (s <> [] -> r <> O -> (length s' < length s)%nat)).
    { clear. induction r as [|r IH]; intros s l s' H; cbn [fgets] in H; [injection H as <- <-; split; [lia|congruence]|].
      destruct s as [|c s]; [injection H as <- <-; split; [lia|congruence]|]. destruct (c =? 10); [injection H as <- <-; cbn; lia|].
      destruct (fgets r s) as [l1 r1] eqn:E. injection H as <- <-. destruct (IH _ _ _ E). cbn. lia. }
    apply (G _ _ _ _ F); [intros ->; discriminate|vm_compute; discriminate]. }
  destruct (rc <? 0) eqn:E.
  - destruct H as [-> ->]. right. split; [reflexivity|]. eexists. split; [left; reflexivity|]. apply Z.ltb_lt. exact E.
  - destruct (IH _ _ _ H ltac:(lia)) as [A|(A & e & B & C)]; [auto|]. right. split; [exact A|]. exists e. split; [right; exact B|exact C].
Qed.
Lemma lines_ok : forall ls fuel t, Forall (fun l => ~ In 10 l /\ ~ In 0 l /\ zlen l <= 998) ls -> runs (put_lines fuel (text ls)) t (Exited 0) ->
  puts t = ls /\ forall m rc, In (XPut m rc) t -> 0 <= rc.
Proof.
  intros ls. 
  assert (GEN : forall ls fuel t, runs (put_lines fuel (text ls)) t (Exited 0) -> Forall (fun l => ~ In 10 l /\ ~ In 0 l /\ zlen l <= 998) ls ->
    puts t = ls /\ forall m rc, In (XPut m rc) t -> 0 <= rc).
  { clear. induction ls as [|l ls IH]; intros fuel t H O; (destruct fuel as [|fuel]; [destruct H; discriminate|]); cbn [put_lines] in H.
    - destruct H as [-> _]. split; [reflexivity|intros ? ? []].
    - inversion O as [|? ? (O1 & O2 & O3) O']; subst. unfold text in H. cbn [flat_map] in H. fold (text ls) in H. rewrite <- app_assoc in H.
      destruct (zlen (l ++ [10] ++ text ls) =? 0) eqn:Z0. { apply Z.eqb_eq in Z0. rewrite zlen_app in Z0. cbn [app] in Z0. rewrite zlen_cons in Z0. pose proof (zlen_nonneg l). pose proof (zlen_nonneg (text ls)). lia. }
      assert (FG : fgets (Z.to_nat (LINE - 1)) (l ++ [10] ++ text ls) = (l ++ [10], text ls)).
      { assert (G : forall l r s, ~ In 10 l -> (length l < r)%nat -> fgets r (l ++ [10] ++ s) = (l ++ [10], s)).
        { clear. induction l as [|c l IH]; intros r s N L; (destruct r as [|r]; [cbn in L; lia|]); cbn [app fgets]; [reflexivity|].
          destruct (c =? 10) eqn:E; [apply Z.eqb_eq in E; elim N; left; auto|]. cbn [app] in IH. rewrite IH; [reflexivity|intros I; apply N; right; exact I|cbn in L; lia]. }
        apply G; [exact O1|]. unfold zlen in O3. unfold LINE. lia. }
      rewrite FG in H. destruct H as (rc & t' & -> & H). destruct (rc <? 0) eqn:E; [destruct H; discriminate|].
      assert (CH : chomp (upto0 (l ++ [10])) = l).
      { assert (U : upto0 (l ++ [10]) = l ++ [10]).
        { clear -O2. induction l as [|c l IH]; [reflexivity|]. cbn [app upto0]. destruct (c =? 0) eqn:E; [apply Z.eqb_eq in E; elim O2; left; auto|]. f_equal. apply IH. intros I. apply O2. right. exact I. }
        rewrite U. unfold chomp. rewrite rev_app_distr. cbn. apply rev_involutive. }
      rewrite CH. destruct (IH _ _ H O') as [A B]. cbn [puts flat_map app]. fold (puts t'). rewrite A. split; [reflexivity|].
      intros m rc0 [I|I]; [injection I as <- <-; apply Z.ltb_ge; exact E|eapply B; exact I]. }
  intros fuel t O H. apply (GEN ls fuel t H O).
Qed.
Lemma m_write os ring rest ls fuel t : Forall (fun l => ~ In 10 l /\ ~ In 0 l /\ zlen l <= 998) ls ->
  runs (tool KWrite os (ring :: rest) (text ls) fuel) t (Exited 0) -> puts t = ls /\ In (XOpen ring SHR_WRONLY true) t /\ forall m rc, In (XPut m rc) t -> 0 <= rc.
Proof.
  intros O H. unfold tool in H. destruct (options os g0) as [g|] eqn:E; [|destruct H; discriminate]. unfold run_write in H.
  apply runs_need in H. destruct H as (ok & t' & -> & [[-> H]|(_ & _ & H)]); [|discriminate]. destruct (lines_ok _ _ _ O H) as [A B].
  cbn [puts flat_map app]. split; [exact A|]. split; [left; reflexivity|]. intros m rc [I|I]; [discriminate|eapply B; exact I].
Qed.
Lemma m_writehex os ring rest stdin fuel s bs t : spells bs s -> bs <> [] ->
  runs (tool (KWritehex s) os (ring :: rest) stdin fuel) t (Exited 0) -> exists rc, t = [XOpen ring SHR_WRONLY true; XPut bs rc] /\ 0 <= rc.
Proof.
  intros S NE H. unfold tool in H. destruct (options os g0) as [g|] eqn:E; [|destruct H; discriminate]. unfold run_writehex in H.
  apply runs_need in H. destruct H as (ok & t' & -> & [[-> H]|(_ & _ & H)]); [|discriminate].
  destruct (t_unhex bs s S NE) as [junk EU]. rewrite EU in H. destruct (zlen bs <=? 0); [destruct H; discriminate|].
  assert (R : rd_mem 0 (zlen bs) (bs ++ junk) = Ok bs). { pose proof (zlen_nonneg bs); pose proof (zlen_nonneg junk). rewrite rd_mem_ok by (rewrite ?zlen_app; lia). f_equal. unfold sub. cbn [Z.to_nat skipn]. unfold zlen. rewrite Nat2Z.id, firstn_app, firstn_all, Nat.sub_diag. apply app_nil_r. }
  rewrite R in H. destruct H as (rc & t'' & -> & H). destruct (rc <? 0) eqn:E2; destruct H as [-> H]; [discriminate|]. exists rc. split; [reflexivity|]. apply Z.ltb_ge. exact E2.
Qed.
Lemma m_writefile os ring rest stdin fuel f t : runs (tool (KWritefile f) os (ring :: rest) stdin fuel) t (Exited 0) ->
  exists m rc, t = [XOpen ring SHR_WRONLY true; XMap f (Some m); XPut m rc] /\ 0 <= rc.
Proof.
  intros H. unfold tool in H. destruct (options os g0) as [g|] eqn:E; [|destruct H; discriminate]. unfold run_writefile in H.
  apply runs_need in H. destruct H as (ok & t' & -> & [[-> H]|(_ & _ & H)]); [|discriminate].
  destruct H as (m & t1 & -> & H). destruct m as [m|]; [|destruct H; discriminate]. destruct H as (rc & t2 & -> & H).
  destruct (rc <? 0) eqn:E2; destruct H as [-> H]; [discriminate|]. exists m, rc. split; [reflexivity|]. apply Z.ltb_ge. exact E2.
Qed.

(** every ending of the commands that end by themselves *)
Definition oneshot (k : command) : Prop :=
  match k with KStatus | KCreate | KMount | KWrite | KWritefile _ => True | _ => False end.
(** exit status other than 0: the arguments were refused, or a call failed *)
Lemma m_fail_create os rings stdin fuel t x : runs (tool KCreate os rings stdin fuel) t x ->
  x = Exited 0 \/ exists rc, x = Exited rc /\ (t = [] \/ exists e, In e t /\ call_failed e).
Proof.
  intros H. unfold tool in H. destruct (options os g0) as [g|] eqn:E; [|destruct H as [-> ->]; right; eauto]. destruct rings as [|ring rest]; [destruct H as [-> ->]; right; eauto|].
  unfold run_create in H. destruct (cc_size (g_c g) =? 0); [destruct H as [-> ->]; right; eauto|]. destruct (cc_file (g_c g)) as [f|].
  - destruct H as (res & t' & -> & H). destruct res as [a|].
    + destruct (inits_bad _ _ _ _ _ _ _ H) as [A|(rc & A & e & B & C)]; [auto|]. right. exists rc. split; [exact A|]. right. exists e. split; [right; exact B|exact C].
    + destruct H as [-> ->]. right. eexists. split; [reflexivity|]. right. eexists. split; [left; reflexivity|exact I].
  - destruct (inits_bad _ _ _ _ _ _ _ H) as [A|(rc & A & e & B & C)]; [auto|]. right. exists rc. split; [exact A|]. right. eauto.
Qed.
Lemma m_fail_write os pos stdin fuel t x : runs (tool KWrite os pos stdin fuel) t x ->
  x = Exited 0 \/ (x = Exited (-1) /\ (t = [] \/ exists e, In e t /\ call_failed e)).
Proof.
  intros H. unfold tool in H. destruct (options os g0) as [g|] eqn:E; [|destruct H as [-> ->]; right; eauto]. destruct pos as [|ring rest]; [destruct H as [-> ->]; right; eauto|].
  unfold run_write in H. apply runs_need in H. destruct H as (ok & t' & -> & [[-> H]|(-> & -> & ->)]).
  - destruct (lines_ends _ _ _ _ H) as [A|(A & e & B & C)]; [lia|auto|]. right. split; [exact A|]. right. exists e. split; [right; exact B|exact C].
  - right. split; [reflexivity|]. right. eexists. split; [left; reflexivity|]. reflexivity.
Qed.

(** ** mount *)
Lemma suitable_cases dir k t x : runs (suitable_mountpoint dir k) t x -> exists t1 t2 rc sf, t = t1 ++ t2 /\ runs (k rc sf) t2 x /\ Forall looks t1
  /\ (forall e, In e t1 -> match e with XStat p _ => p = dir \/ p = dir ++ dotdot | XStatfs p _ => p = dir | _ => False end)
  /\ (rc = -1 \/ rc = 0 \/ rc = -2) /\ (rc = -1 -> PATH_MAX < zlen dir + 4 \/ (exists r, In (XStat dir (Some (r, false))) t1) \/ exists e, In e t1 /\ call_failed e)
  /\ (rc <> -1 -> exists dev pdev pd, t1 = [XStat dir (Some (dev, true)); XStat (dir ++ dotdot) (Some (pdev, pd)); XStatfs dir (Some sf)]
        /\ (rc = -2 <-> dev <> pdev /\ ram_type (f_type sf) = true)).
Proof.
  intros H. unfold suitable_mountpoint in H. destruct (zlen dir + 4 >? PATH_MAX) eqn:L.
  { exists [], t, (-1), (mkfs 0 0 0 0). split; [reflexivity|]. split; [exact H|]. split; [constructor|]. split; [intros ? []|]. split; [auto|]. split; [intros _; left; lia|congruence]. }
  destruct H as (sb & t1 & -> & H).
  assert (BAD : forall t2 hd, runs (k (-1) (mkfs 0 0 0 0)) t2 x -> Forall looks hd ->
    (forall e, In e hd -> match e with XStat p _ => p = dir \/ p = dir ++ dotdot | XStatfs p _ => p = dir | _ => False end) ->
    (exists r, In (XStat dir (Some (r, false))) hd) \/ (exists e, In e hd /\ call_failed e) -> exists t1 t3 rc sf, hd ++ t2 = t1 ++ t3 /\ runs (k rc sf) t3 x /\ Forall looks t1
      /\ (forall e, In e t1 -> match e with XStat p _ => p = dir \/ p = dir ++ dotdot | XStatfs p _ => p = dir | _ => False end)
      /\ (rc = -1 \/ rc = 0 \/ rc = -2) /\ (rc = -1 -> PATH_MAX < zlen dir + 4 \/ (exists r, In (XStat dir (Some (r, false))) t1) \/ exists e, In e t1 /\ call_failed e)
      /\ (rc <> -1 -> exists dev pdev pd, t1 = [XStat dir (Some (dev, true)); XStat (dir ++ dotdot) (Some (pdev, pd)); XStatfs dir (Some sf)]
        /\ (rc = -2 <-> dev <> pdev /\ ram_type (f_type sf) = true))).
  { intros t2 hd R FL PL Q. exists hd, t2, (-1), (mkfs 0 0 0 0). split; [reflexivity|]. split; [exact R|]. split; [exact FL|]. split; [exact PL|]. split; [auto|]. split; [auto|congruence]. }
  destruct sb as [[dev [|]]|].
  2:{ apply (BAD t1 [_]); [exact H|repeat constructor|intros e [<-|[]]; auto|left; eexists; left; reflexivity]. }
  2:{ apply (BAD t1 [_]); [exact H|repeat constructor|intros e [<-|[]]; auto|right; eexists; split; [left; reflexivity|exact I]]. }
  assert (L1 : (zlen dir + 1 >? PATH_MAX) || (zlen dir + 1 + 3 >? PATH_MAX) = false) by (apply orb_false_iff; lia). rewrite L1 in H.
  destruct H as (psb & t2 & -> & H). destruct psb as [[pdev pd]|].
  2:{ apply (BAD t2 [_; _]); [exact H|repeat constructor|intros e [<-|[<-|[]]]; auto|right; eexists; split; [right; left; reflexivity|exact I]]. }
  destruct H as (sf & t3 & -> & H). destruct sf as [sf|].
  2:{ apply (BAD t3 [_; _; _]); [exact H|repeat constructor|intros e [<-|[<-|[<-|[]]]]; auto|right; eexists; split; [right; right; left; reflexivity|exact I]]. }
  set (b := negb (pdev =? dev) && ram_type (f_type sf)) in *.
  exists [XStat dir (Some (dev, true)); XStat (dir ++ dotdot) (Some (pdev, pd)); XStatfs dir (Some sf)], t3, (if b then -2 else 0), sf.
  split; [reflexivity|]. split; [destruct b; exact H|]. split; [repeat constructor|]. split; [intros e [<-|[<-|[<-|[]]]]; auto|]. split; [destruct b; auto|].
  split; [destruct b; discriminate|]. intros _. exists dev, pdev, pd. split; [reflexivity|]. subst b. destruct (pdev =? dev) eqn:E; cbn [negb andb].
  - apply Z.eqb_eq in E. split; [discriminate|]. intros [A _]. congruence.
  - apply Z.eqb_neq in E. destruct (ram_type (f_type sf)); split; intros A; auto; try discriminate A; destruct A; discriminate.
Qed.
