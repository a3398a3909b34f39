(** * Facts about shr-tool mount, the event loops and delegates (C80-C82) *)
From Verif Require Export MainFacts.
From Verif Require Import BaseFacts.

Definition huge_part (g : gcfg) : prog :=
  if g_huge g =? 0 then okay
  else Ask (fun x => XHuge (g_huge g) (fst x) (snd x)) (fun x => if fst x && snd x then okay else fails).
Definition quiet (e : ev) : Prop := match e with XHuge _ _ _ => True | _ => False end.
Lemma huge_facts g t x : runs (huge_part g) t x -> Forall quiet t /\ ((x = Exited 0 /\ forall n o w, In (XHuge n o w) t -> o = true /\ w = true) \/ (x = Exited (-1) /\ exists e, In e t /\ call_failed e)).
Proof.
  unfold huge_part. destruct (g_huge g =? 0).
  - intros [-> ->]. split; [constructor|]. left. split; [reflexivity|intros ? ? ? []].
  - intros ([o w] & t' & -> & H). cbn [fst snd] in *. destruct (o && w) eqn:E; destruct H as [-> ->]; (split; [repeat constructor|]).
    + left. split; [reflexivity|]. apply andb_true_iff in E. intros n o' w' [I|[]]. injection I as _ <- <-. exact E.
    + right. split; [reflexivity|]. eexists. split; [left; reflexivity|]. cbn. apply andb_false_iff in E. exact E.
Qed.
Lemma mkdirs_facts g : forall subs t x, runs (mkdirs subs (huge_part g)) t x ->
  (forall e, In e t -> match e with XMkdir _ _ | XHuge _ _ _ => True | _ => False end)
  /\ ((x = Exited 0 /\ subdirs t = subs /\ (forall d ok, In (XMkdir d ok) t -> ok = true) /\ forall n o w, In (XHuge n o w) t -> o = true /\ w = true)
      \/ (x = Exited (-1) /\ exists e, In e t /\ call_failed e)).
Proof.
  induction subs as [|s subs IH]; intros t x H; cbn [mkdirs] in H.
  - destruct (huge_facts g _ _ H) as [A B]. rewrite Forall_forall in A. split.
    + intros e He. specialize (A e He). destruct e; try contradiction; exact I.
    + destruct B as [[B C]|B]; [left|right; exact B]. split; [exact B|]. split; [|split; [|exact C]].
      * assert (Q : forall t, (forall e, In e t -> quiet e) -> subdirs t = []).
        { clear. induction t as [|e t IH]; intros Q; [reflexivity|]. cbn [subdirs flat_map]. fold (subdirs t). rewrite IH by (intros; apply Q; right; assumption). specialize (Q e (or_introl eq_refl)). destruct e; try contradiction; reflexivity. }
        apply Q. exact A.
      * intros d ok He. destruct (A _ He).
  - apply runs_need in H. destruct H as (ok & t' & -> & [[-> H]|(-> & -> & ->)]).
    + destruct (IH _ _ H) as [A B]. split.
      * intros e [<-|He]; [exact I|apply A; exact He].
      * destruct B as [(B1 & B2 & B3 & B4)|(B1 & e & B2 & B3)]; [left|right].
        -- split; [exact B1|]. cbn [subdirs flat_map app]. fold (subdirs t'). rewrite B2. split; [reflexivity|]. split.
           ++ intros d ok [E|E]; [injection E as _ <-; reflexivity|eapply B3; exact E].
           ++ intros n o w [E|E]; [discriminate|eapply B4; exact E].
        -- split; [exact B1|]. exists e. split; [right; exact B2|exact B3].
    + split; [intros e [<-|[]]; exact I|]. right. split; [reflexivity|]. eexists. split; [left; reflexivity|]. reflexivity.
Qed.
Definition mnt_rest (g : gcfg) (dir : bytes) (subs : list bytes) : prog :=
  need (XMount dir (g_fs g) (if cc_size (g_c g) =? 0 then None else Some (cc_size (g_c g)))) (need (XChdir dir) (mkdirs (match g_mode g with MSubdirs => subs | _ => [] end) (huge_part g))).
Lemma rest_facts g dir subs t x : runs (mnt_rest g dir subs) t x ->
  (forall a d ok b, t = a ++ XMkdir d ok :: b -> (exists fs sz, In (XMount dir fs sz true) a) /\ In (XChdir dir true) a)
  /\ (forall d fs sz ok, In (XMount d fs sz ok) t -> d = dir /\ fs = g_fs g /\ sz = if cc_size (g_c g) =? 0 then None else Some (cc_size (g_c g)))
  /\ (forall d ok, ~ In (XUmount d ok) t)
  /\ ((x = Exited 0 /\ (exists fs sz, In (XMount dir fs sz true) t) /\ subdirs t = match g_mode g with MSubdirs => subs | _ => [] end
       /\ forall e, In e t -> ~ call_failed e)
      \/ (x = Exited (-1) /\ exists e, In e t /\ call_failed e)).
Proof.
  unfold mnt_rest. intros H. apply runs_need in H. destruct H as (ok & t' & -> & [[-> H]|(-> & -> & ->)]).
  2:{ split; [intros a d ok b E; destruct a as [|e0 a]; [discriminate|]; destruct a; discriminate|]. split; [intros d fs sz ok [I|[]]; injection I as <- <- <- <-; auto|].
      split; [intros d ok [I|[]]; discriminate|]. right. split; [reflexivity|]. eexists. split; [left; reflexivity|reflexivity]. }
  apply runs_need in H. destruct H as (ok & t2 & -> & [[-> H]|(-> & -> & ->)]).
  2:{ split; [intros a d ok b E; destruct a as [|e0 a]; [discriminate|]; destruct a as [|e1 a]; [discriminate|]; destruct a; discriminate|].
      split; [intros d fs sz ok [I|[I|[]]]; [injection I as <- <- <- <-; auto|discriminate]|].
      split; [intros d ok [I|[I|[]]]; discriminate|]. right. split; [reflexivity|]. eexists. split; [right; left; reflexivity|reflexivity]. }
  destruct (mkdirs_facts g _ _ _ H) as [A B]. split; [|split; [|split]].
  - intros a d ok b E. destruct a as [|e0 a]; [discriminate|]. destruct a as [|e1 a]; [discriminate|]. injection E as <- <- E.
    split; [do 2 eexists; left; reflexivity|right; left; reflexivity].
  - intros d fs sz ok [I|[I|I]]; [injection I as <- <- <- <-; auto|discriminate|destruct (A _ I)].
  - intros d ok [I|[I|I]]; [discriminate|discriminate|destruct (A _ I)].
  - destruct B as [(B1 & B2 & B3 & B4)|(B1 & e & B2 & B3)]; [left|right].
    + split; [exact B1|]. split; [do 2 eexists; left; reflexivity|]. split; [exact B2|]. intros e [<-|[<-|He]]; [cbn; discriminate|cbn; discriminate|].
      pose proof (A e He) as Q. destruct e; try contradiction; cbn.
      * rewrite (B3 _ _ He). discriminate.
      * destruct (B4 _ _ _ He) as [-> ->]. intuition discriminate.
    + split; [exact B1|]. exists e. split; [right; right; exact B2|exact B3].
Qed.

(** all of mount, for the modes that mount *)
Lemma mount_cases g dir subs t x : runs (run_mount g dir subs) t x -> g_mode g = MMount \/ g_mode g = MSubdirs ->
  exists t1 t2 rc sf, t = t1 ++ t2 /\ Forall looks t1
  /\ (forall e, In e t1 -> match e with XStat p _ => p = dir \/ p = dir ++ dotdot | XStatfs p _ => p = dir | _ => False end)
  /\ (rc = -1 -> PATH_MAX < zlen dir + 4 \/ (exists r, In (XStat dir (Some (r, false))) t1) \/ exists e, In e t1 /\ call_failed e)
  /\ (rc <> -1 -> exists dev pdev pd, t1 = [XStat dir (Some (dev, true)); XStat (dir ++ dotdot) (Some (pdev, pd)); XStatfs dir (Some sf)]
        /\ (rc = -2 <-> dev <> pdev /\ ram_type (f_type sf) = true))
  /\ ((rc = -2 /\ t2 = [] /\ x = Exited (-1)) \/ (rc <> -2 /\ runs (mnt_rest g dir subs) t2 x)).
Proof.
  intros H M. unfold run_mount in H.
  assert (H' : runs (suitable_mountpoint dir (fun rc _ => if rc =? -2 then fails else mnt_rest g dir subs)) t x).
  { destruct M as [M|M]; unfold mnt_rest, huge_part; rewrite M in H |- *; exact H. }
  destruct (suitable_cases _ _ _ _ H') as (t1 & t2 & rc & sf & E & R & L & P & _ & C1 & C2).
  exists t1, t2, rc, sf. split; [exact E|]. split; [exact L|]. split; [exact P|]. split; [exact C1|]. split; [exact C2|].
  destruct (rc =? -2) eqn:Er; [left|right]; [apply Z.eqb_eq in Er; destruct R; auto|apply Z.eqb_neq in Er; auto].
Qed.
Lemma ram_type_in t : ram_type t = true <-> In t [TMPFS; RAMFS; HUGEFS].
Proof.
  unfold ram_type. rewrite !orb_true_iff, !Z.eqb_eq. cbn [In]. intuition congruence.
Qed.
Lemma tool_mount os pos stdin fuel t x : runs (tool KMount os pos stdin fuel) t x ->
  (t = [] /\ x = Exited (-1)) \/ exists g dir subs, options os g0 = Some g /\ pos = dir :: subs /\ runs (run_mount g dir subs) t x.
Proof.
  intros H. unfold tool in H. destruct (options os g0) as [g|] eqn:E; [|left; exact H]. destruct pos as [|dir subs]; [left; exact H|]. right. exists g, dir, subs. auto.
Qed.
Lemma query_looks dir t x : runs (query_ramdisk dir okay) t x -> Forall looks t.
Proof.
  intros H. unfold query_ramdisk in H. destruct (suitable_cases _ _ _ _ H) as (t1 & t2 & rc & sf & -> & R & L & _). apply Forall_app. split; [exact L|].
  assert (S : forall q t, runs (Ask (fun _ : unit => XSay q) (fun _ => okay)) t x -> Forall looks t).
  { intros q u (a & u' & -> & [-> _]). repeat constructor. }
  destruct (negb (rc =? -2)); [eapply S; exact R|]. destruct (f_type sf =? RAMFS); [eapply S; exact R|]. destruct (f_type sf =? HUGEFS); [eapply S; exact R|].
  destruct (size_text _) as [n un]. destruct (f_blocks sf =? 0); [destruct R as [-> _]; constructor|]. destruct (_ || _) in R; [destruct R as [-> _]; constructor|]. eapply S; exact R.
Qed.
Lemma m_no_stacking os dir subs stdin fuel t x F : runs (tool KMount os (dir :: subs) stdin fuel) t x ->
  sees F t -> ramdisk F dir -> zlen dir <= 4092 -> (forall d fs sz ok, ~ In (XMount d fs sz ok) t)
  /\ (mode_of os = MMount \/ mode_of os = MSubdirs -> x = Exited (-1)).
Proof.
  intros H [S1 S2] (R1 & R2 & R3) L. destruct (tool_mount _ _ _ _ _ _ H) as [[-> ->]|(g & dir' & subs' & E & EP & R)]; [split; [intros ? ? ? ? []|auto]|]. injection EP as <- <-.
  destruct (options0 _ _ E) as (_ & EM & _).
  assert (CS : g_mode g = MMount \/ g_mode g = MSubdirs \/ g_mode g = MUnmount \/ g_mode g = MQuery) by (destruct (g_mode g); auto).
  assert (GO : g_mode g = MMount \/ g_mode g = MSubdirs -> (forall d fs sz ok, ~ In (XMount d fs sz ok) t) /\ x = Exited (-1)).
  { intros M. destruct (mount_cases _ _ _ _ _ R M) as (t1 & t2 & rc & sf & -> & LK & PL & C1 & C2 & C3).
    assert (NT : forall d fs sz ok, ~ In (XMount d fs sz ok) t1). { intros d fs sz ok I. rewrite Forall_forall in LK. destruct (LK _ I). }
    destruct (Z.eq_dec rc (-1)) as [->|N1].
    - exfalso. destruct (C1 eq_refl) as [Q|[[r Q]|(e & Q & Q2)]]; [unfold PATH_MAX in Q; lia| |].
      + specialize (S1 dir (Some (r, false)) ltac:(apply in_or_app; left; exact Q)). rewrite R1 in S1. discriminate.
      + pose proof (PL e Q) as P. destruct e as [p r|p r| | | | | | | | | | | | | | | | | | | | ]; try contradiction.
        * specialize (S1 p r ltac:(apply in_or_app; left; exact Q)). subst r. exact Q2.
        * destruct (S2 p r ltac:(apply in_or_app; left; exact Q)) as (f & -> & _). exact Q2.
    - destruct (C2 N1) as (dev & pdev & pd & -> & C4). destruct C3 as [(C3 & -> & ->)|[C3 _]].
      + split; [|reflexivity]. intros d fs sz ok I. apply in_app_or in I. destruct I as [I|[]]. apply (NT _ _ _ _ I).
      + exfalso. apply C3, C4. split.
        * pose proof (S1 dir (Some (dev, true)) ltac:(left; reflexivity)) as A1. pose proof (S1 (dir ++ dotdot) (Some (pdev, pd)) ltac:(right; left; reflexivity)) as A2.
          injection A1 as -> _. injection A2 as -> _. intros Q. apply R2. rewrite Q. reflexivity.
        * destruct (S2 dir (Some sf) ltac:(right; right; left; reflexivity)) as (f & A & B). injection A as ->. rewrite B. apply ram_type_in. exact R3. }
  split.
  - destruct CS as [M|[M|[M|M]]]; [apply GO; auto|apply GO; auto| |].
    + unfold run_mount in R. rewrite M in R. apply runs_need in R. destruct R as (ok & t' & -> & [[_ [-> _]]|(_ & -> & _)]); intros d fs sz ok' [I|[]]; discriminate.
    + unfold run_mount in R. rewrite M in R. apply query_looks in R. rewrite Forall_forall in R. intros d fs sz ok I. destruct (R _ I).
  - rewrite <- EM. intros M. apply GO. exact M.
Qed.
(** subdirectories only after mounting and changing to the new file system *)
Lemma m_inside os dir subs stdin fuel t x : runs (tool KMount os (dir :: subs) stdin fuel) t x ->
  forall a d ok b, t = a ++ XMkdir d ok :: b -> (exists fs sz, In (XMount dir fs sz true) a) /\ In (XChdir dir true) a /\ In d subs.
Proof.
  intros H a d ok b E. destruct (tool_mount _ _ _ _ _ _ H) as [[-> ->]|(g & dir' & subs' & EO & EP & R)]; [destruct a; discriminate|]. injection EP as <- <-.
  assert (CS : (g_mode g = MMount \/ g_mode g = MSubdirs) \/ g_mode g = MUnmount \/ g_mode g = MQuery) by (destruct (g_mode g); auto).
  destruct CS as [M|[M|M]].
  - destruct (mount_cases _ _ _ _ _ R M) as (t1 & t2 & rc & sf & -> & LK & PL & C1 & C2 & C3).
    assert (NT : ~ In (XMkdir d ok) t1). { intros I. rewrite Forall_forall in LK. destruct (LK _ I). }
    assert (SP : exists a', a = t1 ++ a' /\ t2 = a' ++ XMkdir d ok :: b).
    { clear - E NT. revert a E NT. induction t1 as [|e t1 IH]; intros a E NT; [exists a; auto|]. destruct a as [|e0 a]; [injection E as -> _; elim NT; left; reflexivity|].
      injection E as <- E. destruct (IH a E) as (a' & -> & ->); [intros I; apply NT; right; exact I|]. exists a'. auto. }
    destruct SP as (a' & -> & ->). destruct C3 as [(_ & C3 & _)|[_ C3]]; [destruct a'; discriminate|].
    destruct (rest_facts _ _ _ _ _ C3) as (A & _). destruct (A a' d ok b eq_refl) as [(fs & sz & B1) B2].
    split; [exists fs, sz; apply in_or_app; right; exact B1|]. split; [apply in_or_app; right; exact B2|].
    assert (IS : forall k subs t x d ok, runs (mkdirs subs (huge_part k)) t x -> In (XMkdir d ok) t -> In d subs).
    { clear. intros k. induction subs as [|s subs IH]; intros t x d ok H I; cbn [mkdirs] in H.
      - destruct (huge_facts _ _ _ H) as [Q _]. rewrite Forall_forall in Q. destruct (Q _ I).
      - apply runs_need in H. destruct H as (o & t' & -> & [[-> H]|(-> & -> & ->)]).
        + destruct I as [I|I]; [injection I as -> _; left; reflexivity|right; eapply IH; eauto].
        + destruct I as [I|[]]. injection I as -> _. left. reflexivity. }
    unfold mnt_rest in C3. apply runs_need in C3. destruct C3 as (o & t' & Et & [[-> C3]|(-> & -> & ->)]).
    2:{ destruct a' as [|? [|]]; discriminate. }
    apply runs_need in C3. destruct C3 as (o2 & t'' & -> & [[-> C3]|(-> & -> & ->)]).
    2:{ destruct a' as [|? [|? [|]]]; discriminate. }
    destruct a' as [|e0 [|e1 a']]; [discriminate|discriminate|]. injection Et as _ _ Et.
    assert (ID : In (XMkdir d ok) t'') by (rewrite <- Et; apply in_or_app; right; left; reflexivity).
    destruct (g_mode g); try (destruct (IS _ _ _ _ _ _ C3 ID); fail). exact (IS _ _ _ _ _ _ C3 ID).
  - unfold run_mount in R. rewrite M in R. apply runs_need in R. destruct R as (o & t' & -> & [[_ [-> _]]|(_ & -> & _)]); destruct a as [|? [|]]; discriminate.
  - unfold run_mount in R. rewrite M in R. apply query_looks in R. rewrite Forall_forall in R. subst t. destruct (R (XMkdir d ok)). apply in_or_app. right. left. reflexivity.
Qed.
Lemma m_umount os dir subs stdin fuel t x : mode_of os = MUnmount -> runs (tool KMount os (dir :: subs) stdin fuel) t x ->
  t = [] /\ x = Exited (-1) \/ exists ok, t = [XUmount dir ok] /\ x = Exited (if ok then 0 else -1).
Proof.
  intros M H. destruct (tool_mount _ _ _ _ _ _ H) as [[-> ->]|(g & dir' & subs' & EO & EP & R)]; [auto|]. injection EP as <- <-.
  destruct (options0 _ _ EO) as (_ & EM & _). unfold run_mount in R. rewrite EM, M in R. apply runs_need in R. right.
  destruct R as (ok & t' & -> & [[-> [-> ->]]|(-> & -> & ->)]); eauto.
Qed.
Lemma m_query os dir subs stdin fuel t x : mode_of os = MQuery -> runs (tool KMount os (dir :: subs) stdin fuel) t x -> Forall looks t.
Proof.
  intros M H. destruct (tool_mount _ _ _ _ _ _ H) as [[-> ->]|(g & dir' & subs' & EO & EP & R)]; [constructor|]. injection EP as <- <-.
  destruct (options0 _ _ EO) as (_ & EM & _). unfold run_mount in R. rewrite EM, M in R. apply (query_looks _ _ _ R).
Qed.
(** exit status of mount *)
Lemma m_mount os dir subs stdin fuel t : mode_of os = MMount \/ mode_of os = MSubdirs -> runs (tool KMount os (dir :: subs) stdin fuel) t (Exited 0) ->
  (exists sz, In (XMount dir (type_of os) sz true) t
     /\ forall c, getopts (create_opts os) (mkcc 0 0 0 None) = Some c -> sz = if cc_size c =? 0 then None else Some (cc_size c))
  /\ In (XChdir dir true) t /\ subdirs t = (match mode_of os with MSubdirs => subs | _ => [] end)
  /\ forall d ok, In (XMkdir d ok) t -> ok = true.
Proof.
  intros M H. destruct (tool_mount _ _ _ _ _ _ H) as [[_ H']|(g & dir' & subs' & EO & EP & R)]; [discriminate|]. injection EP as <- <-.
  destruct (options0 _ _ EO) as (EG & EM & EF & _). rewrite <- EM in M |- *. destruct (mount_cases _ _ _ _ _ R M) as (t1 & t2 & rc & sf & -> & LK & PL & C1 & C2 & C3).
  destruct C3 as [(_ & _ & C3)|[_ C3]]; [discriminate|]. pose proof C3 as C4. destruct (rest_facts _ _ _ _ _ C3) as (_ & A2 & _ & [(_ & (fs & sz & A4) & A5 & A6)|(A4 & _)]); [|discriminate].
  unfold mnt_rest in C4. apply runs_need in C4. destruct C4 as (o & t' & -> & [[-> C4]|(_ & _ & C4)]); [|discriminate].
  apply runs_need in C4. destruct C4 as (o & t'' & -> & [[-> C4]|(_ & _ & C4)]); [|discriminate].
  split; [|split; [|split]].
  - eexists. split; [apply in_or_app; right; left; rewrite <- EF; reflexivity|]. intros c Hc. rewrite EG in Hc. injection Hc as ->. reflexivity.
  - apply in_or_app. right. right. left. reflexivity.
  - unfold subdirs. rewrite flat_map_app. fold (subdirs t1). replace (subdirs t1) with (@nil bytes); [exact A5|].
    clear - LK. induction LK as [|e t1 HL _ IH]; [reflexivity|]. cbn [subdirs flat_map]. fold (subdirs t1). rewrite <- IH. destruct e; try contradiction; reflexivity.
  - intros d ok I. apply in_app_or in I. destruct I as [I|I]; [rewrite Forall_forall in LK; destruct (LK _ I)|]. specialize (A6 _ I). cbn in A6. destruct ok; [reflexivity|congruence].
Qed.
