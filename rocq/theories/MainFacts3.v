(** * mount -q, the event loops, delegates (C80-C82) *)
From Verif Require Export MainFacts2.
From Verif Require Import BaseFacts.

Lemma sees_suitable F dir t1 t2 rc sf : sees F (t1 ++ t2) -> zlen dir <= 4092 ->
  (forall e, In e t1 -> match e with XStat p _ => p = dir \/ p = dir ++ dotdot | XStatfs p _ => p = dir | _ => False end) ->
  (rc = -1 -> PATH_MAX < zlen dir + 4 \/ (exists r, In (XStat dir (Some (r, false))) t1) \/ exists e, In e t1 /\ call_failed e) ->
  (rc <> -1 -> exists dev pdev pd, t1 = [XStat dir (Some (dev, true)); XStat (dir ++ dotdot) (Some (pdev, pd)); XStatfs dir (Some sf)]
        /\ (rc = -2 <-> dev <> pdev /\ ram_type (f_type sf) = true)) ->
  (rc = -2 <-> ramdisk F dir) /\ (rc <> -1 -> f_type sf = d_type F dir /\ In (XStatfs dir (Some sf)) t1).
Proof.
  intros [S1 S2] L PL C1 C2. destruct (Z.eq_dec rc (-1)) as [->|N1].
  - split; [|congruence]. split; [discriminate|]. intros (R1 & _). exfalso. destruct (C1 eq_refl) as [Q|[[r Q]|(e & Q & Q2)]]; [unfold PATH_MAX in Q; lia| |].
    + specialize (S1 dir (Some (r, false)) ltac:(apply in_or_app; left; exact Q)). rewrite R1 in S1. discriminate.
    + pose proof (PL e Q) as P. destruct e as [p r|p r| | | | | | | | | | | | | | | | | | | | ]; try contradiction.
      * specialize (S1 p r ltac:(apply in_or_app; left; exact Q)). subst r. exact Q2.
      * destruct (S2 p r ltac:(apply in_or_app; left; exact Q)) as (f & -> & _). exact Q2.
  - destruct (C2 N1) as (dev & pdev & pd & -> & C4).
    pose proof (S1 dir (Some (dev, true)) ltac:(left; reflexivity)) as A1. pose proof (S1 (dir ++ dotdot) (Some (pdev, pd)) ltac:(right; left; reflexivity)) as A2.
    destruct (S2 dir (Some sf) ltac:(right; right; left; reflexivity)) as (f & A & B). injection A as <-. injection A1 as -> A3. injection A2 as -> _.
    split; [|intros _; split; [exact B|right; right; left; reflexivity]]. rewrite C4, ram_type_in, B. split.
    + intros [Q1 Q2]. split; [symmetry; exact A3|]. split; [exact Q1|exact Q2].
    + intros (Q1 & Q2 & Q3). split; [exact Q2|exact Q3].
Qed.
Lemma size_text_spec n : 0 <= n -> let '(k, u) := size_text n in In u [1; KB; MB; GB] /\ k * u <= n < (k + 1) * u.
Proof.
  intros H. unfold size_text, KB, MB, GB. destruct (n <? 1024) eqn:E1; [cbn; lia|]. destruct (n <? 1048576) eqn:E2.
  - cbn [In]. pose proof (Z.div_mod n 1024 ltac:(lia)). pose proof (Z.mod_pos_bound n 1024 ltac:(lia)). lia.
  - destruct (n <? 1073741824) eqn:E3.
    + cbn [In]. pose proof (Z.div_mod n 1048576 ltac:(lia)). pose proof (Z.mod_pos_bound n 1048576 ltac:(lia)). lia.
    + cbn [In]. pose proof (Z.div_mod n 1073741824 ltac:(lia)). pose proof (Z.mod_pos_bound n 1073741824 ltac:(lia)). lia.
Qed.
Lemma m_query_says os dir subs stdin fuel t x F : mode_of os = MQuery -> runs (tool KMount os (dir :: subs) stdin fuel) t x -> sees F t -> zlen dir <= 4092 ->
  (forall f, In (XStatfs dir (Some f)) t -> 0 <= f_bfree f <= f_blocks f /\ 0 < f_blocks f /\ 0 <= f_bsize f * f_blocks f <= SSIZE_MAX) ->
  (t = [] /\ x = Exited (-1)) \/ (x = Exited 0 /\ exists q, In (XSay q) t /\ (q = QNot <-> ~ ramdisk F dir)
    /\ (ramdisk F dir -> d_type F dir = TMPFS -> exists f n u, q = QTmpfs n u (100 * (f_blocks f - f_bfree f) / f_blocks f) /\ In (XStatfs dir (Some f)) t
          /\ In u [1; KB; MB; GB] /\ n * u <= f_bsize f * f_blocks f < (n + 1) * u)).
Proof.
  intros M H SE L SF. destruct (tool_mount _ _ _ _ _ _ H) as [[-> ->]|(g & dir' & subs' & EO & EP & R)]; [auto|]. injection EP as <- <-. right.
  destruct (options0 _ _ EO) as (_ & EM & _). unfold run_mount in R. rewrite EM, M in R. unfold query_ramdisk in R.
  destruct (suitable_cases _ _ _ _ R) as (t1 & t2 & rc & sf & -> & R2 & LK & PL & RC & C1 & C2).
  destruct (sees_suitable F dir t1 t2 rc sf SE L PL C1 C2) as [RD TY].
  assert (S : forall q t, runs (Ask (fun _ : unit => XSay q) (fun _ => okay)) t x -> t = [XSay q] /\ x = Exited 0).
  { intros q u (a & u' & -> & [-> ->]). auto. }
  assert (INS : forall q, In (XSay q) (t1 ++ [XSay q])) by (intros q; apply in_or_app; right; left; reflexivity).
  destruct (rc =? -2) eqn:E; cbn [negb] in R2.
  2:{ apply Z.eqb_neq in E. apply S in R2. destruct R2 as [-> ->]. split; [reflexivity|]. exists QNot. split; [apply INS|]. split; [rewrite <- RD; tauto|]. rewrite <- RD. intros Q. congruence. }
  apply Z.eqb_eq in E. pose proof (proj1 RD E) as RK. destruct (TY ltac:(lia)) as [TT TI].
  destruct (f_type sf =? RAMFS) eqn:T1.
  { apply S in R2. destruct R2 as [-> ->]. split; [reflexivity|]. exists QRamfs. split; [apply INS|]. split; [split; [discriminate|tauto]|]. intros _ Q. apply Z.eqb_eq in T1. rewrite TT, Q in T1. discriminate. }
  destruct (f_type sf =? HUGEFS) eqn:T2.
  { apply S in R2. destruct R2 as [-> ->]. split; [reflexivity|]. exists QHuge. split; [apply INS|]. split; [split; [discriminate|tauto]|]. intros _ Q. apply Z.eqb_eq in T2. rewrite TT, Q in T2. discriminate. }
  destruct (SF sf ltac:(apply in_or_app; left; exact TI)) as (B1 & B2 & B3).
  assert (SZ : s64 (f_bsize sf * f_blocks sf) = f_bsize sf * f_blocks sf).
  { unfold s64, u64. cbv zeta. set (z := f_bsize sf * f_blocks sf) in *. clearbody z. rewrite Z.mod_small by lia. destruct (Z.gtb_spec z SSIZE_MAX); lia. }
  pose proof (size_text_spec (s64 (f_bsize sf * f_blocks sf)) ltac:(rewrite SZ; lia)) as ST. destruct (size_text _) as [n u]. rewrite SZ in ST.
  destruct (f_blocks sf =? 0) eqn:B0; [lia|].
  assert (PC : Z.quot (100 * f_blocks sf - 100 * f_bfree sf) (f_blocks sf) = 100 * (f_blocks sf - f_bfree sf) / f_blocks sf).
  { rewrite Z.quot_div_nonneg by lia. f_equal. lia. }
  rewrite PC in R2.
  assert (PB : 0 <= 100 * (f_blocks sf - f_bfree sf) / f_blocks sf <= 100).
  { split; [apply Z.div_pos; lia|]. apply Z.div_le_upper_bound; lia. }
  destruct ((_ >? 2147483647) || _) eqn:PE; [apply orb_true_iff in PE; lia|].
  apply S in R2. destruct R2 as [-> ->]. split; [reflexivity|]. eexists. split; [apply INS|]. split; [split; [discriminate|tauto]|].
  intros _ _. exists sf, n, u. split; [reflexivity|]. split; [apply in_or_app; left; exact TI|]. destruct ST. auto.
Qed.
(** mount ends, without undefined behaviour, except for -q *)
Lemma m_mount_safe os pos stdin fuel t x : mode_of os <> MQuery -> runs (tool KMount os pos stdin fuel) t x -> exists rc, x = Exited rc /\ (rc = 0 \/ rc = -1).
Proof.
  intros M H. destruct (tool_mount _ _ _ _ _ _ H) as [[-> ->]|(g & dir & subs & EO & EP & R)]; [eauto|].
  destruct (options0 _ _ EO) as (_ & EM & _). rewrite <- EM in M.
  destruct (g_mode g) eqn:EMG; [| | |congruence].
  1,2: destruct (mount_cases _ _ _ _ _ R ltac:(auto)) as (t1 & t2 & rc & sf & _ & _ & _ & _ & _ & [(_ & _ & ->)|[_ C]]); [eauto|];
    destruct (rest_facts _ _ _ _ _ C) as (_ & _ & _ & [(-> & _)|(-> & _)]); eauto.
  unfold run_mount in R. rewrite EMG in R. apply runs_need in R. destruct R as (ok & t' & _ & [[_ [_ ->]]|(_ & _ & ->)]); eauto.
Qed.

(** ** the event loop *)
Lemma loop_ends reading block max : forall fuel nread t x, runs (event_loop reading block max fuel nread) t x ->
  x = Running \/ x = Exited (-1) \/ (x = Exited 0 /\ In (XPoll EpError) t).
Proof.
  induction fuel as [|fuel IH]; intros nread t x H; cbn [event_loop] in H; [destruct H; auto|].
  destruct H as (p & t' & -> & H).
  assert (UP : forall t e, (x = Running \/ x = Exited (-1) \/ (x = Exited 0 /\ In (XPoll EpError) t)) -> x = Running \/ x = Exited (-1) \/ (x = Exited 0 /\ In (XPoll EpError) (e :: t))) by (intros t0 e; cbn; tauto).
  destruct p as [| | |[[|]|]|rc].
  - destruct H as [-> ->]. right. right. split; [reflexivity|left; reflexivity].
  - apply UP. destruct reading.
    + destruct H as (got & t2 & -> & H). apply UP. destruct got as [m|]; [|destruct H; auto]. destruct (zlen m =? 0); [destruct block; [eapply IH; exact H|destruct H; auto]|].
      destruct H as (u & t3 & -> & H). apply UP. destruct (_ && _) in H; [destruct H; auto|eapply IH; exact H].
    + destruct H as (rc & t2 & -> & H). apply UP. destruct (rc <? 0); [destruct H; auto|eapply IH; exact H].
  - apply UP. destruct reading.
    + destruct H as (got & t2 & -> & H). apply UP. destruct got as [m|]; [|destruct H; auto]. destruct (zlen m =? 0); [destruct block; [eapply IH; exact H|destruct H; auto]|].
      destruct H as (u & t3 & -> & H). apply UP. destruct (_ && _) in H; [destruct H; auto|eapply IH; exact H].
    + destruct H as (rc & t2 & -> & H). apply UP. destruct (rc <? 0); [destruct H; auto|eapply IH; exact H].
  - apply UP. eapply IH; exact H.
  - destruct H; auto.
  - destruct H; auto.
  - apply UP. destruct (rc <? 0); [destruct H; auto|eapply IH; exact H].
Qed.
Lemma loops_end k os pos stdin fuel t x : In k [KRead; KPub; KSub; KTee] -> runs (tool k os pos stdin fuel) t x ->
  x = Running \/ x = Exited (-1) \/ (x = Exited 0 /\ In (XPoll EpError) t).
Proof.
  intros K H. unfold tool in H. destruct (options os g0) as [g|] eqn:E; [|destruct H; auto]. destruct pos as [|ring rest]; [destruct H; auto|].
  assert (ND : forall mk p t, (forall t, runs p t x -> x = Running \/ x = Exited (-1) \/ (x = Exited 0 /\ In (XPoll EpError) t)) ->
    runs (need mk p) t x -> x = Running \/ x = Exited (-1) \/ (x = Exited 0 /\ In (XPoll EpError) t)).
  { intros mk p t0 IH R. apply runs_need in R. destruct R as (ok & t' & -> & [[-> R]|(_ & _ & ->)]); [|auto]. specialize (IH _ R). cbn. tauto. }
  assert (LP : forall rd t, runs (run_loop rd g fuel) t x -> x = Running \/ x = Exited (-1) \/ (x = Exited 0 /\ In (XPoll EpError) t)).
  { intros rd t0 R. unfold run_loop in R. revert R. apply ND. intros t1. apply loop_ends. }
  cbn [In] in K. destruct K as [<-|[<-|[<-|[<-|[]]]]].
  - unfold run_read in H. revert H. apply ND. intros t0. apply ND. intros t1. apply LP.
  - revert H. apply ND. intros t0. apply ND. intros t1. apply ND. intros t2. apply LP.
  - revert H. apply ND. intros t0. apply ND. intros t1. apply LP.
  - destruct rest as [|r1 [|r2 rest]]; [destruct H; auto|destruct H; auto|]. revert H. apply ND. intros t0. apply ND. intros t1 (a & t2 & -> & b & t3 & -> & H).
    destruct (a && b); [|destruct H; auto]. specialize (LP _ _ H). cbn. tauto.
Qed.
(** what is read is shown *)
Lemma loop_shows block max : forall fuel nread t x, runs (event_loop true block max fuel nread) t x -> 0 <= nread ->
  shown t = messages (gets t) /\ (0 < max -> nread < max -> nread + zlen (shown t) <= max).
Proof.
  induction fuel as [|fuel IH]; intros nread t x H N; cbn [event_loop] in H; [destruct H as [-> _]; cbn; split; [reflexivity|lia]|].
  destruct H as (p & t' & -> & H). cbn [shown gets flat_map app]. fold (shown t'). fold (gets t').
  assert (NIL : t' = [] -> shown t' = messages (gets t') /\ (0 < max -> nread < max -> nread + zlen (shown t') <= max)).
  { intros ->. cbn. split; [reflexivity|lia]. }
  assert (IO : runs (Ask XGet (fun got => match got with None => fails | Some m => if zlen m =? 0 then if block then event_loop true block max fuel nread else fails
      else Ask (fun _ : unit => XShow m) (fun _ => if (max >? 0) && (nread + 1 >=? max) then fails else event_loop true block max fuel (nread + 1)) end)) t' x ->
    shown t' = messages (gets t') /\ (0 < max -> nread < max -> nread + zlen (shown t') <= max)).
  { intros (got & t2 & -> & R). cbn [shown gets flat_map app]. fold (shown t2). fold (gets t2). unfold messages. cbn [flat_map]. fold (messages (gets t2)).
    destruct got as [m|]; [|destruct R as [-> _]; cbn; split; [reflexivity|lia]]. destruct m as [|b m].
    - cbn [zlen Datatypes.length Z.of_nat Z.eqb] in R. cbn [app]. destruct block; [apply (IH _ _ _ R N)|destruct R as [-> _]; cbn; split; [reflexivity|lia]].
    - replace (zlen (b :: m) =? 0) with false in R by (symmetry; apply Z.eqb_neq; rewrite zlen_cons; pose proof (zlen_nonneg m); lia).
      destruct R as (u & t3 & -> & R). cbn [shown gets flat_map app]. fold (shown t3). fold (gets t3).
      destruct ((max >? 0) && (nread + 1 >=? max)) eqn:EM.
      + destruct R as [-> _]. cbn. split; [reflexivity|lia].
      + destruct (IH _ _ _ R ltac:(lia)) as [A B]. rewrite A. split; [reflexivity|]. intros M1 M2. rewrite <- A. rewrite zlen_cons. apply andb_false_iff in EM. lia. }
  destruct p as [| | |[[|]|]|rc]; try (destruct H as [-> _]; apply NIL; reflexivity); try (apply IO; exact H); try (apply (IH _ _ _ H N)).
  destruct (rc <? 0); [destruct H as [-> _]; apply NIL; reflexivity|apply (IH _ _ _ H N)].
Qed.
Lemma m_read_shows os pos stdin fuel t x : runs (tool KRead os pos stdin fuel) t x -> shown t = messages (gets t)
  /\ forall c, getopts (create_opts os) (mkcc 0 0 0 None) = Some c -> 0 < cc_max c -> zlen (shown t) <= cc_max c.
Proof.
  intros H. unfold tool in H. destruct (options os g0) as [g|] eqn:E; [|destruct H as [-> _]; cbn; split; [reflexivity|lia]].
  destruct pos as [|ring rest]; [destruct H as [-> _]; cbn; split; [reflexivity|lia]|]. destruct (options0 _ _ E) as (EG & _). rewrite EG.
  set (Q := fun t => shown t = messages (gets t) /\ forall c, Some (g_c g) = Some c -> 0 < cc_max c -> zlen (shown t) <= cc_max c).
  assert (ND : forall mk p t, (forall ok u, Q u -> Q (mk ok :: u)) -> Q [mk false] -> (forall t, runs p t x -> Q t) -> runs (need mk p) t x -> Q t).
  { intros mk p t0 MK Q0 IH R. apply runs_need in R. destruct R as (ok & t' & -> & [[-> R]|(-> & -> & ->)]); [apply MK, IH, R|exact Q0]. }
  assert (Q1 : Q []). { split; [reflexivity|]. intros c _ Hc. cbn. lia. }
  change (Q t). unfold run_read in H. revert H. apply ND; [intros ok u A; exact A|exact Q1|]. intros t1. apply ND; [intros ok u A; exact A|exact Q1|]. intros t2. unfold run_loop.
  apply ND; [intros ok u A; exact A|exact Q1|]. intros t3 R. destruct (loop_shows _ _ _ _ _ _ R ltac:(lia)) as [A B]. split; [exact A|]. intros c Ec Hc. injection Ec as <-. specialize (B Hc Hc). lia.
Qed.

(** ** delegates *)
Lemma m_delegate sub args t x : runs (delegate sub args) t x ->
  (x = Exited (-1) /\ forall p, ~ In (XAccess p true) t) \/ exists self, t = [XSelf (Some self); XAccess (self ++ [45] ++ sub) true]
    /\ x = Became (self ++ [45] ++ sub) ((self ++ [45] ++ sub) :: args) /\ zlen (self ++ [45] ++ sub) < PATH_MAX.
Proof.
  intros (res & t' & -> & H). destruct res as [self|]; [|destruct H as [-> ->]; left; split; [reflexivity|intros p [I|[]]; discriminate]].
  cbv zeta in H. destruct (_ || _) in H; [destruct H as [-> ->]; left; split; [reflexivity|intros p [I|[]]; discriminate]|].
  destruct (zlen self + 1 + zlen sub + 1 >? PATH_MAX) eqn:L; [destruct H as [-> ->]; left; split; [reflexivity|intros p [I|[]]; discriminate]|].
  assert (L2 : (zlen self >=? PATH_MAX) || (zlen self + 1 + zlen sub >=? PATH_MAX) = false) by (pose proof (zlen_nonneg sub); apply orb_false_iff; lia). rewrite L2 in H.
  destruct H as (ok & t2 & -> & H). destruct ok; destruct H as [-> ->].
  - right. exists self. split; [reflexivity|]. split; [reflexivity|]. rewrite !zlen_app. change (zlen [45]) with 1. lia.
  - left. split; [reflexivity|]. intros p [I|[I|[]]]; discriminate.
Qed.
