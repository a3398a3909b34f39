(** * C86: lines go in at one process of shr-tool and come out at another. *)
From Verif Require Export PipeFacts BwLive.
From Verif Require Import ToolFacts2.
Local Open Scope Z_scope.
Local Open Scope list_scope.

(** ** the write command *)
Definition put (p : bytes * Z) : ev := XPut (fst p) (snd p).
Definition bad_put (bad : list (bytes * Z)) : Prop := bad = [] \/ exists m rc, bad = [(m, rc)] /\ rc < 0.
(** what put_lines does, however far it gets *)
Lemma put_shape : forall ls fuel T x, runs (put_lines fuel (text ls)) T x -> Forall line_ok ls ->
  exists dn bad rest, T = map put dn ++ map put bad /\ Forall (fun p => 0 <= snd p) dn
    /\ bad_put bad /\ ls = map fst dn ++ map fst bad ++ rest /\ (x = Exited 0 -> bad = [] /\ rest = []).
Proof.
  induction ls as [|l ls IH]; intros fuel T x H O; (destruct fuel as [|fuel]; [destruct H as [-> ->]; eexists [], [], _; repeat split; [constructor|left; reflexivity|discriminate..]|]); cbn [put_lines] in H.
  - destruct H as [-> ->]. exists [], [], []. repeat split; [constructor|left; reflexivity].
  - inversion O as [|? ? (O1 & O2 & O3) O']; subst. unfold text in H. cbn [flat_map] in H. fold (text ls) in H. rewrite <- app_assoc in H.
    destruct (zlen (l ++ [10] ++ text ls) =? 0) eqn:Z0. { apply Z.eqb_eq in Z0. rewrite zlen_app in Z0. cbn [app] in Z0. rewrite zlen_cons in Z0. pose proof (zlen_nonneg l). pose proof (zlen_nonneg (text ls)). lia. }
    assert (FG : fgets (Z.to_nat (LINE - 1)) (l ++ [10] ++ text ls) = (l ++ [10], text ls)).
    { assert (G : forall l r s, ~ In 10 l -> (length l < r)%nat -> fgets r (l ++ [10] ++ s) = (l ++ [10], s)).
      { clear. induction l as [|c l IH]; intros r s N L; (destruct r as [|r]; [cbn in L; lia|]); cbn [app fgets]; [reflexivity|].
        destruct (c =? 10) eqn:E; [apply Z.eqb_eq in E; elim N; left; auto|]. cbn [app] in IH. rewrite IH; [reflexivity|intros I; apply N; right; exact I|cbn in L; lia]. }
      apply G; [exact O1|]. unfold zlen in O3. unfold LINE. lia. }
    rewrite FG in H. destruct H as (rc & t' & -> & H).
    assert (CH : chomp (upto0 (l ++ [10])) = l).
    { assert (U : upto0 (l ++ [10]) = l ++ [10]).
      { clear -O2. induction l as [|c l IH]; [reflexivity|]. cbn [app upto0]. destruct (c =? 0) eqn:E; [apply Z.eqb_eq in E; elim O2; left; auto|]. f_equal. apply IH. intros I. apply O2. right. exact I. }
      rewrite U. unfold chomp. rewrite rev_app_distr. cbn. apply rev_involutive. }
    rewrite CH. destruct (rc <? 0) eqn:E.
    + destruct H as [-> ->]. exists [], [(l, rc)], ls. repeat split; [constructor|right; exists l, rc; split; [reflexivity|lia]|discriminate..].
    + destruct (IH _ _ _ H O') as (dn & bad & rest & -> & P & B & -> & X). exists ((l, rc) :: dn), bad, rest.
      repeat split; [constructor; [cbn; lia|exact P]|exact B|apply X; assumption|apply X; assumption].
Qed.
Lemma map_split {A B} (f : A -> B) l : forall a b, map f l = a ++ b -> exists l1 l2, l = l1 ++ l2 /\ map f l1 = a /\ map f l2 = b.
Proof.
  induction l as [|x l IH]; intros a b E; cbn in E.
  - symmetry in E. apply app_eq_nil in E. destruct E as [-> ->]. exists [], []. auto.
  - destruct a as [|y a]; cbn in E; [exists [], (x :: l); cbn; auto|]. injection E as <- E.
    destruct (IH _ _ E) as (l1 & l2 & -> & <- & <-). exists (x :: l1), l2. auto.
Qed.
(** so far and from now on *)
Lemma write_shape os ring rest ls fuel t next x : runs (tool KWrite os (ring :: rest) (text ls) fuel) (t ++ next) x -> Forall line_ok ls ->
  (exists r fl, In (XOpen r fl true) t) ->
  exists dn bad todo, t = XOpen ring SHR_WRONLY true :: map put (dn ++ bad) /\ Forall (fun p => 0 <= snd p) dn /\ bad_put bad
    /\ ls = map fst (dn ++ bad) ++ todo
    /\ (forall m rc n, next = XPut m rc :: n -> exists td, todo = m :: td /\ bad = [])
    /\ (ended next x 0 -> bad = [] /\ todo = []).
Proof.
  intros H O (r & fl & OP). unfold tool in H. destruct (options os g0) as [g|] eqn:E; [|destruct H as [H _]; apply app_eq_nil in H; destruct H as [-> _]; destruct OP].
  unfold run_write in H. apply runs_need in H. destruct H as (ok & t' & ET & H). destruct t as [|e t]; [destruct OP|]. cbn [app] in ET. injection ET as -> ET.
  destruct H as [[-> H]|(-> & -> & _)].
  2:{ apply app_eq_nil in ET. destruct ET as [-> _]. destruct OP as [OP|[]]. discriminate. }
  destruct (put_shape _ _ _ _ H O) as (dn & bad & todo & EQ & P & B & EL & X). rewrite <- ET, <- map_app in EQ. symmetry in EQ.
  destruct (map_split put _ _ _ EQ) as (l1 & l2 & E12 & <- & <-). clear OP EQ ET H.
  destruct (Nat.le_gt_cases (length l1) (length dn)) as [L|L].
  - (* within the successful ones *)
    assert (D : exists d2, dn = l1 ++ d2 /\ l2 = d2 ++ bad).
    { clear -E12 L. revert dn E12 L. induction l1 as [|y l1 IH]; intros dn E12 L; [exists dn; cbn in E12; auto|].
      destruct dn as [|z dn]; [cbn in L; lia|]. cbn in E12. injection E12 as <- E12. destruct (IH dn E12 ltac:(cbn in L; lia)) as (d2 & -> & ->). exists d2. auto. }
    destruct D as (d2 & -> & ->). exists l1, [], (map fst (d2 ++ bad) ++ todo). rewrite app_nil_r. apply Forall_app in P. destruct P as [P1 P2].
    split; [reflexivity|]. split; [exact P1|]. split; [left; reflexivity|]. split; [rewrite EL, !map_app, <- !app_assoc; reflexivity|]. split.
    + intros m rc n EN. destruct (d2 ++ bad) as [|[m' rc'] td]; [discriminate|]. cbn in EN. injection EN as -> -> _. cbn. eauto.
    + intros [EN ->]. destruct (X eq_refl) as [-> ->]. apply map_eq_nil in EN. rewrite app_nil_r in *. subst d2. auto.
  - assert (D : l2 = [] /\ l1 = dn ++ bad).
    { destruct B as [->|(m & rc & -> & _)].
      - rewrite app_nil_r in E12. subst dn. rewrite app_length in L. lia.
      - apply (f_equal (@rev _)) in E12. rewrite rev_app_distr in E12. cbn in E12. rewrite rev_app_distr in E12.
        destruct (rev l2) as [|z r2] eqn:R2.
        + cbn in E12. apply (f_equal (@rev _)) in R2. rewrite rev_involutive in R2. subst l2. split; [reflexivity|].
          apply (f_equal (@rev _)) in E12. cbn in E12. rewrite !rev_involutive in E12. auto.
        + cbn in E12. injection E12 as _ E12. apply (f_equal (@length _)) in E12. rewrite app_length, !rev_length in E12. lia. }
    destruct D as [-> ->]. exists dn, bad, todo. split; [reflexivity|]. split; [exact P|]. split; [exact B|]. split; [rewrite EL, map_app, <- app_assoc; reflexivity|]. split.
    + intros m rc n EN. discriminate.
    + intros [_ ->]. apply X. reflexivity.
Qed.

(** what the returns say *)
Lemma ring_calls_puts l : ring_calls (map put l) = map put l.
Proof. induction l as [|p l IH]; [reflexivity|]. cbn. rewrite <- IH at 2. reflexivity. Qed.
Lemma wrets_returned c evs l : returned c evs = map put l -> map (fun p => (concat (fst p), snd p)) (wrets c evs) = l.
Proof.
  revert l. induction evs as [|e evs IH]; intros l E.
  - cbn in E. destruct l; [reflexivity|discriminate].
  - cbn [returned flat_map wrets] in *. fold (returned c evs) in *. fold (wrets c evs).
    destruct e as [| |c' x| |]; try (apply IH; exact E). destruct x; try (apply IH; exact E).
    + destruct (is c c'); [|apply IH; exact E]. cbn in E. destruct l; discriminate.
    + destruct (is c c'); [|apply IH; exact E]. cbn in E. destruct l as [|[m v] l]; [discriminate|]. cbn in E. injection E as <- <- E. cbn. f_equal. apply IH. exact E.
Qed.
Lemma acks_good l ms : acks l ms -> Forall (fun p => 0 <= snd p) l -> ms = concat (map fst l).
Proof.
  induction 1 as [|l ms iov v A IH N|l ms iov v A IH N]; intros P; [reflexivity| |]; apply Forall_app in P; destruct P as [P1 P2]; inversion P2; subst; cbn in *; [lia|].
  rewrite map_app, concat_app, <- (IH P1). cbn. rewrite app_nil_r. reflexivity.
Qed.
Lemma acks_last l ms p : acks (l ++ [p]) ms -> Forall (fun p => 0 <= snd p) l -> ms = concat (map fst l) \/ ms = concat (map fst l) ++ fst p.
Proof.
  intros A P. inversion A as [E|l' ms' iov v A' N E|l' ms' iov v A' N E].
  - destruct l; discriminate.
  - apply app_inj_tail in E. destruct E as [-> _]. left. eapply acks_good; eassumption.
  - apply app_inj_tail in E. destruct E as [-> <-]. right. cbn. f_equal. eapply acks_good; eassumption.
Qed.

(** what has entered the ring *)
Lemma puts_commit r w evs c ring dn bad : reach contract r w evs -> In (EOpen SHR_WRONLY (Some c)) evs ->
  (forall iov, In (ECall c (CWrite iov)) evs -> exists m, iov = [m]) ->
  forall t, t = XOpen ring SHR_WRONLY true :: map put (dn ++ bad) -> ring_calls t = returned c evs -> Forall (fun p => 0 <= snd p) dn -> bad_put bad ->
  acknowledged t = map fst dn
  /\ (committed_by c evs = map fst dn \/ (exists m rc, bad = [(m, rc)] /\ rc < 0 /\ committed_by c evs = map fst dn ++ [m])).
Proof.
  intros R OE AW t ET AC P B.
  destruct (reach_pipe _ _ _ R) as [WVc _]. destruct (proj2 (WVc c) _ OE) as (_ & _ & AK). destruct (AK eq_refl eq_refl) as [AKS ACL]. clear AK WVc.
  rewrite ET in AC. cbn [ring_calls filter] in AC. fold (ring_calls (map put (dn ++ bad))) in AC. rewrite ring_calls_puts in AC. symmetry in AC.
  pose proof (wrets_returned _ _ _ AC) as WR.
  assert (W1 : wrets c evs = map (fun p => ([fst p], snd p)) (dn ++ bad)).
  { rewrite <- WR, map_map. rewrite <- (map_id (wrets c evs)) at 1. apply map_ext_in. intros [iov v] I. cbn.
    destruct (AW _ (ACL _ _ I)) as [m ->]. cbn. rewrite app_nil_r. reflexivity. }
  assert (CC : forall l : list (bytes * Z), concat (map fst (map (fun p => ([fst p], snd p)) l)) = map fst l).
  { clear. induction l as [|p l IH]; [reflexivity|]. cbn. f_equal. exact IH. }
  assert (ACK : forall l, Forall (fun p => 0 <= snd p) l -> acknowledged (map put l) = map fst l).
  { clear. intros l P. induction P as [|p l Hp P IH]; [reflexivity|]. cbn [acknowledged map flat_map put]. fold (acknowledged (map put l)). rewrite IH.
    replace (snd p <? 0) with false by lia. reflexivity. }
  split.
  { rewrite ET. cbn [acknowledged flat_map app]. fold (acknowledged (map put (dn ++ bad))). rewrite map_app. unfold acknowledged. rewrite flat_map_app.
    fold (acknowledged (map put dn)). rewrite (ACK dn P). destruct B as [->|(m & rc & -> & Hrc)]; [apply app_nil_r|]. cbn [map put flat_map fst snd].
    replace (rc <? 0) with true by lia. apply app_nil_r. }
  assert (PP : Forall (fun p => 0 <= snd p) (map (fun p : bytes * Z => ([fst p], snd p)) dn)) by (clear -P; induction P; constructor; assumption).
  destruct B as [->|(m & rc & -> & Hrc)].
  - rewrite app_nil_r in W1. left. rewrite W1 in AKS. rewrite (acks_good _ _ AKS PP). apply CC.
  - rewrite W1, map_app in AKS. cbn in AKS. destruct (acks_last _ _ _ AKS PP) as [E|E]; rewrite CC in E; [left; exact E|]. right. exists m, rc. auto.
Qed.

Lemma commit_extra t ring dn bad com : t = XOpen ring SHR_WRONLY true :: map put (dn ++ bad) -> acknowledged t = map fst dn ->
  com = map fst dn \/ (exists m rc, bad = [(m, rc)] /\ rc < 0 /\ com = map fst dn ++ [m]) ->
  exists extra, com = acknowledged t ++ extra /\ (extra = [] \/ exists m rc, extra = [m] /\ In (XPut m rc) t /\ rc < 0).
Proof.
  intros ET -> [->|(m & rc & -> & Hrc & ->)]; [exists []; split; [symmetry; apply app_nil_r|left; reflexivity]|].
  exists [m]. split; [reflexivity|]. right. exists m, rc. split; [reflexivity|]. split; [|exact Hrc]. rewrite ET. right. rewrite map_app. apply in_or_app. right. left. reflexivity.
Qed.
Theorem pipe_write r w evs c os ring rest ls fuel t next x : reach contract r w evs ->
  attached c (tool KWrite os (ring :: rest) (text ls) fuel) evs t next x -> Forall line_ok ls ->
  prefix_of (committed_by c evs) ls
  /\ (exists extra, committed_by c evs = acknowledged t ++ extra /\ (extra = [] \/ exists m rc, extra = [m] /\ In (XPut m rc) t /\ rc < 0))
  /\ (ended next x 0 -> committed_by c evs = ls).
Proof.
  intros R [AR (r0 & fl & OX & OE) AC AW _ AN] O.
  destruct (write_shape _ _ _ _ _ _ _ _ AR O ltac:(eauto)) as (dn & bad & todo & ET & P & B & EL & NX & EX).
  assert (FL : fl = SHR_WRONLY).
  { rewrite ET in OX. destruct OX as [OX|OX]; [congruence|]. exfalso. apply in_map_iff in OX. destruct OX as (y & OX & _). discriminate. }
  subst fl. destruct (puts_commit _ _ _ _ _ _ _ R OE AW t ET AC P B) as [AT CB].
  split; [|split].
  - rewrite EL, map_app. destruct CB as [->|(m & rc & -> & _ & ->)]; [exists (map fst bad ++ todo)|exists todo]; rewrite <- ?app_assoc; reflexivity.
  - eapply commit_extra; eassumption.
  - intros ED. destruct (EX ED) as [-> ->]. rewrite EL. destruct CB as [->|(m & rc & X & _)]; [|discriminate]. rewrite !app_nil_r. reflexivity.
Qed.
(** an empty line ends it *)
Theorem pipe_empty_line r w evs c os ring rest ls fuel t next x : reach contract r w evs ->
  attached c (tool KWrite os (ring :: rest) (text ls) fuel) evs t next x -> Forall line_ok ls -> In [] ls -> ~ ended next x 0.
Proof.
  intros R A O I ED. destruct (pipe_write _ _ _ _ _ _ _ _ _ _ _ _ R A O) as (_ & _ & H). specialize (H ED).
  destruct (reach_inv _ _ _ _ id_contract R) as (fsz & F & X & B & W & _). pose proof (w_ne _ _ _ (i_win _ _ (i_inv0 _ _ (wi_ring _ _ _ W)))) as NE.
  assert (IC : In [] (committed evs)).
  { rewrite <- H in I. unfold committed_by in I. apply in_flat_map in I. destruct I as (e & I1 & I2). apply in_flat_map. exists e. split; [exact I1|].
    destruct e as [| | |c' ms|]; try destruct I2. destruct (is c c'); [exact I2|destruct I2]. }
  unfold nonempty in NE. rewrite Forall_forall in NE. specialize (NE _ IC). cbn in NE. lia.
Qed.
(** writehex and writefile write one message *)
Lemma one_shape (Q : list ev -> bytes -> Prop) p os ring rest stdin fuel t next x k : runs (tool k os (ring :: rest) stdin fuel) (t ++ next) x ->
  (forall g, options os g0 = Some g -> tool k os (ring :: rest) stdin fuel = need (XOpen ring SHR_WRONLY) p) ->
  (forall u y, runs p u y -> (exists mid, (forall e, In e mid -> ring_calls [e] = [] /\ acknowledged [e] = [] /\ (forall a b, e <> XOpen a b true)) /\
      ((u = mid /\ y <> Exited 0) \/ exists m rc, u = mid ++ [XPut m rc] /\ Q mid m /\ (y = Exited 0 -> 0 <= rc)))) ->
  (exists r fl, In (XOpen r fl true) t) ->
  (forall r fl, In (XOpen r fl true) t -> fl = SHR_WRONLY)
  /\ ((ring_calls t = [] /\ acknowledged t = [] /\ (ended next x 0 -> False))
      \/ exists m rc, ring_calls t = [XPut m rc] /\ (exists mid, t = XOpen ring SHR_WRONLY true :: mid ++ [XPut m rc] /\ Q mid m) /\ acknowledged t = (if rc <? 0 then [] else [m]) /\ (ended next x 0 -> 0 <= rc)).
Proof.
  intros H EQ SH (r & fl & OP). destruct (options os g0) as [g|] eqn:E.
  2:{ unfold tool in H. rewrite E in H. destruct H as [H _]. apply app_eq_nil in H. destruct H as [-> _]. destruct OP. }
  rewrite (EQ g eq_refl) in H. apply runs_need in H. destruct H as (ok & t' & ET & H). destruct t as [|e t]; [destruct OP|]. cbn [app] in ET. injection ET as -> ET.
  destruct H as [[-> H]|(-> & -> & _)].
  2:{ apply app_eq_nil in ET. destruct ET as [-> _]. destruct OP as [OP|[]]. discriminate. }
  destruct (SH _ _ H) as (mid & M & C). clear SH EQ H.
  assert (NC : forall l, incl l mid -> ring_calls l = [] /\ acknowledged l = [] /\ forall a b, ~ In (XOpen a b true) l).
  { induction l as [|z l IH]; intros IN; [repeat split; intros ? ? []|]. destruct (M z (IN _ (or_introl eq_refl))) as (M1 & M2 & M3). destruct (IH ltac:(intros q Hq; apply IN; right; exact Hq)) as (I1 & I2 & I3).
    change (z :: l) with ([z] ++ l). unfold ring_calls, acknowledged in *. rewrite filter_app, flat_map_app, M1, M2, I1, I2. repeat split. intros a b [J|J]; [exact (M3 a b J)|exact (I3 a b J)]. }
  destruct C as [[C NX]|(m & rc & C & HQ & NX)].
  - rewrite C in ET. symmetry in ET. destruct (NC t) as (N1 & N2 & N3); [intros z Hz; rewrite ET; apply in_or_app; left; exact Hz|]. split.
    + intros a b [J|J]; [congruence|]. elim (N3 a b J).
    + left. split; [exact N1|]. split; [exact N2|]. intros [-> ->]. apply NX. reflexivity.
  - rewrite C in ET. destruct next as [|z next] using rev_ind.
    + rewrite app_nil_r in ET. subst t. destruct (NC mid (incl_refl _)) as (N1 & N2 & N3). split.
      * intros a b [J|J]; [congruence|]. apply in_app_or in J. destruct J as [J|[J|[]]]; [elim (N3 a b J)|discriminate].
      * right. exists m, rc. split; [cbn [ring_calls filter]; unfold ring_calls in N1; rewrite filter_app, N1; reflexivity|]. split; [exists mid; split; [reflexivity|exact HQ]|].
        split; [change (acknowledged (mid ++ [XPut m rc]) = if rc <? 0 then [] else [m]); unfold acknowledged in *; rewrite flat_map_app, N2; cbn; destruct (rc <? 0); reflexivity|].
        intros [_ ->]. apply NX. reflexivity.
    + clear IHnext. rewrite app_assoc in ET. apply app_inj_tail in ET. destruct ET as [ET _]. destruct (NC t) as (N1 & N2 & N3); [intros q Hq; rewrite <- ET; apply in_or_app; left; exact Hq|]. split.
      * intros a b [J|J]; [congruence|]. elim (N3 a b J).
      * left. split; [exact N1|]. split; [exact N2|]. intros [J _]. destruct next; discriminate.
Qed.

Lemma one_commit (Q : list ev -> bytes -> Prop) r w evs c ring t next x : reach contract r w evs -> In (EOpen SHR_WRONLY (Some c)) evs ->
  (forall iov, In (ECall c (CWrite iov)) evs -> exists m, iov = [m]) -> ring_calls t = returned c evs ->
  ((ring_calls t = [] /\ acknowledged t = [] /\ (ended next x 0 -> False))
      \/ exists m rc, ring_calls t = [XPut m rc] /\ (exists mid, t = XOpen ring SHR_WRONLY true :: mid ++ [XPut m rc] /\ Q mid m) /\ acknowledged t = (if rc <? 0 then [] else [m]) /\ (ended next x 0 -> 0 <= rc)) ->
  let got := exists m mid rc, t = XOpen ring SHR_WRONLY true :: mid ++ [XPut m rc] /\ Q mid m /\ committed_by c evs = [m] in
  (committed_by c evs = [] \/ got) /\ (ended next x 0 -> got).
Proof.
  intros R OE AW AC S got. destruct S as [(S1 & _ & S3)|(m & rc & S1 & (mid & S2 & HQ) & _ & S4)].
  - rewrite S1 in AC. destruct (puts_commit r w evs c ring [] [] R OE AW _ eq_refl) as [_ [C|(m & rc & X & _)]]; [exact AC|exact (Forall_nil _)|left; reflexivity| |discriminate].
    split; [left; exact C|]. intros E. destruct (S3 E).
  - rewrite S1 in AC. destruct (rc <? 0) eqn:E.
    + destruct (puts_commit r w evs c ring [] [(m, rc)] R OE AW _ eq_refl) as [_ [C|(m' & rc' & X & _ & C)]]; [exact AC|exact (Forall_nil _)|right; exists m, rc; split; [reflexivity|lia]| |].
      * split; [left; exact C|]. intros ED. specialize (S4 ED). lia.
      * injection X as <- <-. split; [right; exists m, mid, rc; auto|]. intros ED. specialize (S4 ED). lia.
    + destruct (puts_commit r w evs c ring [(m, rc)] [] R OE AW _ eq_refl) as [_ [C|(m' & rc' & X & _)]]; [exact AC|constructor; [cbn; lia|constructor]|left; reflexivity| |discriminate].
      assert (G : got) by (exists m, mid, rc; auto). split; [right; exact G|intros _; exact G].
Qed.
Theorem pipe_writehex r w evs c os ring rest stdin fuel s bs t next x : reach contract r w evs -> spells bs s -> bs <> [] ->
  attached c (tool (KWritehex s) os (ring :: rest) stdin fuel) evs t next x ->
  (committed_by c evs = [] \/ committed_by c evs = [bs]) /\ (ended next x 0 -> committed_by c evs = [bs]).
Proof.
  intros R S NE [AR (r0 & fl & OX & OE) AC AW _ _].
  destruct (one_shape (fun _ m => m = bs) (match unhex (s ++ [0]) with Ok (Some (h, n)) => if n <=? 0 then fails else
      match rd_mem 0 n h with Ok m => Ask (XPut m) (fun rc => if rc <? 0 then fails else okay) | _ => End Undefined end
      | Ok None => fails | Abort => End Failed | _ => End Undefined end) _ _ _ _ _ _ _ _ _ AR) as [FL SH].
  - intros g E. unfold tool. rewrite E. reflexivity.
  - destruct (t_unhex bs s S NE) as [junk EU]. rewrite EU. intros u y H. exists []. split; [intros e []|].
    assert (0 < zlen bs) by (destruct bs; [congruence|rewrite zlen_cons; pose proof (zlen_nonneg bs); lia]). replace (zlen bs <=? 0) with false in H by lia.
    assert (RD : rd_mem 0 (zlen bs) (bs ++ junk) = Ok bs). { pose proof (zlen_nonneg bs); pose proof (zlen_nonneg junk). rewrite rd_mem_ok by (rewrite ?zlen_app; lia). f_equal. unfold sub. cbn [Z.to_nat skipn]. unfold zlen. rewrite Nat2Z.id, firstn_app, firstn_all, Nat.sub_diag. apply app_nil_r. }
    rewrite RD in H. destruct H as (rc & u' & -> & H). right. exists bs, rc. destruct (rc <? 0) eqn:E; destruct H as [-> ->]; repeat split; [discriminate|lia].
  - eauto.
  - destruct (one_commit (fun _ m => m = bs) r w evs c ring t next x R) as [A B]; [rewrite <- (FL _ _ OX); exact OE|exact AW|exact AC|exact SH|].
    split; [destruct A as [A|(m & mid & rc & _ & -> & A)]; auto|]. intros E. destruct (B E) as (m & mid & rc & _ & -> & A'). exact A'.
Qed.
Theorem pipe_writefile r w evs c os ring rest stdin fuel f t next x : reach contract r w evs ->
  attached c (tool (KWritefile f) os (ring :: rest) stdin fuel) evs t next x ->
  (committed_by c evs = [] \/ exists m, In (XMap f (Some m)) t /\ committed_by c evs = [m])
  /\ (ended next x 0 -> exists m, In (XMap f (Some m)) t /\ committed_by c evs = [m]).
Proof.
  intros R [AR (r0 & fl & OX & OE) AC AW _ _].
  destruct (one_shape (fun mid m => In (XMap f (Some m)) mid) (Ask (XMap f) (fun res => match res with None => fails | Some m => Ask (XPut m) (fun rc => if rc <? 0 then fails else okay) end)) _ _ _ _ _ _ _ _ _ AR) as [FL SH].
  - intros g E. unfold tool. rewrite E. reflexivity.
  - intros u y (m & u1 & -> & H). exists [XMap f m]. split; [intros e [<-|[]]; repeat split; discriminate|]. destruct m as [m|].
    + destruct H as (rc & u2 & -> & H). right. exists m, rc. destruct (rc <? 0) eqn:E; destruct H as [-> ->]; (split; [reflexivity|]; split; [left; reflexivity|]); [discriminate|lia].
    + destruct H as [-> ->]. left. split; [reflexivity|discriminate].
  - eauto.
  - destruct (one_commit (fun mid m => In (XMap f (Some m)) mid) r w evs c ring t next x R) as [A B]; [rewrite <- (FL _ _ OX); exact OE|exact AW|exact AC|exact SH|].
    assert (G : (exists m mid rc, t = XOpen ring SHR_WRONLY true :: mid ++ [XPut m rc] /\ In (XMap f (Some m)) mid /\ committed_by c evs = [m]) -> exists m, In (XMap f (Some m)) t /\ committed_by c evs = [m]).
    { intros (m & mid & rc & -> & I & C). exists m. split; [right; apply in_or_app; left; exact I|exact C]. }
    split; [destruct A as [A|A]; auto|]. intros E. auto.
Qed.

(** ** the read command *)
(** everything that was read is shown, but for a message about to be *)
Definition showing (t next : list ev) : Prop :=
  messages (gets t) = shown t \/ exists m n, next = XShow m :: n /\ messages (gets t) = shown t ++ [m].
Lemma showing_nil next : showing [] next.
Proof. left. reflexivity. Qed.
Lemma showing_cons e t next : gets [e] = [] -> shown [e] = [] -> showing t next -> showing (e :: t) next.
Proof.
  intros G S H. assert (G' : gets (e :: t) = gets t) by (change (gets ([e] ++ t) = gets t); unfold gets in *; rewrite flat_map_app, G; reflexivity).
  assert (S' : shown (e :: t) = shown t) by (change (shown ([e] ++ t) = shown t); unfold shown in *; rewrite flat_map_app, S; reflexivity).
  unfold showing. rewrite G', S'. exact H.
Qed.
Lemma loop_showing block max : forall fuel nread t next x, runs (event_loop true block max fuel nread) (t ++ next) x -> showing t next.
Proof.
  induction fuel as [|fuel IH]; intros nread t next x H; cbn [event_loop] in H; [destruct H as [H _]; apply app_eq_nil in H; destruct H as [-> _]; apply showing_nil|].
  destruct t as [|e t]; [apply showing_nil|]. destruct H as (p & t' & ET & H). cbn [app] in ET. injection ET as -> <-. apply showing_cons; [reflexivity|reflexivity|].
  assert (NIL : t ++ next = [] -> showing t next) by (intros E; apply app_eq_nil in E; destruct E as [-> _]; apply showing_nil).
  assert (IO : runs (Ask XGet (fun got => match got with None => fails | Some m => if zlen m =? 0 then if block then event_loop true block max fuel nread else fails
      else Ask (fun _ : unit => XShow m) (fun _ => if (max >? 0) && (nread + 1 >=? max) then fails else event_loop true block max fuel (nread + 1)) end)) (t ++ next) x ->
    showing t next).
  { intros (got & t2 & ET & R). destruct t as [|e t]; [apply showing_nil|]. cbn [app] in ET. injection ET as -> <-.
    assert (N2 : t ++ next = [] -> showing t next) by (intros E; apply app_eq_nil in E; destruct E as [-> _]; apply showing_nil).
    assert (EMPTY : messages [got] = [] -> showing t next -> showing (XGet got :: t) next).
    { intros M S. unfold showing in *. cbn [gets flat_map app shown] in *. fold (gets t) (shown t) in *.
      assert (MM : messages (got :: gets t) = messages (gets t)) by (change (messages ([got] ++ gets t) = messages (gets t)); unfold messages in *; rewrite flat_map_app, M; reflexivity).
      rewrite MM. exact S. }
    destruct got as [m|]; [|apply EMPTY; [reflexivity|]; destruct R as [R _]; apply N2; exact R].
    destruct (zlen m =? 0) eqn:Z0.
    - apply EMPTY; [cbn; rewrite Z0; reflexivity|]. destruct block; [eapply IH; exact R|]. destruct R as [R _]. apply N2. exact R.
    - destruct R as (u & t3 & ET & R). unfold showing. cbn [gets flat_map app shown]. fold (gets t) (shown t).
      assert (MM : messages (Some m :: gets t) = m :: messages (gets t)) by (cbn; rewrite Z0; reflexivity). rewrite MM.
      destruct t as [|e t].
      + right. exists m, t3. split; [exact ET|reflexivity].
      + cbn [app] in ET. injection ET as -> <-. cbn [gets flat_map app shown]. fold (gets t) (shown t).
        assert (S : showing t next). { destruct ((max >? 0) && _); [destruct R as [R _]; apply app_eq_nil in R; destruct R as [-> _]; apply showing_nil|eapply IH; exact R]. }
        destruct S as [S|(m' & n & S1 & S2)]; [left; rewrite S; reflexivity|right; exists m', n; rewrite S2; auto]. }
  destruct p as [| | |[[|]|]|rc]; try (destruct H as [H _]; apply NIL; exact H); try (apply IO; exact H); try (eapply IH; exact H).
  destruct (rc <? 0); [destruct H as [H _]; apply NIL; exact H|eapply IH; exact H].
Qed.
Lemma read_showing os pos stdin fuel t next x : runs (tool KRead os pos stdin fuel) (t ++ next) x -> showing t next.
Proof.
  intros H. unfold tool in H. assert (NIL : forall t, t ++ next = [] -> showing t next) by (intros u E; apply app_eq_nil in E; destruct E as [-> _]; apply showing_nil).
  destruct (options os g0) as [g|] eqn:E; [|destruct H as [H _]; apply NIL; exact H].
  destruct pos as [|ring rest]; [destruct H as [H _]; apply NIL; exact H|].
  assert (ND : forall mk p t, (forall ok, gets [mk ok] = [] /\ shown [mk ok] = []) -> (forall t, runs p (t ++ next) x -> showing t next) -> runs (need mk p) (t ++ next) x -> showing t next).
  { intros mk p u MK IH R. apply runs_need in R. destruct R as (ok & t' & ET & R). destruct u as [|e u]; [apply showing_nil|]. cbn [app] in ET. injection ET as -> <-.
    destruct (MK ok) as [M1 M2]. apply showing_cons; [exact M1|exact M2|]. destruct R as [[_ R]|(_ & R & _)]; [apply IH; exact R|apply NIL; exact R]. }
  unfold run_read in H. revert H. apply ND; [split; reflexivity|]. intros t1. apply ND; [split; reflexivity|]. intros t2. unfold run_loop. apply ND; [split; reflexivity|].
  intros t3. apply loop_showing.
Qed.
Lemma read_flags os pos stdin fuel t next x r fl : runs (tool KRead os pos stdin fuel) (t ++ next) x -> In (XOpen r fl true) t -> fl = Z.lor SHR_RDONLY SHR_NONBLOCK.
Proof.
  intros H I. assert (I' : In (XOpen r fl true) (t ++ next)) by (apply in_or_app; left; exact I). clear I. revert H I'. generalize (t ++ next). clear t. intros t H I.
  unfold tool in H. destruct (options os g0) as [g|]; [|destruct H as [-> _]; destruct I]. destruct pos as [|ring rest]; [destruct H as [-> _]; destruct I|].
  assert (NO : forall u, runs (need XFd (run_loop true g fuel)) u x -> ~ In (XOpen r fl true) u).
  { assert (LP : forall fuel nread u, runs (event_loop true (g_block g) (cc_max (g_c g)) fuel nread) u x -> ~ In (XOpen r fl true) u).
    { clear. induction fuel as [|fuel IH]; intros nread t H; cbn [event_loop] in H; [destruct H as [-> _]; intros []|].
      assert (IO : forall t, runs (Ask XGet (fun got => match got with None => fails | Some m => if zlen m =? 0 then if g_block g then event_loop true (g_block g) (cc_max (g_c g)) fuel nread else fails
        else Ask (fun _ : unit => XShow m) (fun _ => if (cc_max (g_c g) >? 0) && (nread + 1 >=? cc_max (g_c g)) then fails else event_loop true (g_block g) (cc_max (g_c g)) fuel (nread + 1)) end)) t x -> ~ In (XOpen r fl true) t).
      { intros u (got & t2 & -> & R) [I|I]; [discriminate|]. destruct got as [m|]; [|destruct R as [-> _]; destruct I].
        destruct (zlen m =? 0); [destruct (g_block g); [eapply IH; eassumption|destruct R as [-> _]; destruct I]|].
        destruct R as (v & t3 & -> & R). destruct I as [I|I]; [discriminate|]. destruct (_ && _); [destruct R as [-> _]; destruct I|eapply IH; eassumption]. }
      destruct H as (p & t' & -> & H). intros [I|I]; [discriminate|]. revert I.
      destruct p as [| | |[[|]|]|rc]; try (destruct H as [-> _]; intros []); try (apply IO; exact H); try (eapply IH; exact H).
      destruct (rc <? 0); [destruct H as [-> _]; intros []|eapply IH; exact H]. }
    intros u R. apply runs_need in R. destruct R as (ok & t' & -> & R). intros [J|J]; [discriminate|]. destruct R as [[_ R]|(_ & -> & _)]; [|destruct J].
    unfold run_loop in R. apply runs_need in R. destruct R as (ok' & t2 & -> & R). destruct J as [J|J]; [discriminate|]. destruct R as [[_ R]|(_ & -> & _)]; [|destruct J].
    eapply LP; eassumption. }
  unfold run_read in H. apply runs_need in H. destruct H as (ok & t' & -> & H). destruct I as [I|I]; [congruence|].
  destruct H as [[_ H]|(_ & -> & _)]; [|destruct I]. elim (NO _ H I).
Qed.

Lemma delivered_returned c evs : RG evs -> (forall buf niov, In (ECall c (CRead buf niov)) evs -> niov = 1) ->
  delivered_to c evs = messages (gets (returned c evs)).
Proof.
  intros G R1. assert (GEN : forall l, incl l evs -> delivered_to c l = messages (gets (returned c l))).
  { induction l as [|e l IH]; intros IN; [reflexivity|]. assert (IN' : incl l evs) by (intros z Hz; apply IN; right; exact Hz). specialize (IH IN').
    cbn [delivered_to flat_map returned]. fold (delivered_to c l) (returned c l).
    unfold gets in *. rewrite flat_map_app. unfold messages in *. rewrite flat_map_app, IH. f_equal. clear IH IN'.
    destruct e as [| |c' y| |]; try reflexivity. destruct y as [v buf iov|iov v| | | | | | |]; cbn [read_msgs]; try (destruct (is c c'); reflexivity).
    destruct (is c c') eqn:E; [|reflexivity]. unfold is in E. apply Nat.eqb_eq in E. subst c'. cbn [flat_map app].
    destruct (G c v buf iov (IN _ (or_introl eq_refl))) as (b & n & CA & [[-> NV]|(ms & NE & NN & LN & -> & RM & FN & _)]).
    - destruct (v <? 0) eqn:EV; [reflexivity|]. assert (v = 0) by lia. subst v. reflexivity.
    - cbn [read_msgs] in RM. rewrite RM. rewrite (R1 _ _ CA) in LN. destruct ms as [|m [|m2 t]]; [congruence| |rewrite !zlen_cons in LN; pose proof (zlen_nonneg t); lia].
      apply Forall_inv in NN. replace (nbytes [m] <? 0) with false by (unfold nbytes; pose proof (zlen_nonneg (concat [m])); lia).
      rewrite FN. cbn [concat]. rewrite !app_nil_r. replace (zlen m =? 0) with false by lia. reflexivity. }
  apply GEN. apply incl_refl.
Qed.
Lemma gets_calls t : gets (ring_calls t) = gets t.
Proof. unfold gets, ring_calls. induction t as [|e t IH]; [reflexivity|]. destruct e; cbn; rewrite ?IH; reflexivity. Qed.

Theorem pipe_read r w evs c os pos stdin fuel t next x : reach contract r w evs ->
  attached c (tool KRead os pos stdin fuel) evs t next x ->
  prefix_of (shown t) (delivered_to c evs) /\ (in_epoll next \/ next = [] -> shown t = delivered_to c evs).
Proof.
  intros R [AR _ AC _ A1 AN]. destruct (reach_pipe _ _ _ R) as [_ G].
  rewrite (delivered_returned c evs G A1), <- AC, gets_calls.
  destruct (read_showing _ _ _ _ _ _ _ AR) as [E|(m & n & -> & E)]; rewrite E.
  - split; [exists []; symmetry; apply app_nil_r|auto].
  - split; [exists [m]; reflexivity|]. intros [(p & q & X)|X]; discriminate.
Qed.

(** ** from one to the other *)
Lemma sole_committed c evs : sole_writer c evs -> committed evs = committed_by c evs.
Proof.
  intros S. assert (GEN : forall l, incl l evs -> committed l = committed_by c l).
  { induction l as [|e l IH]; intros IN; [reflexivity|]. cbn [committed committed_by flat_map]. fold (committed l) (committed_by c l).
    rewrite (IH ltac:(intros z Hz; apply IN; right; exact Hz)). f_equal. destruct e as [| | |c' ms|]; try reflexivity.
    rewrite (S c' ms (IN _ (or_introl eq_refl))), is_same. reflexivity. }
  apply GEN, incl_refl.
Qed.
Lemma sole_delivered c evs : sole_reader c evs -> delivered evs = delivered_to c evs.
Proof.
  intros S. assert (GEN : forall l, incl l evs -> delivered l = delivered_to c l).
  { induction l as [|e l IH]; intros IN; [reflexivity|]. cbn [delivered delivered_to flat_map]. fold (delivered l) (delivered_to c l).
    rewrite (IH ltac:(intros z Hz; apply IN; right; exact Hz)). f_equal. destruct e as [| |c' y| |]; try reflexivity.
    destruct y as [v buf iov| | | | | | | |]; cbn [read_msgs]; try (destruct (is c c'); reflexivity).
    rewrite (S c' v buf iov (IN _ (or_introl eq_refl))), is_same. reflexivity. }
  apply GEN, incl_refl.
Qed.
Lemma prefix_trans {A} (a b c : list A) : prefix_of a b -> prefix_of b c -> prefix_of a c.
Proof. intros [x ->] [y ->]. exists (x ++ y). rewrite app_assoc. reflexivity. Qed.
Lemma prefix_app {A} (a b c : list A) : prefix_of (a ++ b) c -> prefix_of a c.
Proof. intros [x ->]. exists (b ++ x). rewrite app_assoc. reflexivity. Qed.

(** a ring without SHR_DROP *)
Theorem pipe_through r w evs cw cr osw ring rest ls fw tw nw xw osr pos stdin fr tr nr xr : reach contract r w evs -> r_drop r = false ->
  attached cw (tool KWrite osw (ring :: rest) (text ls) fw) evs tw nw xw -> Forall line_ok ls -> sole_writer cw evs ->
  attached cr (tool KRead osr pos stdin fr) evs tr nr xr -> sole_reader cr evs ->
  prefix_of (shown tr) ls
  /\ (ended nw xw 0 -> in_epoll nr \/ nr = [] -> ls = shown tr ++ ring_unread (w_ring w)).
Proof.
  intros R D AW O SW AR SR. destruct (pipe_write _ _ _ _ _ _ _ _ _ _ _ _ R AW O) as (PW & _ & DONE). destruct (pipe_read _ _ _ _ _ _ _ _ _ _ _ R AR) as [PR EPO].
  pose proof (f_fifo _ _ _ R D) as FF. rewrite (sole_committed _ _ SW), (sole_delivered _ _ SR) in FF. split.
  - eapply prefix_trans; [exact PR|]. rewrite FF in PW. eapply prefix_app; exact PW.
  - intros ED EP. rewrite (EPO EP), <- FF. symmetry. apply DONE. exact ED.
Qed.

(** any ring *)
Lemma sublist_nil {A} (l : list A) : sublist [] l.
Proof. induction l; constructor; assumption. Qed.
Lemma sublist_refl {A} (l : list A) : sublist l l.
Proof. induction l; constructor; assumption. Qed.
Lemma sublist_trans {A} (b c : list A) : sublist b c -> forall a, sublist a b -> sublist a c.
Proof.
  induction 1 as [|x b c H IH|x b c H IH]; intros a S; [exact S| |constructor; apply IH; exact S].
  inversion S; subst; [constructor; apply IH; assumption|constructor; apply IH; assumption].
Qed.
Lemma sublist_app {A} (a b c d : list A) : sublist a b -> sublist c d -> sublist (a ++ c) (b ++ d).
Proof. induction 1; intros S; cbn; [exact S|constructor; auto|constructor; auto]. Qed.
Lemma prefix_sublist {A} (a b : list A) : prefix_of a b -> sublist a b.
Proof. intros [c ->]. rewrite <- (app_nil_r a) at 1. apply sublist_app; [apply sublist_refl|apply sublist_nil]. Qed.
Lemma merge_sublist {A} (a b c : list A) : merge a b c -> sublist a c.
Proof. induction 1; constructor; assumption. Qed.
Lemma delivered_sub c evs : sublist (delivered_to c evs) (delivered evs).
Proof.
  induction evs as [|e l IH]; [constructor|]. cbn [delivered delivered_to flat_map]. fold (delivered l) (delivered_to c l). apply sublist_app; [|exact IH].
  destruct e as [| |c' y| |]; try constructor. destruct (is c c'); [apply sublist_refl|apply sublist_nil].
Qed.
Lemma follow_sublist h old q0 got k q : follow h old q0 got k q -> 0 <= q0 -> q0 <= q /\ sublist got (firstn (Z.to_nat q) h).
Proof.
  intros F H0. induction F as [|got k q F IH B|got k q j F IH B1 B2].
  - split; [lia|apply sublist_nil].
  - destruct IH as [L S]. split; [lia|].
    assert (E : firstn (Z.to_nat (q + 1)) h = firstn (Z.to_nat q) h ++ [znth [] h q]).
    { clear -B. unfold znth. unfold zlen in B. replace (Z.to_nat (q + 1)) with (S (Z.to_nat q)) by lia.
      assert (L : (Z.to_nat q < length h)%nat) by lia. generalize dependent (Z.to_nat q). clear. intros n. revert h. induction n as [|n IH]; intros [|y h] L; cbn in *; try lia; [reflexivity|].
      f_equal. apply IH. lia. }
    rewrite E. apply sublist_app; [exact S|repeat constructor].
  - destruct IH as [L S]. split; [lia|]. replace (firstn (Z.to_nat (q + j)) h) with (firstn (Z.to_nat q) h ++ firstn (Z.to_nat j) (skipn (Z.to_nat q) h)).
    + rewrite <- (app_nil_r got). apply sublist_app; [exact S|apply sublist_nil].
    + rewrite Z2Nat.inj_add by lia. generalize (Z.to_nat q) (Z.to_nat j). clear. intros a b. revert a. induction h as [|y h IH]; intros [|a]; cbn; try reflexivity.
      * rewrite firstn_nil. reflexivity.
      * f_equal. apply IH.
Qed.
(** on any ring *)
Lemma delivered_of_committed r w evs c : reach contract r w evs -> (r_farm r = true -> c_live (cli w c) = true) -> sublist (delivered_to c evs) (committed evs).
Proof.
  intros R LV. destruct (r_farm r) eqn:Hf.
  - destruct (f_follow _ _ _ _ R Hf (LV eq_refl)) as (pre & flags & post & w1 & E & R1 & FO).
    destruct (follow_sublist _ _ _ _ _ _ FO) as [_ S].
    { destruct (reach_inv _ _ _ _ id_contract R1) as (fsz & F & X & B & W & _). pose proof (i_inv0 _ _ (wi_ring _ _ _ W)) as I0.
      unfold eldest. rewrite (retained_eq _ _ I0). unfold lastn, zlen. rewrite skipn_length. lia. }
    eapply sublist_trans; [|exact S]. rewrite <- (firstn_skipn (Z.to_nat (c_q (cli w c))) (committed evs)) at 2. apply prefix_sublist. eexists. reflexivity.
  - destruct (f_drop_history _ _ _ R Hf) as (gone & dropped & E & M). eapply sublist_trans; [|apply delivered_sub].
    eapply sublist_trans; [|eapply merge_sublist; exact M]. rewrite E. apply prefix_sublist. eexists. reflexivity.
Qed.
Theorem pipe_any r w evs cw cr osw ring rest ls fw tw nw xw osr pos stdin fr tr nr xr : reach contract r w evs ->
  attached cw (tool KWrite osw (ring :: rest) (text ls) fw) evs tw nw xw -> Forall line_ok ls -> sole_writer cw evs ->
  attached cr (tool KRead osr pos stdin fr) evs tr nr xr -> (r_farm r = true -> c_live (cli w cr) = true) ->
  sublist (shown tr) ls.
Proof.
  intros R AW O SW AR LV. destruct (pipe_write _ _ _ _ _ _ _ _ _ _ _ _ R AW O) as (PW & _ & _). destruct (pipe_read _ _ _ _ _ _ _ _ _ _ _ R AR) as [PR _].
  eapply sublist_trans; [apply prefix_sublist; exact PW|]. rewrite <- (sole_committed _ _ SW).
  eapply sublist_trans; [apply (delivered_of_committed r w evs cr R LV)|apply prefix_sublist; exact PR].
Qed.

(** ** nobody waits for nothing *)
Lemma f_flags_now r w evs c fl : reach contract r w evs -> In (EOpen fl (Some c)) evs -> c_live (cli w c) = true -> c_flags (cli w c) = fl.
Proof. intros R I L. destruct (reach_pipe _ _ _ R) as [WVc _]. destruct (proj2 (WVc c) _ I) as (_ & F & _). apply F. exact L. Qed.
Lemma reach_weaken (P Q : world -> action -> Prop) r w evs : (forall w a, P w a -> Q w a) -> reach P r w evs -> reach Q r w evs.
Proof.
  intros PQ (fsz & F & X & B). exists fsz. split; [exact F|]. split; [|exact B]. clear B.
  induction X as [|w evs a w' ev X IH Pa S]; [apply exec_nil|]. eapply exec_step; [exact IH|apply PQ; exact Pa|exact S].
Qed.
Lemma steady_reach r w evs : reach steady r w evs -> reach contract r w evs.
Proof. apply reach_weaken. apply steady_contract. Qed.

(** the reader of a ring that has messages for it does not wait in epoll *)
Theorem pipe_reader r w evs c os pos stdin fuel t next x : reach steady r w evs ->
  attached c (tool KRead os pos stdin fuel) evs t next x -> c_live (cli w c) = true ->
  exists s, data_sock w c = Some s /\ (available (w_ring w) (c_q (cli w c)) <> [] -> readable w s).
Proof.
  intros R A L. pose proof (steady_reach _ _ _ R) as RC. destruct (at_open _ _ _ _ _ _ A) as (ring & fl & OX & OE).
  pose proof (read_flags _ _ _ _ _ _ _ _ _ (at_runs _ _ _ _ _ _ A) OX) as ->. pose proof (f_flags_now _ _ _ _ _ RC OE L) as FL.
  destruct (reader_registered _ _ _ c RC L) as [s Hs]; [rewrite FL; reflexivity|]. exists s. split; [exact Hs|].
  intros AV. apply (f_ready r w evs c s R Hs); [unfold nonblocking; rewrite FL; reflexivity|exact AV].
Qed.
(** all is shown when the writer is done and the reader's descriptor is not readable *)
Theorem pipe_drained r w evs cw cr osw ring rest ls fw tw nw xw osr pos stdin fr tr nr xr s : reach steady r w evs -> r_drop r = false ->
  attached cw (tool KWrite osw (ring :: rest) (text ls) fw) evs tw nw xw -> Forall line_ok ls -> sole_writer cw evs -> ended nw xw 0 ->
  attached cr (tool KRead osr pos stdin fr) evs tr nr xr -> sole_reader cr evs -> in_epoll nr ->
  data_sock w cr = Some s -> ~ readable w s -> shown tr = ls.
Proof.
  intros R D AW O SW ED AR SR EP Hs NR. pose proof (steady_reach _ _ _ R) as RC.
  destruct (pipe_through _ _ _ _ _ _ _ _ _ _ _ _ _ _ _ _ _ _ _ _ RC D AW O SW AR SR) as [_ H]. rewrite (H ED (or_introl EP)).
  assert (L : c_live (cli w cr) = true) by (unfold data_sock in Hs; destruct (c_live (cli w cr)); [reflexivity|discriminate]).
  destruct (pipe_reader _ _ _ _ _ _ _ _ _ _ _ R AR L) as (s' & Hs' & RD). assert (s' = s) by congruence. subst s'.
  assert (FM : r_farm (w_ring w) = false).
  { destruct (reach_inv _ _ _ _ id_contract RC) as (fsz & F & X & B & W & HP & HB & SF & SD). pose proof (wi_ring _ _ _ W) as I.
    destruct (r_farm (w_ring w)) eqn:Hf; [|reflexivity]. destruct (i_farm _ _ I Hf) as [_ Y]. congruence. }
  unfold available in RD. rewrite FM in RD. destruct (ring_unread (w_ring w)) as [|m l]; [symmetry; apply app_nil_r|]. elim NR. apply RD. discriminate.
Qed.
(** and a writer does not sleep while the reader waits *)
Theorem pipe_no_deadlock r w evs cr osr pos stdin fr tr nr xr s c : reach steady r w evs -> r_drop r = false ->
  attached cr (tool KRead osr pos stdin fr) evs tr nr xr -> data_sock w cr = Some s -> ~ readable w s ->
  blocked_msgs w c <> [] -> exists w1, step w (AWake c) = Ok (w1, []) /\ asleep w1 c = false /\ w_ring w1 = w_ring w.
Proof.
  intros R D AR Hs NR BM. pose proof (steady_reach _ _ _ R) as RC.
  destruct (reach_inv _ _ _ _ id_contract RC) as (fsz & F & X & B & W & HP & HB & SF & SD). pose proof (wi_ring _ _ _ W) as I.
  assert (L : c_live (cli w cr) = true) by (unfold data_sock in Hs; destruct (c_live (cli w cr)); [reflexivity|discriminate]).
  destruct (pipe_reader _ _ _ _ _ _ _ _ _ _ _ R AR L) as (s' & Hs' & RD). assert (s' = s) by congruence. subst s'.
  assert (FM : r_farm (w_ring w) = false).
  { destruct (r_farm (w_ring w)) eqn:Hf; [|reflexivity]. destruct (i_farm _ _ I Hf) as [_ Y]. congruence. }
  assert (U : ring_unread (w_ring w) = []).
  { unfold available in RD. rewrite FM in RD. destruct (ring_unread (w_ring w)) as [|m l]; [reflexivity|]. elim NR. apply RD. discriminate. }
  assert (FIT : nbytes (blocked_msgs w c) <= r_n (w_ring w) /\ zlen (blocked_msgs w c) <= r_mm (w_ring w)).
  { unfold blocked_msgs in *. pose proof (HP c) as HPc. destruct (c_pc (cli w c)) as [ |? ? ? ?|k iov len nb|? ?|? ?| | |?|? ? ?] eqn:Hpc; try (elim BM; reflexivity).
    assert (Lc : c_live (cli w c) = true) by (destruct (c_live (cli w c)) eqn:Lc; [reflexivity|]; pose proof (wi_dead _ _ _ W c Lc) as Y; congruence).
    destruct (wi_cl _ _ _ W c Lc) as [ms C]. pose proof (ci_pc _ _ _ _ C) as P. unfold pc_ok in P. rewrite Hpc in P. destruct P as (_ & (_ & _ & P1 & P2) & _). auto. }
  destruct (f_writer_wakes r w evs c R BM) as (w1 & E1 & E2 & E3 & _); [rewrite U; unfold nbytes at 1; cbn; lia|rewrite U; cbn; lia|]. eauto.
Qed.
