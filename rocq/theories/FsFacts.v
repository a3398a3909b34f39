(** * FsFacts: specification of C28 and proofs about Fs.v *)
From Verif Require Import BaseFacts InitFacts Reach.
From Verif Require Export Fs Spec.

(** ** what the statements talk about *)
Definition ring_at (s : fs) (i : nat) : option world := in_ring (ino s i).
(** the events of ring file [i] *)
Definition events_of (i : nat) (evs : list fevent) : list event :=
  flat_map (fun e => match e with FEv i' e => if Nat.eqb i i' then [e] else [] | _ => [] end) evs.
(** arguments of shr_init whose sizes are representable (C25) *)
Definition args_ok (a : iargs) : Prop :=
  0 <= ia_data a /\ 0 <= ia_flags a /\ 0 <= ia_max a
  /\ forall l, lay a = Ok (Some l) ->
     SIZEOF_CTRL + ia_data a + SIZEOF_PTR + SIZEOF_MSG * l_mm l + zlen (ia_app a) <= SSIZE_MAX.
Definition fcontract (s : fs) (x : faction) : Prop :=
  match x with
  | FInit a => args_ok a
  | FAct i a => forall w, ring_at s i = Some w -> contract w a
  | _ => True
  end.
(** any history of any number of processes, from an empty file system *)
Inductive fexec : fs -> list fevent -> Prop :=
| fexec_nil : fexec fs0 []
| fexec_step s evs x s' ev : fexec s evs -> fcontract s x -> fstep s x = Ok (s', ev) -> fexec s' (evs ++ ev).

(** ** proofs *)
Lemma set_nat_len {A} (l : list A) k v : List.length (set_nat l k v) = List.length l.
Proof. revert k; induction l; intros [|k]; cbn; auto. Qed.
Lemma nth_set_eq {A} (l : list A) k v d : (k < List.length l)%nat -> nth k (set_nat l k v) d = v.
Proof. revert k; induction l; intros [|k] H; cbn in *; auto; try lia. apply IHl. lia. Qed.
Lemma nth_set_neq {A} (l : list A) k j v d : j <> k -> nth j (set_nat l k v) d = nth j l d.
Proof. revert k j; induction l; intros [|k] [|j] H; cbn in *; auto; try congruence. Qed.
Lemma set_nat_out {A} (l : list A) k v : (List.length l <= k)%nat -> set_nat l k v = l.
Proof. revert k; induction l; intros [|k] H; cbn in *; auto; try lia. f_equal. apply IHl. lia. Qed.

Lemma ino_set s i x j : ino (set_ino s i x) j = if Nat.eqb j i && (i <? List.length (fs_ino s))%nat then x else ino s j.
Proof.
  unfold ino, set_ino. cbn [fs_ino set]. destruct (Nat.eqb_spec j i) as [->|H].
  - destruct (Nat.ltb_spec i (List.length (fs_ino s))); [apply nth_set_eq; assumption|]. rewrite set_nat_out by assumption. reflexivity.
  - apply nth_set_neq. assumption.
Qed.
Lemma ini_set s p c q : ini (set_pc s p c) q = if Nat.eqb q p && (p <? List.length (fs_ini s))%nat then ini s p <| ip_pc := c |> else ini s q.
Proof.
  unfold ini, set_pc. cbn [fs_ini set]. destruct (Nat.eqb_spec q p) as [->|H].
  - destruct (Nat.ltb_spec p (List.length (fs_ini s))); [apply nth_set_eq; assumption|]. rewrite set_nat_out by assumption. reflexivity.
  - apply nth_set_neq. assumption.
Qed.
Lemma ino_pc s p c i : ino (set_pc s p c) i = ino s i. Proof. reflexivity. Qed.
Lemma ini_ino s i x p : ini (set_ino s i x) p = ini s p. Proof. reflexivity. Qed.

(** the inode a process is still going to fill *)
Definition unfilled (c : ipc) : option nat := match c with ILock i | ITrunc i | IMmap i => Some i | _ => None end.

Record FI (s : fs) (evs : list fevent) : Prop := mkFI {
  fi_held : forall p i, held (ip_pc (ini s p)) = Some i -> (i < List.length (fs_ino s))%nat;
  fi_uniq : forall p q i, held (ip_pc (ini s p)) = Some i -> held (ip_pc (ini s q)) = Some i -> p = q;
  fi_unf : forall p i, unfilled (ip_pc (ini s p)) = Some i -> ring_at s i = None;
  fi_args : forall p, ip_pc (ini s p) <> IKilled -> args_ok (ip_args (ini s p));
  fi_none : forall i, ring_at s i = None -> events_of i evs = [];
  fi_ring : forall i w, ring_at s i = Some w -> exists r fsz, fresh r fsz /\ exec contract (world0 r fsz) w (events_of i evs) }.

Lemma lay_fresh a l : args_ok a -> lay a = Ok (Some l) -> fresh (ring_of_layout l (ia_flags a) (ia_app a)) (l_sz l).
Proof.
  intros (H1 & H2 & H3 & H4) E. constructor. exists (ia_data a), (ia_flags a), (zlen (ia_app a)), (ia_max a), l, (ia_app a).
  split; [exact E|]. split; [reflexivity|]. specialize (H4 l E). unfold zlen in *. cbn [ring_of_layout r_mm]. repeat split; try assumption; lia.
Qed.

Lemma ini_live s p : ip_pc (ini s p) <> IKilled -> (p < List.length (fs_ini s))%nat.
Proof.
  intros H. destruct (Nat.lt_ge_cases p (List.length (fs_ini s))) as [L|L]; [exact L|].
  exfalso. apply H. unfold ini. rewrite nth_overflow by exact L. reflexivity.
Qed.
Lemma events_of_app i a b : events_of i (a ++ b) = events_of i a ++ events_of i b.
Proof. apply flat_map_app. Qed.
Lemma events_of_map i j ev : events_of i (map (FEv j) ev) = if Nat.eqb i j then ev else [].
Proof.
  induction ev as [|e t IH]; cbn [map events_of flat_map]; [destruct (Nat.eqb i j); reflexivity|].
  fold (events_of i (map (FEv j) t)). rewrite IH. destruct (Nat.eqb i j); reflexivity.
Qed.

(** a step of shr_init *)
Lemma FI_init s evs s' ev p c :
  FI s evs -> (forall i, events_of i ev = []) -> ip_pc (ini s p) <> IKilled ->
  fs_ini s' = set_nat (fs_ini s) p (ini s p <| ip_pc := c |>) ->
  (List.length (fs_ino s) <= List.length (fs_ino s'))%nat ->
  (forall i, held c = Some i -> (held (ip_pc (ini s p)) = Some i \/ (i = List.length (fs_ino s) /\ (i < List.length (fs_ino s'))%nat))) ->
  (forall i, unfilled c = Some i -> ring_at s' i = None) ->
  (forall i, ring_at s' i = ring_at s i
     \/ (unfilled (ip_pc (ini s p)) = Some i /\ exists r fsz, fresh r fsz /\ ring_at s' i = Some (world0 r fsz))) ->
  FI s' (evs ++ ev).
Proof.
  intros F He Hp Ei Hlen Hh Hu Hr. pose proof (ini_live s p Hp) as Hpl.
  assert (EI : forall q, ini s' q = if Nat.eqb q p then ini s p <| ip_pc := c |> else ini s q).
  { intros q. unfold ini. rewrite Ei. destruct (Nat.eqb_spec q p) as [->|N]; [apply nth_set_eq; exact Hpl|apply nth_set_neq; exact N]. }
  assert (EA : forall q, ip_args (ini s' q) = ip_args (ini s q)).
  { intros q. rewrite EI. destruct (Nat.eqb_spec q p) as [->|]; reflexivity. }
  assert (EP : forall q, ip_pc (ini s' q) = if Nat.eqb q p then c else ip_pc (ini s q)).
  { intros q. rewrite EI. destruct (Nat.eqb_spec q p) as [->|]; reflexivity. }
  constructor.
  - intros q i. rewrite EP. destruct (Nat.eqb_spec q p) as [->|N]; intros H.
    + destruct (Hh i H) as [H1|(H1 & H2)]; [|exact H2]. pose proof (fi_held _ _ F _ _ H1). lia.
    + pose proof (fi_held _ _ F _ _ H). lia.
  - intros q q' i. rewrite !EP. destruct (Nat.eqb_spec q p) as [->|N], (Nat.eqb_spec q' p) as [->|N']; intros H H'; auto.
    + destruct (Hh i H) as [H1|(-> & _)]; [exact (fi_uniq _ _ F _ _ _ H1 H')|]. pose proof (fi_held _ _ F _ _ H'). lia.
    + destruct (Hh i H') as [H1|(-> & _)]; [exact (fi_uniq _ _ F _ _ _ H H1)|]. pose proof (fi_held _ _ F _ _ H). lia.
    + exact (fi_uniq _ _ F _ _ _ H H').
  - intros q i. rewrite EP. destruct (Nat.eqb_spec q p) as [->|N]; intros H; [exact (Hu i H)|].
    destruct (Hr i) as [H1|(H1 & _)]; [rewrite H1; exact (fi_unf _ _ F _ _ H)|].
    exfalso. apply N. apply (fi_uniq _ _ F q p i).
    + destruct (ip_pc (ini s q)); cbn in H |- *; congruence.
    + destruct (ip_pc (ini s p)); cbn in H1 |- *; congruence.
  - intros q. rewrite EP, EA. destruct (Nat.eqb_spec q p) as [->|N]; intros H; apply (fi_args _ _ F); assumption.
  - intros i H. rewrite events_of_app, He, app_nil_r. destruct (Hr i) as [H1|(_ & r & fsz & _ & H2)]; [|congruence].
    apply (fi_none _ _ F). congruence.
  - intros i w H. rewrite events_of_app, He, app_nil_r. destruct (Hr i) as [H1|(H1 & r & fsz & Hf & H2)].
    + apply (fi_ring _ _ F). congruence.
    + exists r, fsz. split; [exact Hf|]. rewrite (fi_none _ _ F i) by exact (fi_unf _ _ F _ _ H1).
      assert (w = world0 r fsz) by congruence. subst w. constructor.
Qed.

(** a step of a client of ring file [i] *)
Lemma FI_act s evs i w a w' ev :
  FI s evs -> ring_at s i = Some w -> contract w a -> step w a = Ok (w', ev) ->
  FI (set_ino s i (ino s i <| in_ring := Some w' |>)) (evs ++ map (FEv i) ev).
Proof.
  intros F Hw Hc Hs.
  assert (Hi : (i < List.length (fs_ino s))%nat).
  { destruct (Nat.lt_ge_cases i (List.length (fs_ino s))) as [L|L]; [exact L|]. unfold ring_at, ino in Hw. rewrite nth_overflow in Hw by exact L. discriminate. }
  set (s' := set_ino s i (ino s i <| in_ring := Some w' |>)).
  assert (ER : forall j, ring_at s' j = if Nat.eqb j i then Some w' else ring_at s j).
  { intros j. unfold ring_at, s'. rewrite ino_set. destruct (Nat.eqb_spec j i) as [->|]; cbn [andb]; [|reflexivity].
    destruct (Nat.ltb_spec i (List.length (fs_ino s))); [reflexivity|lia]. }
  assert (EL : List.length (fs_ino s') = List.length (fs_ino s)) by apply set_nat_len.
  constructor.
  - intros p j H. rewrite EL. exact (fi_held _ _ F _ _ H).
  - intros p q j. exact (fi_uniq _ _ F p q j).
  - intros p j H. rewrite ER. pose proof (fi_unf _ _ F _ _ H) as H1. destruct (Nat.eqb_spec j i) as [->|]; [congruence|exact H1].
  - exact (fi_args _ _ F).
  - intros j. rewrite ER, events_of_app, events_of_map. destruct (Nat.eqb_spec j i) as [->|]; [discriminate|]. intros H.
    rewrite app_nil_r. exact (fi_none _ _ F _ H).
  - intros j x. rewrite ER, events_of_app, events_of_map. destruct (Nat.eqb_spec j i) as [->|]; intros H.
    + injection H as <-. destruct (fi_ring _ _ F _ _ Hw) as (r & fsz & Hf & X). exists r, fsz. split; [exact Hf|]. econstructor; eassumption.
    + rewrite app_nil_r. exact (fi_ring _ _ F _ _ H).
Qed.

(** a step that touches neither the rings nor the shr_init calls *)
Lemma FI_same s evs s' ev : FI s evs -> (forall i, events_of i ev = []) -> fs_ini s' = fs_ini s ->
  (List.length (fs_ino s) <= List.length (fs_ino s'))%nat -> (forall i, ring_at s' i = ring_at s i) -> FI s' (evs ++ ev).
Proof.
  intros F He Ei Hl Hr. assert (EI : forall q, ini s' q = ini s q) by (intros q; unfold ini; rewrite Ei; reflexivity).
  constructor.
  - intros p i. rewrite EI. intros H. pose proof (fi_held _ _ F _ _ H). lia.
  - intros p q i. rewrite !EI. apply (fi_uniq _ _ F).
  - intros p i. rewrite EI, Hr. apply (fi_unf _ _ F).
  - intros p. rewrite EI. apply (fi_args _ _ F).
  - intros i. rewrite Hr, events_of_app, He, app_nil_r. apply (fi_none _ _ F).
  - intros i w. rewrite Hr, events_of_app, He, app_nil_r. apply (fi_ring _ _ F).
Qed.

Lemma ring_at_app s s' i x : fs_ino s' = fs_ino s ++ [x] -> in_ring x = None -> ring_at s' i = ring_at s i.
Proof.
  intros E H. unfold ring_at, ino. rewrite E. destruct (Nat.lt_ge_cases i (List.length (fs_ino s))) as [L|L].
  - rewrite app_nth1 by exact L. reflexivity.
  - rewrite app_nth2, (nth_overflow (fs_ino s)) by exact L. destruct (i - _)%nat as [|[|k]]; cbn; auto.
Qed.

Lemma obind_ok' {A B} (m : outcome A) (k : A -> outcome B) y : obind m k = Ok y -> exists a, m = Ok a /\ k a = Ok y.
Proof. destruct m; try discriminate. intros H. exists a. auto. Qed.

Lemma fill_ok a l w : fill a l = Ok w -> w = world0 (ring_of_layout l (ia_flags a) (ia_app a)) (l_sz l).
Proof. unfold fill. destruct (_ <? _); [discriminate|]. destruct (_ && _); [discriminate|]. congruence. Qed.

(** what a system call of shr_init does, in general *)
Lemma init_step_gen s p ok s' : (ip_pc (ini s p) <> IKilled) -> init_step s p ok = Ok s' ->
  s' = s \/ exists c s1, s' = set_pc s1 p c /\ fs_ini s1 = fs_ini s /\ fs_fds s1 = fs_fds s
  /\ (List.length (fs_ino s) <= List.length (fs_ino s1))%nat
  /\ (forall i, held c = Some i -> (held (ip_pc (ini s p)) = Some i \/ (i = List.length (fs_ino s) /\ (i < List.length (fs_ino s1))%nat)))
  /\ (forall i, unfilled c = Some i -> unfilled (ip_pc (ini s p)) = Some i \/ i = List.length (fs_ino s))
  /\ (forall i, ring_at s1 i = ring_at s i
     \/ (unfilled (ip_pc (ini s p)) = Some i /\ unfilled c = None /\ exists l, lay (ip_args (ini s p)) = Ok (Some l)
          /\ ring_at s1 i = Some (world0 (ring_of_layout l (ia_flags (ip_args (ini s p))) (ia_app (ip_args (ini s p)))) (l_sz l)))).
Proof.
  intros Hk H. unfold init_step in H. destruct (ip_pc (ini s p)) as [| | |i|i|i|i|i rc|rc|] eqn:Ep.
  - destruct (_ || _); [|destruct (_ && ok); [destruct (has _ _)|]]; injection H as <-; right;
      (eexists; exists s; split; [reflexivity|]; cbn [held unfilled]; repeat split; auto; intros; discriminate).
  - destruct (_ && ok); injection H as <-; right.
    + eexists; eexists; split; [reflexivity|]; cbn [held unfilled]. repeat split; auto; intros; discriminate.
    + eexists; exists s; split; [reflexivity|]; cbn [held unfilled]; repeat split; auto; intros; discriminate.
  - destruct (_ || _); [injection H as <-; right; (eexists; exists s; split; [reflexivity|]; cbn [held unfilled]; repeat split; auto; intros; discriminate)|].
    destruct (lay _) as [l| | |] eqn:El; try discriminate. cbn [obind] in H. injection H as <-. right.
    eexists; eexists; split; [reflexivity|]. cbn [fs_ini fs_ino fs_fds set]. rewrite app_length. cbn [List.length].
    repeat split; auto; try lia; cbn [held unfilled]; intros.
    + injection H as <-. right. split; [reflexivity|lia].
    + injection H as <-. auto.
    + left. apply (ring_at_app s _ i ino0); reflexivity.
  - right. destruct ok; injection H as <-.
    + eexists; eexists; split; [reflexivity|]. cbn [fs_ini fs_ino fs_fds set]. unfold set_ino. cbn [fs_ini fs_ino fs_fds set]. rewrite set_nat_len.
      repeat split; auto; cbn [held unfilled]; auto. intros j. left. unfold ring_at. fold (set_ino s i (ino s i <| in_lock := Some p |>)). rewrite ino_set.
      destruct (Nat.eqb_spec j i) as [->|]; cbn [andb]; [|reflexivity]. destruct (_ <? _)%nat; reflexivity.
    + eexists; exists s; split; [reflexivity|]; cbn [held unfilled]; repeat split; auto; intros; discriminate.
  - destruct (lay _) as [[l|]| | |] eqn:El; cbn [obind] in H; try discriminate; [|injection H as <-; left; reflexivity].
    right. destruct ok; injection H as <-.
    + eexists; eexists; split; [reflexivity|]. unfold set_ino. cbn [fs_ini fs_ino fs_fds set]. rewrite set_nat_len.
      repeat split; auto; cbn [held unfilled]; auto. intros j. left. unfold ring_at. fold (set_ino s i (ino s i <| in_size := l_sz l |>)). rewrite ino_set.
      destruct (Nat.eqb_spec j i) as [->|]; cbn [andb]; [|reflexivity]. destruct (_ <? _)%nat; reflexivity.
    + eexists; exists s; split; [reflexivity|]; cbn [held unfilled]; repeat split; auto; intros; discriminate.
  - destruct (lay _) as [[l|]| | |] eqn:El; cbn [obind] in H; try discriminate; [|injection H as <-; left; reflexivity].
    right. destruct ok.
    + destruct (fill _ l) as [w| | |] eqn:Ef; cbn [obind] in H; try discriminate. injection H as <-. apply fill_ok in Ef. subst w.
      eexists; eexists; split; [reflexivity|]. unfold set_ino. cbn [fs_ini fs_ino fs_fds set]. rewrite set_nat_len.
      repeat split; auto; cbn [held unfilled]; auto; try discriminate. intros j. unfold ring_at.
      match goal with |- context [set fs_ino ?f s] => change (set fs_ino f s) with (set_ino s i (ino s i <| in_ring := Some (world0 (ring_of_layout l (ia_flags (ip_args (ini s p))) (ia_app (ip_args (ini s p)))) (l_sz l)) |>)) end.
      rewrite ino_set. destruct (Nat.eqb_spec j i) as [->|]; cbn [andb]; [|left; reflexivity].
      destruct (_ <? _)%nat; [right|left; reflexivity]. split; [reflexivity|]. split; [reflexivity|]. exists l. split; [reflexivity|]. reflexivity.
    + injection H as <-. eexists; exists s; split; [reflexivity|]; cbn [held unfilled]; repeat split; auto; intros; discriminate.
  - right. injection H as <-. eexists; eexists; split; [reflexivity|]. destruct ok; cbn [fs_ini fs_ino fs_fds set held unfilled]; repeat split; auto; intros; try discriminate.
  - right. injection H as <-. eexists; eexists; split; [reflexivity|]. unfold set_ino. cbn [fs_ini fs_ino fs_fds set held unfilled]. rewrite set_nat_len.
    repeat split; auto; intros; try discriminate. left. unfold ring_at. fold (set_ino s i (ino s i <| in_lock := None |>)). rewrite ino_set.
      destruct (Nat.eqb_spec i0 i) as [->|]; cbn [andb]; [|reflexivity]. destruct (_ <? _)%nat; reflexivity.
  - left. injection H as <-. reflexivity.
  - left. injection H as <-. reflexivity.
Qed.

Lemma FI_step s evs x s' ev : FI s evs -> fcontract s x -> fstep s x = Ok (s', ev) -> FI s' (evs ++ ev).
Proof.
  intros F Hc Hs. destruct x as [a|p ok|p|q|i a|q|q sz]; cbn [fstep] in Hs.
  - injection Hs as <- <-. cbn in Hc.
    assert (EI : forall q, ini (s <| fs_ini := fs_ini s ++ [mkip a IAccess] |>) q =
              if Nat.eqb q (List.length (fs_ini s)) then mkip a IAccess else ini s q).
    { intros q. unfold ini. cbn [fs_ini set]. destruct (Nat.eqb_spec q (List.length (fs_ini s))) as [->|N].
      - rewrite app_nth2, Nat.sub_diag by lia. reflexivity.
      - destruct (Nat.lt_ge_cases q (List.length (fs_ini s))) as [L|L]; [rewrite app_nth1 by exact L; reflexivity|].
        rewrite !nth_overflow; auto. rewrite app_length. cbn. lia. }
    rewrite app_nil_r. constructor; cbn [fs_ino set].
    + intros p i. rewrite EI. destruct (Nat.eqb _ _); [discriminate|]. apply (fi_held _ _ F).
    + intros p q i. rewrite !EI. destruct (Nat.eqb p _), (Nat.eqb q _); try discriminate. apply (fi_uniq _ _ F).
    + intros p i. rewrite EI. destruct (Nat.eqb _ _); [discriminate|]. apply (fi_unf _ _ F).
    + intros p. rewrite EI. destruct (Nat.eqb _ _); [intros _; exact Hc|]. apply (fi_args _ _ F).
    + apply (fi_none _ _ F).
    + apply (fi_ring _ _ F).
  - destruct (is_done (ip_pc (ini s p))) as [rc|] eqn:Ed; [injection Hs as <- <-; rewrite app_nil_r; exact F|].
    destruct (init_step s p ok) as [s1| | |] eqn:E1; cbn [obind] in Hs; try discriminate. injection Hs as <- <-.
    assert (He : forall i, events_of i (match is_done (ip_pc (ini s1 p)) with Some rc => [FRet p rc] | None => [] end) = [])
      by (intros i; destruct (is_done (ip_pc (ini s1 p))); reflexivity).
    destruct (ip_pc (ini s p)) eqn:Ep0; try discriminate Ed.
    all: try (cbn [init_step] in E1; unfold init_step in E1; rewrite Ep0 in E1; injection E1 as <-; apply (FI_same s); auto; fail).
    all: assert (Hk : ip_pc (ini s p) <> IKilled) by congruence;
      destruct (init_step_gen _ _ _ _ Hk E1) as [->|(c & s2 & -> & A1 & A2 & A3 & A4 & A5 & A6)];
      [apply (FI_same s); auto|].
    all: (eapply (FI_init s evs _ _ p c F He Hk); [unfold set_pc; cbn [fs_ini set]; unfold ini; rewrite A1; reflexivity|exact A3|exact A4| |]);
      [intros j Hj; change (ring_at (set_pc s2 p c) j) with (ring_at s2 j); destruct (A6 j) as [->|(_ & H & _)]; [|congruence];
         destruct (A5 j Hj) as [H| ->]; [exact (fi_unf _ _ F _ _ H)|unfold ring_at, ino; rewrite nth_overflow by lia; reflexivity]
      |intros j; change (ring_at (set_pc s2 p c) j) with (ring_at s2 j); destruct (A6 j) as [H|(H & _ & l & H1 & H2)]; [left; exact H|right];
         split; [exact H|]; eexists; eexists; split; [|exact H2]; exact (lay_fresh _ _ (fi_args _ _ F _ Hk) H1)].
  - destruct (is_done (ip_pc (ini s p))) as [rc|] eqn:Ed; [injection Hs as <- <-; rewrite app_nil_r; exact F|].
    injection Hs as <- <-.
    set (s1 := match held (ip_pc (ini s p)) with Some i => _ | None => _ end).
    assert (A1 : fs_ini s1 = fs_ini s) by (unfold s1; destruct (held _); reflexivity).
    assert (A3 : List.length (fs_ino s1) = List.length (fs_ino s)) by (unfold s1; destruct (held _); [apply set_nat_len|reflexivity]).
    assert (A6 : forall j, ring_at s1 j = ring_at s j).
    { intros j. unfold s1. destruct (held _) as [i|]; [|reflexivity]. unfold ring_at. rewrite ino_set.
      destruct (Nat.eqb_spec j i) as [->|]; cbn [andb]; [|reflexivity]. destruct (_ <? _)%nat; reflexivity. }
    assert (Dec : ip_pc (ini s p) = IKilled \/ ip_pc (ini s p) <> IKilled) by (destruct (ip_pc (ini s p)); auto; right; discriminate).
    destruct Dec as [Hk|Hk].
    + apply (FI_same s); auto.
      * unfold set_pc. cbn [fs_ini set]. rewrite A1. unfold ini. rewrite A1. fold (ini s p).
        destruct (Nat.lt_ge_cases p (List.length (fs_ini s))) as [L|L]; [|apply set_nat_out; exact L].
        apply (nth_ext _ _ ip0 ip0); [apply set_nat_len|]. intros k _. destruct (Nat.eq_dec k p) as [->|N]; [|apply nth_set_neq; exact N].
        rewrite nth_set_eq by exact L. fold (ini s p). rewrite <- Hk. destruct (ini s p); reflexivity.
      * cbn [set_pc fs_ino set]. rewrite A3. apply Nat.le_refl.
    + eapply (FI_init s evs _ _ p IKilled F); auto.
      * unfold set_pc. cbn [fs_ini set]. unfold ini. rewrite A1. reflexivity.
      * cbn [set_pc fs_ino set]. rewrite A3. apply Nat.le_refl.
      * discriminate.
      * discriminate.
      * intros j. left. exact (A6 j).
  - destruct (lookup _ _) as [i|]; [destruct (_ =? 0)|]; injection Hs as <- <-; apply (FI_same s); auto.
  - cbn [fcontract] in Hc.
    assert (Hact : forall w, ring_at s i = Some w -> (do (w', ev) <- step w a; Ok (set_ino s i (ino s i <| in_ring := Some w' |>), map (FEv i) ev)) = Ok (s', ev) -> FI s' (evs ++ ev)).
    { intros w Hw H. destruct (step w a) as [[w' e1]| | |] eqn:Es; cbn [obind] in H; try discriminate. injection H as <- <-.
      exact (FI_act _ _ _ _ _ _ _ F Hw (Hc w Hw) Es). }
    assert (Hno : forall w, ring_at s i = w -> match w with None => True | Some _ => True end) by (intros [|]; auto).
    destruct a as [e fl pid|c0 x0|c0 e|c0|c0|c0 fd|c0].
    1: { destruct (negb _); [injection Hs as <- <-; rewrite app_nil_r; exact F|].
         destruct (some_bool _); [injection Hs as <- <-; rewrite app_nil_r; exact F|].
         destruct (in_ring (ino s i)) as [w|] eqn:Ew; [exact (Hact w Ew Hs)|]. injection Hs as <- <-. apply (FI_same s); auto. }
    all: destruct (in_ring (ino s i)) as [w|] eqn:Ew; [exact (Hact w Ew Hs)|]; injection Hs as <- <-; rewrite app_nil_r; exact F.
  - injection Hs as <- <-. apply (FI_same s); auto.
  - destruct (lookup _ _); injection Hs as <- <-; [rewrite app_nil_r; exact F|]. apply (FI_same s); auto.
    + cbn [fs_ino set]. rewrite app_length. lia.
    + intros i. apply (ring_at_app s _ i (mkino sz None None)); reflexivity.
Qed.

Lemma FI_start : FI fs0 [].
Proof.
  constructor; unfold ini, ring_at, ino; cbn; intros; try (destruct p; cbn in *; discriminate); try (destruct i; cbn in *; discriminate); auto.
  - destruct p; exfalso; apply H; reflexivity.
Qed.
Theorem fexec_FI s evs : fexec s evs -> FI s evs.
Proof. induction 1; [exact FI_start|]. eapply FI_step; eassumption. Qed.

(** each ring file lives its own life *)
Theorem f_each_ring s evs i w : fexec s evs -> ring_at s i = Some w ->
  exists r fsz, fresh r fsz /\ exec contract (world0 r fsz) w (events_of i evs).
Proof. intros X. exact (fi_ring _ _ (fexec_FI _ _ X) i w). Qed.

Theorem f_undisturbed s evs x s' ev i w : fexec s evs -> ring_at s i = Some w -> (forall a, x <> FAct i a) ->
  fstep s x = Ok (s', ev) -> ring_at s' i = Some w /\ events_of i ev = [].
Proof.
  intros X Hw Hx Hs. pose proof (fexec_FI _ _ X) as F.
  destruct x as [a|p ok|p|q|j a|q|q sz]; cbn [fstep] in Hs.
  - injection Hs as <- <-. auto.
  - destruct (is_done (ip_pc (ini s p))) as [rc|] eqn:Ed; [injection Hs as <- <-; auto|].
    destruct (init_step s p ok) as [s1| | |] eqn:E1; cbn [obind] in Hs; try discriminate. injection Hs as <- <-.
    split; [|destruct (is_done (ip_pc (ini s1 p))); reflexivity].
    destruct (ip_pc (ini s p)) eqn:Ep0; try discriminate Ed.
    all: try (unfold init_step in E1; rewrite Ep0 in E1; injection E1 as <-; assumption).
    all: assert (Hk : ip_pc (ini s p) <> IKilled) by congruence;
      destruct (init_step_gen _ _ _ _ Hk E1) as [->|(c & s2 & -> & A1 & A2 & A3 & A4 & A5 & A6)];
      [assumption|]; change (ring_at (set_pc s2 p c) i) with (ring_at s2 i);
      destruct (A6 i) as [->|(H & _)]; [assumption|]; pose proof (fi_unf _ _ F _ _ H); congruence.
  - destruct (is_done (ip_pc (ini s p))) as [rc|] eqn:Ed; injection Hs as <- <-; [auto|]. split; [|reflexivity].
    destruct (held _) as [j|]; [|exact Hw].
    match goal with |- ring_at (set_pc ?z _ _) i = _ => change (ring_at z i = Some w) end. unfold ring_at. rewrite ino_set.
    destruct (Nat.eqb_spec i j) as [->|]; cbn [andb]; [|exact Hw]. destruct (_ <? _)%nat; exact Hw.
  - destruct (lookup _ _) as [k|]; [destruct (_ =? 0)|]; injection Hs as <- <-; auto.
  - assert (Hij : i <> j) by (intros ->; exact (Hx a eq_refl)).
    assert (Hact : forall w, (do (w', ev) <- step w a; Ok (set_ino s j (ino s j <| in_ring := Some w' |>), map (FEv j) ev)) = Ok (s', ev) -> ring_at s' i = ring_at s i /\ events_of i ev = []).
    { intros w1 H. destruct (step w1 a) as [[w' e1]| | |] eqn:Es; cbn [obind] in H; try discriminate. injection H as <- <-.
      unfold ring_at. rewrite ino_set, events_of_map. destruct (Nat.eqb_spec i j); [contradiction|]. auto. }
    rewrite <- Hw.
    destruct a as [e fl pid|c0 x0|c0 e|c0|c0|c0 fd|c0].
    1: { destruct (negb _); [injection Hs as <- <-; auto|]. destruct (some_bool _); [injection Hs as <- <-; auto|].
         destruct (in_ring (ino s j)) as [w1|]; [exact (Hact w1 Hs)|]. injection Hs as <- <-. auto. }
    all: destruct (in_ring (ino s j)) as [w1|]; [exact (Hact w1 Hs)|]; injection Hs as <- <-; auto.
  - injection Hs as <- <-. auto.
  - destruct (lookup _ _); injection Hs as <- <-; auto. split; [|reflexivity]. rewrite <- Hw. apply (ring_at_app s _ i (mkino sz None None)); reflexivity.
Qed.

(** ** one shr_init running alone *)
Lemma lookup_unlink_same d p : lookup (unlink d p) p = None.
Proof.
  induction d as [|[q i] t IH]; [reflexivity|]. cbn [unlink filter fst]. fold (unlink t p).
  destruct (String.eqb_spec p q) as [->|N]; cbn [negb]; [exact IH|]. cbn [lookup].
  destruct (String.eqb_spec p q); [contradiction|exact IH].
Qed.
Lemma lookup_unlink_other d p q : q <> p -> lookup (unlink d p) q = lookup d q.
Proof.
  intros H. induction d as [|[r i] t IH]; [reflexivity|]. cbn [unlink filter fst]. fold (unlink t p).
  destruct (String.eqb_spec p r) as [->|N]; cbn [negb lookup].
  - destruct (String.eqb_spec q r); [contradiction|exact IH].
  - destruct (String.eqb q r); [reflexivity|exact IH].
Qed.

Section Alone.
Variable s0 : fs.
Variable a : iargs.
Let path := ia_path a.
Let p := List.length (fs_ini s0).
Let N := List.length (fs_ino s0).
Definition stA (d : list (string * nat)) (n : list inode) (c : ipc) : fs := mkfs d n (fs_ini s0 ++ [mkip a c]) (fs_fds s0).

Lemma ini_A d n c : ini (stA d n c) p = mkip a c.
Proof. unfold ini, stA, p. cbn [fs_ini]. rewrite app_nth2, Nat.sub_diag by lia. reflexivity. Qed.
Lemma set_nat_last {A} (l : list A) x y : set_nat (l ++ [x]) (List.length l) y = l ++ [y].
Proof. induction l; cbn; [reflexivity|]. rewrite IHl. reflexivity. Qed.
Lemma set_pc_A d n c c' : set_pc (stA d n c) p c' = stA d n c'.
Proof. unfold set_pc. rewrite ini_A. unfold stA, p. cbn [fs_ini set fs_dir fs_ino fs_fds ip_args ip_pc]. rewrite set_nat_last. reflexivity. Qed.
Lemma set_ino_A d x y c : set_ino (stA d (fs_ino s0 ++ [x]) c) N y = stA d (fs_ino s0 ++ [y]) c.
Proof. unfold set_ino, stA, N. cbn [fs_ini set fs_dir fs_ino fs_fds]. rewrite set_nat_last. reflexivity. Qed.
Lemma ino_A d x c : ino (stA d (fs_ino s0 ++ [x]) c) N = x.
Proof. unfold ino, stA, N. cbn [fs_ino]. rewrite app_nth2, Nat.sub_diag by lia. reflexivity. Qed.
Lemma set_dir_A d d' n c : stA d n c <| fs_dir := d' |> = stA d' n c.
Proof. reflexivity. Qed.

Definition elsewhere (d : list (string * nat)) : Prop := forall q, q <> path -> lookup d q = lookup (fs_dir s0) q.
Definition flags_fine : Prop := 0 < ia_data a /\ ia_flags a < SHR_OPEN_FENCE.
(** the new ring file complete *)
Definition new_file (lk : option nat) (l : layout) : inode :=
  mkino (l_sz l) lk (Some (world0 (ring_of_layout l (ia_flags a) (ia_app a)) (l_sz l))).

Definition stage (d : list (string * nat)) (n : list inode) (c : ipc) : Prop :=
  match c with
  | IAccess => d = fs_dir s0 /\ n = fs_ino s0
  | IUnlink => d = fs_dir s0 /\ n = fs_ino s0 /\ flags_fine /\ has (ia_flags a) SHR_KEEPEXIST = false
  | IOpen => n = fs_ino s0 /\ flags_fine /\ (lookup d path = lookup (fs_dir s0) path \/ lookup d path = None)
  | ILock i => i = N /\ n = fs_ino s0 ++ [ino0] /\ flags_fine /\ lookup d path = Some N
  | ITrunc i => i = N /\ n = fs_ino s0 ++ [mkino 0 (Some p) None] /\ flags_fine /\ lookup d path = Some N
  | IMmap i => i = N /\ exists l, lay a = Ok (Some l) /\ n = fs_ino s0 ++ [mkino (l_sz l) (Some p) None] /\ lookup d path = Some N
  | IUndo i => i = N /\ (exists sz lk, n = fs_ino s0 ++ [mkino sz lk None]) /\ lookup d path = Some N
  | IClose i rc => i = N /\
      ((rc = 0 /\ exists l, lay a = Ok (Some l) /\ n = fs_ino s0 ++ [new_file (Some p) l] /\ lookup d path = Some N)
       \/ (rc = -1 /\ (exists sz lk, n = fs_ino s0 ++ [mkino sz lk None]) /\ (lookup d path = None \/ lookup d path = Some N)))
  | IDone rc =>
      (rc = 0 /\ ((d = fs_dir s0 /\ n = fs_ino s0 /\ lookup (fs_dir s0) path <> None /\ has (ia_flags a) SHR_KEEPEXIST = true)
                  \/ exists l, lay a = Ok (Some l) /\ n = fs_ino s0 ++ [new_file None l] /\ lookup d path = Some N))
      \/ (rc = -1 /\ ((n = fs_ino s0 /\ (lookup d path = lookup (fs_dir s0) path \/ lookup d path = None))
                      \/ ((exists sz, n = fs_ino s0 ++ [mkino sz None None]) /\ (lookup d path = None \/ lookup d path = Some N))))
  | IKilled => False
  end.

Lemma lay_some : 0 <= ia_flags a -> flags_fine -> exists l, lay a = Ok (Some l).
Proof. intros H [H1 H2]. apply init_some; [exact H1|]. split; assumption. Qed.

Lemma some_true {A} (o : option A) : some_bool o = true -> o <> None.
Proof. destruct o; [discriminate|discriminate]. Qed.

Lemma stage_step d n c ok s' : args_ok a -> elsewhere d -> stage d n c -> init_step (stA d n c) p ok = Ok s' ->
  exists d' n' c', s' = stA d' n' c' /\ elsewhere d' /\ stage d' n' c'.
Proof.
  intros Ha He Hst H. unfold init_step in H. rewrite ini_A in H. cbn [ip_pc ip_args] in H.
  destruct c as [| | |i|i|i|i|i rc|rc|]; cbn [stage] in Hst.
  - destruct Hst as [-> ->]. cbn [stA fs_dir] in H. fold (stA (fs_dir s0) (fs_ino s0) IAccess) in H.
    destruct (_ || _) eqn:Ef.
    { injection H as <-. rewrite set_pc_A. do 3 eexists. split; [reflexivity|]. split; [exact He|]. cbn [stage]. right. split; [reflexivity|]. left. auto. }
    apply orb_false_iff in Ef. destruct Ef as [E1 E2]. rewrite Z.geb_leb, Z.leb_gt in E1. apply Z.eqb_neq in E2.
    assert (Hff : flags_fine) by (split; [destruct Ha; lia|lia]).
    destruct (some_bool _ && ok) eqn:Ex; [destruct (has (ia_flags a) SHR_KEEPEXIST) eqn:Ek|].
    + injection H as <-. rewrite set_pc_A. do 3 eexists. split; [reflexivity|]. split; [exact He|]. cbn [stage]. left. split; [reflexivity|]. left.
      apply andb_true_iff in Ex. destruct Ex as [Ex _]. apply some_true in Ex. auto.
    + injection H as <-. rewrite set_pc_A. do 3 eexists. split; [reflexivity|]. split; [exact He|]. cbn [stage]. auto.
    + injection H as <-. rewrite set_pc_A. do 3 eexists. split; [reflexivity|]. split; [exact He|]. cbn [stage]. auto.
  - destruct Hst as (-> & -> & Hff & Hk). cbn [stA fs_dir] in H. fold (stA (fs_dir s0) (fs_ino s0) IUnlink) in H. destruct (_ && _).
    + injection H as <-. rewrite set_dir_A, set_pc_A. do 3 eexists. split; [reflexivity|]. split.
      * intros q Hq. apply lookup_unlink_other. exact Hq.
      * cbn [stage]. split; [reflexivity|]. split; [exact Hff|]. right. apply lookup_unlink_same.
    + injection H as <-. rewrite set_pc_A. do 3 eexists. split; [reflexivity|]. split; [exact He|]. cbn [stage]. right. split; [reflexivity|]. left. auto.
  - destruct Hst as (-> & Hff & Hl). cbn [stA fs_dir fs_ino] in H. fold (stA d (fs_ino s0) IOpen) in H. destruct (_ || _) eqn:Ex.
    + injection H as <-. rewrite set_pc_A. do 3 eexists. split; [reflexivity|]. split; [exact He|]. cbn [stage]. right. split; [reflexivity|]. left. auto.
    + apply obind_ok' in H. destruct H as (l & El & H). injection H as <-. cbn [stA fs_dir fs_ino fs_ini fs_fds set].
      match goal with |- context [set_pc ?s p _] => change s with (stA ((path, N) :: d) (fs_ino s0 ++ [ino0]) IOpen) end.
      rewrite set_pc_A. do 3 eexists. split; [reflexivity|]. split.
      * intros q Hq. cbn [lookup]. destruct (String.eqb_spec q path); [contradiction|]. exact (He q Hq).
      * cbn [stage lookup]. rewrite String.eqb_refl. auto.
  - destruct Hst as (-> & -> & Hff & Hl). rewrite ino_A, set_ino_A, !set_pc_A in H. destruct ok; injection H as <-; do 3 eexists; (split; [reflexivity|]; split; [exact He|]); cbn [stage].
    + auto.
    + split; [reflexivity|]. split; [do 2 eexists; reflexivity|exact Hl].
  - destruct Hst as (-> & -> & Hff & Hl). destruct (lay_some (proj1 (proj2 Ha)) Hff) as [l El]. rewrite El in H. cbn [obind] in H.
    rewrite ino_A, set_ino_A, !set_pc_A in H. destruct ok; injection H as <-; do 3 eexists; (split; [reflexivity|]; split; [exact He|]); cbn [stage].
    + split; [reflexivity|]. exists l. auto.
    + split; [reflexivity|]. split; [do 2 eexists; reflexivity|exact Hl].
  - destruct Hst as (-> & l & El & -> & Hl). rewrite El in H. cbn [obind] in H. destruct ok.
    + apply obind_ok' in H. destruct H as (w & Ew & H). apply fill_ok in Ew. subst w.
      rewrite ino_A, set_ino_A, set_pc_A in H. injection H as <-; do 3 eexists; (split; [reflexivity|]; split; [exact He|]); cbn [stage].
      split; [reflexivity|]. left. split; [reflexivity|]. exists l. auto.
    + rewrite set_pc_A in H. injection H as <-; do 3 eexists; (split; [reflexivity|]; split; [exact He|]); cbn [stage].
      split; [reflexivity|]. split; [do 2 eexists; reflexivity|exact Hl].
  - destruct Hst as (-> & Hn & Hl). destruct ok; cbn [stA fs_dir] in H; fold (stA d n (IUndo N)) in H; [rewrite set_dir_A in H|]; rewrite set_pc_A in H; injection H as <-;
      do 3 eexists; (split; [reflexivity|]; split).
    + intros q Hq. rewrite lookup_unlink_other by exact Hq. exact (He q Hq).
    + cbn [stage]. split; [reflexivity|]. right. split; [reflexivity|]. split; [exact Hn|]. left. apply lookup_unlink_same.
    + exact He.
    + cbn [stage]. split; [reflexivity|]. right. auto.
  - destruct Hst as (-> & [(-> & l & El & -> & Hl)|(-> & (sz & lk & ->) & Hl)]); rewrite ino_A, set_ino_A, set_pc_A in H; injection H as <-; do 3 eexists; (split; [reflexivity|]; split; [exact He|]); cbn [stage].
    + left. split; [reflexivity|]. right. exists l. auto.
    + right. split; [reflexivity|]. right. split; [exists sz; reflexivity|exact Hl].
  - injection H as <-. do 3 eexists. split; [reflexivity|]. auto.
  - contradiction.
Qed.

Lemma done_stays d n rc : forall t s2 e2, frun (stA d n (IDone rc)) (map (FStep p) t) = Ok (s2, e2) -> s2 = stA d n (IDone rc).
Proof.
  induction t as [|o t IH]; cbn [map frun]; intros s2 e2 H; [congruence|]. cbn [fstep] in H. rewrite ini_A in H. cbn [ip_pc is_done obind] in H.
  apply obind_ok' in H. destruct H as ([s3 e3] & E3 & H). injection H as <- _. exact (IH _ _ E3).
Qed.

Lemma alone_run : args_ok a -> forall oks d n c s' evs, elsewhere d -> stage d n c ->
  frun (stA d n c) (map (FStep p) oks) = Ok (s', evs) ->
  exists d' n' c', s' = stA d' n' c' /\ elsewhere d' /\ stage d' n' c' /\ (forall q rc, In (FRet q rc) evs -> c' = IDone rc).
Proof.
  intros Ha. induction oks as [|ok t IH]; intros d n c s' evs He Hst H; cbn [map frun] in H.
  - injection H as <- <-. do 3 eexists. split; [reflexivity|]. repeat split; auto. intros q rc [].
  - apply obind_ok' in H. destruct H as ([s1 e1] & E1 & H). apply obind_ok' in H. destruct H as ([s2 e2] & E2 & H). injection H as <- <-.
    cbn [fstep] in E1. rewrite ini_A in E1. cbn [ip_pc] in E1. destruct (is_done c) as [rc|] eqn:Ed.
    + injection E1 as <- <-. exact (IH _ _ _ _ _ He Hst E2).
    + apply obind_ok' in E1. destruct E1 as (s3 & E3 & E1). destruct (stage_step _ _ _ _ _ Ha He Hst E3) as (d1 & n1 & c1 & -> & He1 & Hst1).
      rewrite ini_A in E1. cbn [ip_pc] in E1. injection E1 as <- <-.
      destruct (IH _ _ _ _ _ He1 Hst1 E2) as (d2 & n2 & c2 & -> & He2 & Hst2 & Hr). do 3 eexists. split; [reflexivity|]. split; [exact He2|]. split; [exact Hst2|].
      intros q rc Hin. apply in_app_iff in Hin. destruct Hin as [Hin|Hin]; [|exact (Hr q rc Hin)].
      destruct c1 as [| | |i|i|i|i|i rc'|rc'|]; cbn [is_done] in Hin; try contradiction. destruct Hin as [Hin|[]]. injection Hin as _ <-.
      apply done_stays in E2. unfold stA in E2. injection E2 as _ _ E2. apply app_inv_head in E2. injection E2 as ->. reflexivity.
Qed.

(** if every call succeeds *)
Lemma fill_fine l : args_ok a -> lay a = Ok (Some l) -> fill a l = Ok (world0 (ring_of_layout l (ia_flags a) (ia_app a)) (l_sz l)).
Proof.
  intros (H1 & H2 & H3 & H4) E. specialize (H4 l E).
  destruct (init_layout_ok _ _ _ _ _ E H1 ltac:(unfold zlen; lia) H3 H4) as (A1 & A2 & A3 & A4 & A5 & A6 & A7 & A8 & A9 & A10 & A11).
  change SIZEOF_MSG with 16 in *.
  unfold fill. destruct (Z.ltb_spec (l_sz l) SIZEOF_CTRL) as [H|_]; [exfalso; rewrite A9, A6 in H; unfold zlen in *; destruct (has (ia_flags a) SHR_APPDATA_1); lia|].
  destruct (has (ia_flags a) SHR_APPDATA_1); cbn [andb]; [|reflexivity]. rewrite A9, A6.
  destruct (Z.ltb_spec (SIZEOF_CTRL + l_n l + l_pad l + l_mv l + zlen (ia_app a)) (SIZEOF_CTRL + l_n l + l_pad l + l_mv l + zlen (ia_app a))); [lia|reflexivity].
Qed.
Lemma go_step d n c s' : is_done c = None -> init_step (stA d n c) p true = Ok s' ->
  fstep (stA d n c) (FStep p true) = Ok (s', match is_done (ip_pc (ini s' p)) with Some rc => [FRet p rc] | None => [] end).
Proof. intros H1 H2. cbn [fstep]. rewrite ini_A. cbn [ip_pc]. rewrite H1, H2. reflexivity. Qed.
Lemma go_open d : args_ok a -> flags_fine -> lookup d path = None ->
  exists s', frun (stA d (fs_ino s0) IOpen) (repeat (FStep p true) 5) = Ok (s', [FRet p 0]).
Proof.
  intros Ha Hf Hl. destruct (lay_some (proj1 (proj2 Ha)) Hf) as [l El]. eexists.
  cbn [repeat frun].
  rewrite (go_step d (fs_ino s0) IOpen (stA ((path, N) :: d) (fs_ino s0 ++ [ino0]) (ILock N))); [|reflexivity|].
  2: { unfold init_step. rewrite ini_A. cbn [ip_pc ip_args]. change (fs_dir (stA d (fs_ino s0) IOpen)) with d. fold path. rewrite Hl. cbn [some_bool orb negb]. rewrite El. cbn [obind].
       match goal with |- Ok (set_pc ?s p _) = _ => change s with (stA ((path, N) :: d) (fs_ino s0 ++ [ino0]) IOpen) end. rewrite set_pc_A. reflexivity. }
  rewrite ini_A. cbn [ip_pc is_done obind].
  rewrite (go_step _ _ _ (stA ((path, N) :: d) (fs_ino s0 ++ [mkino 0 (Some p) None]) (ITrunc N))); [|reflexivity|].
  2: { unfold init_step. rewrite ini_A. cbn [ip_pc ip_args]. rewrite ino_A, set_ino_A, set_pc_A. reflexivity. }
  rewrite ini_A. cbn [ip_pc is_done obind].
  rewrite (go_step _ _ _ (stA ((path, N) :: d) (fs_ino s0 ++ [mkino (l_sz l) (Some p) None]) (IMmap N))); [|reflexivity|].
  2: { unfold init_step. rewrite ini_A. cbn [ip_pc ip_args]. rewrite El. cbn [obind]. rewrite ino_A, set_ino_A, set_pc_A. reflexivity. }
  rewrite ini_A. cbn [ip_pc is_done obind].
  rewrite (go_step _ _ _ (stA ((path, N) :: d) (fs_ino s0 ++ [new_file (Some p) l]) (IClose N 0))); [|reflexivity|].
  2: { unfold init_step. rewrite ini_A. cbn [ip_pc ip_args]. rewrite El. cbn [obind]. rewrite (fill_fine l Ha El). cbn [obind]. rewrite ino_A, set_ino_A, set_pc_A. reflexivity. }
  rewrite ini_A. cbn [ip_pc is_done obind].
  rewrite (go_step _ _ _ (stA ((path, N) :: d) (fs_ino s0 ++ [new_file None l]) (IDone 0))); [|reflexivity|].
  2: { unfold init_step. rewrite ini_A. cbn [ip_pc ip_args]. rewrite ino_A, set_ino_A, set_pc_A. reflexivity. }
  rewrite ini_A. cbn [ip_pc is_done obind app]. reflexivity.
Qed.
End Alone.

Definition calls_init (s : fs) (a : iargs) (oks : list bool) : list faction := FInit a :: map (FStep (List.length (fs_ini s))) oks.

Theorem f_alone s a oks s' evs rc : args_ok a -> frun s (calls_init s a oks) = Ok (s', evs) -> In (FRet (List.length (fs_ini s)) rc) evs ->
  let N := List.length (fs_ino s) in
  (forall i, (i < N)%nat -> ino s' i = ino s i)
  /\ (forall q, q <> ia_path a -> lookup (fs_dir s') q = lookup (fs_dir s) q)
  /\ ((rc = 0 /\ has (ia_flags a) SHR_KEEPEXIST = true /\ lookup (fs_dir s) (ia_path a) <> None
         /\ fs_dir s' = fs_dir s /\ fs_ino s' = fs_ino s)
      \/ (rc = 0 /\ lookup (fs_dir s') (ia_path a) = Some N /\ in_lock (ino s' N) = None
         /\ exists l, lay a = Ok (Some l) /\ in_size (ino s' N) = l_sz l
            /\ ring_at s' N = Some (world0 (ring_of_layout l (ia_flags a) (ia_app a)) (l_sz l))
            /\ fresh (ring_of_layout l (ia_flags a) (ia_app a)) (l_sz l))
      \/ (rc = -1 /\ (lookup (fs_dir s') (ia_path a) = lookup (fs_dir s) (ia_path a) \/ lookup (fs_dir s') (ia_path a) = None
            \/ (lookup (fs_dir s') (ia_path a) = Some N /\ ring_at s' N = None)))).
Proof.
  intros Ha H Hin N. unfold calls_init in H. cbn [frun fstep obind] in H. apply obind_ok' in H. destruct H as ([s2 e2] & H & E). injection E as <- <-. cbn [app] in Hin.
  change (s <| fs_ini := fs_ini s ++ [mkip a IAccess] |>) with (stA s a (fs_dir s) (fs_ino s) IAccess) in H.
  destruct (alone_run s a Ha oks (fs_dir s) (fs_ino s) IAccess _ _ (fun q _ => eq_refl) (conj eq_refl eq_refl) H) as (d & n & c & -> & He & Hst & Hr).
  rewrite (Hr _ _ Hin) in *. clear Hr Hin. cbn [stage] in Hst.
  assert (Pre : forall x i, (i < N)%nat -> nth i (fs_ino s ++ [x]) ino0 = ino s i) by (intros x i Hi; rewrite app_nth1 by exact Hi; reflexivity).
  assert (Lst : forall x d' c', ino (stA s a d' (fs_ino s ++ [x]) c') N = x) by (intros; apply ino_A).
  split; [|split; [exact He|]].
  - intros i Hi. unfold ino. cbn [stA fs_ino].
    destruct Hst as [(-> & [(_ & -> & _)|(l & _ & -> & _)])|(-> & [(-> & _)|((sz & ->) & _)])]; try reflexivity; apply Pre; exact Hi.
  - cbn [stA fs_dir].
    destruct Hst as [(-> & [(-> & -> & Hl & Hk)|(l & El & -> & Hl)])|(-> & [(-> & Hl)|((sz & ->) & Hl)])].
    + left. repeat split; auto.
    + right. left. split; [reflexivity|]. split; [exact Hl|]. unfold ring_at. rewrite Lst. split; [reflexivity|]. exists l. split; [exact El|]. split; [reflexivity|]. split; [reflexivity|]. exact (lay_fresh _ _ Ha El).
    + right. right. split; [reflexivity|]. destruct Hl; auto.
    + right. right. split; [reflexivity|]. unfold ring_at. rewrite Lst. destruct Hl; auto.
Qed.

Lemma start_A s a t : frun s (FInit a :: t) = do (s', e) <- frun (stA s a (fs_dir s) (fs_ino s) IAccess) t; Ok (s', e).
Proof. cbn [frun fstep obind]. change (s <| fs_ini := fs_ini s ++ [mkip a IAccess] |>) with (stA s a (fs_dir s) (fs_ino s) IAccess). reflexivity. Qed.

(** SHR_KEEPEXIST on an existing file: the first system call is the last *)
Theorem f_keepexist s a : 0 < ia_data a -> ia_flags a < SHR_OPEN_FENCE ->
  has (ia_flags a) SHR_KEEPEXIST = true -> lookup (fs_dir s) (ia_path a) <> None ->
  exists s', frun s (calls_init s a [true]) = Ok (s', [FRet (List.length (fs_ini s)) 0])
    /\ fs_dir s' = fs_dir s /\ fs_ino s' = fs_ino s /\ fs_fds s' = fs_fds s.
Proof.
  intros H1 H2 Hk Hl. exists (stA s a (fs_dir s) (fs_ino s) (IDone 0)). split; [|auto].
  unfold calls_init. rewrite start_A. cbn [map frun].
  rewrite (go_step s a _ _ _ (stA s a (fs_dir s) (fs_ino s) (IDone 0))); [|reflexivity|].
  - rewrite ini_A. reflexivity.
  - unfold init_step. rewrite ini_A. cbn [ip_pc ip_args stA fs_dir]. fold (stA s a (fs_dir s) (fs_ino s) IAccess).
    destruct (Z.geb_spec (ia_flags a) SHR_OPEN_FENCE); [lia|]. destruct (Z.eqb_spec (ia_data a) 0); [lia|]. cbn [orb].
    destruct (lookup (fs_dir s) (ia_path a)); [|contradiction]. cbn [some_bool andb]. rewrite Hk. rewrite set_pc_A. reflexivity.
Qed.

(** without it, if the system calls succeed, shr_init succeeds *)
Theorem f_recreate s a : args_ok a -> 0 < ia_data a -> ia_flags a < SHR_OPEN_FENCE ->
  has (ia_flags a) SHR_KEEPEXIST = false \/ lookup (fs_dir s) (ia_path a) = None ->
  exists k s', frun s (calls_init s a (repeat true k)) = Ok (s', [FRet (List.length (fs_ini s)) 0]).
Proof.
  intros Ha H1 H2 Hk. unfold calls_init.
  assert (M : forall k, map (FStep (List.length (fs_ini s))) (repeat true k) = repeat (FStep (List.length (fs_ini s)) true) k).
  { induction k; cbn; [reflexivity|]. rewrite IHk. reflexivity. }
  assert (Hf : flags_fine a) by (split; assumption).
  destruct (lookup (fs_dir s) (ia_path a)) as [i|] eqn:El.
  - destruct (go_open s a (unlink (fs_dir s) (ia_path a)) Ha Hf (lookup_unlink_same _ _)) as [s' E].
    exists 7%nat, s'. rewrite M, start_A. change (repeat (FStep (List.length (fs_ini s)) true) 7) with (FStep (List.length (fs_ini s)) true :: FStep (List.length (fs_ini s)) true :: repeat (FStep (List.length (fs_ini s)) true) 5). cbn [frun].
    rewrite (go_step s a _ _ _ (stA s a (fs_dir s) (fs_ino s) IUnlink)); [|reflexivity|].
    2: { unfold init_step. rewrite ini_A. cbn [ip_pc ip_args stA fs_dir]. fold (stA s a (fs_dir s) (fs_ino s) IAccess).
      destruct (Z.geb_spec (ia_flags a) SHR_OPEN_FENCE); [lia|]. destruct (Z.eqb_spec (ia_data a) 0); [lia|]. cbn [orb].
      rewrite El. cbn [some_bool andb]. destruct Hk as [->|Hk]; [|discriminate]. rewrite set_pc_A. reflexivity. }
    rewrite ini_A. cbn [ip_pc is_done obind].
    rewrite (go_step s a _ _ _ (stA s a (unlink (fs_dir s) (ia_path a)) (fs_ino s) IOpen)); [|reflexivity|].
    2: { unfold init_step. rewrite ini_A. cbn [ip_pc ip_args stA fs_dir]. fold (stA s a (fs_dir s) (fs_ino s) IUnlink). rewrite El. cbn [some_bool andb].
      rewrite set_dir_A, set_pc_A. reflexivity. }
    rewrite ini_A. cbn [ip_pc is_done obind]. rewrite E. reflexivity.
  - destruct (go_open s a (fs_dir s) Ha Hf El) as [s' E].
    exists 6%nat, s'. rewrite M, start_A. change (repeat (FStep (List.length (fs_ini s)) true) 6) with (FStep (List.length (fs_ini s)) true :: repeat (FStep (List.length (fs_ini s)) true) 5). cbn [frun].
    rewrite (go_step s a _ _ _ (stA s a (fs_dir s) (fs_ino s) IOpen)); [|reflexivity|].
    2: { unfold init_step. rewrite ini_A. cbn [ip_pc ip_args stA fs_dir]. fold (stA s a (fs_dir s) (fs_ino s) IAccess).
      destruct (Z.geb_spec (ia_flags a) SHR_OPEN_FENCE); [lia|]. destruct (Z.eqb_spec (ia_data a) 0); [lia|]. cbn [orb].
      rewrite El. cbn [some_bool andb]. rewrite set_pc_A. reflexivity. }
    rewrite ini_A. cbn [ip_pc is_done obind]. rewrite E. reflexivity.
Qed.
