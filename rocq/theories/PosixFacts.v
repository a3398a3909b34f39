(** * Single-threaded processes with several handles *)
From Verif Require Export Posix LockWitness.

Section Facts.
Context {S L : Type}.
Variable sect : nat -> L -> prog S L.
Variable priv : nat -> L -> L -> Prop.
Variable proc : nat -> nat.

Lemma single_fines s m t k : pfines sect priv proc true (outside s m) t k ->
  exists h, fines sect priv (outside s m) t (mkconf (shared k) h (pr k)) /\ holder k = option_map proc h.
Proof.
  induction 1 as [|t k1 x k2 F IH E A].
  { exists None. split; [constructor|reflexivity]. }
  specialize (A eq_refl). destruct IH as (h & FF & Eh).
  assert (IN : forall c l p, pr k1 c = PIn l p -> h = Some c).
  { intros c l p Ec. destruct (fines_serial _ _ _ _ _ _ FF) as (s1 & m1 & _ & M). apply (matches_in _ _ _ _ _ _ _ M Ec). }
  assert (HI : forall c, h = Some c -> exists l p, pr k1 c = PIn l p).
  { intros c ->. destruct (l_holder _ _ _ _ _ _ _ FF eq_refl) as (s1 & m1 & l & p & _ & _ & Q & _). eauto. }
  destruct E as [k c l l' Ec Ep|k c l Ec El|k c l line f s' p' Ec Ef|k c l l' Ec|k c l Ec]; cbn [one_at_a_time] in A.
  - exists h. split; [|exact Eh]. econstructor; [exact FF|]. apply (f_priv sect priv (mkconf (shared k) h (pr k)) c l l'); assumption.
  - assert (h = None) as ->.
    { destruct h as [c'|]; [|reflexivity]. exfalso. destruct (HI c' eq_refl) as (l1 & p1 & Q).
      destruct El as [El|El]; rewrite El in Eh; cbn in Eh; [discriminate|]. injection Eh as Eh.
      apply (A c' l1 p1); [symmetry; exact Eh|congruence|exact Q]. }
    exists (Some c). split; [|reflexivity]. econstructor; [exact FF|]. apply (f_lock sect priv (mkconf (shared k) None (pr k)) c l); [exact Ec|reflexivity].
  - exists h. split; [|exact Eh]. econstructor; [exact FF|]. apply (f_stmt sect priv (mkconf (shared k) h (pr k)) c l line f s' p'); assumption.
  - pose proof (IN _ _ _ Ec) as ->. exists None. split.
    + econstructor; [exact FF|]. pose proof (f_unlock sect priv (mkconf (shared k) (Some c) (pr k)) c l l' Ec) as Q. cbn [holder shared pr let_go] in Q. rewrite Nat.eqb_refl in Q. exact Q.
    + cbn [holder]. rewrite Eh. cbn. rewrite Nat.eqb_refl. reflexivity.
  - assert (NE : h <> Some c).
    { intros ->. destruct (HI c eq_refl) as (l1 & p1 & Q). congruence. }
    exists h. split.
    + econstructor; [exact FF|]. pose proof (f_kill_out sect priv (mkconf (shared k) h (pr k)) c l Ec) as Q. cbn [holder shared pr] in Q. rewrite let_go_other in Q by exact NE. exact Q.
    + cbn [holder]. rewrite Eh. destruct h as [c'|]; [|reflexivity]. cbn [option_map let_go]. destruct (Nat.eqb_spec (proc c') (proc c)) as [Q|_]; [|reflexivity].
      exfalso. destruct (HI c' eq_refl) as (l1 & p1 & Q1). apply (A c' l1 p1 Q); [congruence|exact Q1].
Qed.
Lemma s_exclusion s m t k c c' l l' p p' : pfines sect priv proc true (outside s m) t k -> pr k c = PIn l p -> pr k c' = PIn l' p' -> c = c'.
Proof. intros F E E'. destruct (single_fines _ _ _ _ F) as (h & FF & _). exact (l_exclusion _ _ _ _ _ _ _ _ _ _ _ _ FF E E'). Qed.
Lemma s_free s m t k : pfines sect priv proc true (outside s m) t k -> holder k = None ->
  exists m1, serials sect priv (s, m) (flat_map in_order t) (shared k, m1)
    /\ forall c, pr k c = match m1 c with Some l => POut l | None => PDead end.
Proof.
  intros F E. destruct (single_fines _ _ _ _ F) as (h & FF & Eh). rewrite E in Eh. destruct h; [discriminate|].
  exact (l_free _ _ _ _ _ _ FF eq_refl).
Qed.
End Facts.

Lemma s_queue proc r w evs t k : reach contract r w evs ->
  pfines (usect (r_mm (w_ring w))) upriv proc true (outside (w_ring w) nobody) t k -> no_kill t = true ->
  exists all, map fst all = unlocks t
    /\ (forall c, match pr k c with POut u => fst u = own c all | PIn u _ => fst u = own c all | PDead => False end)
    /\ (forall a xs, aq_run (abs (w_ring w)) (did all) = Some (a, xs) ->
          xs = saw all
          /\ (holder k = None -> a = abs (shared k) /\ works_as_queue (shared k))
          /\ (forall h done op line f, pr k h = PIn (done, Some op) (At line f) -> aq_step a op <> None ->
                 exists s' p', f (shared k) = Ok (s', p'))).
Proof.
  intros H F NK. destruct (single_fines _ _ _ _ _ _ _ F) as (h & FF & Eh).
  destruct (p_queue _ _ _ _ _ H FF NK) as (all & A & B & C). exists all. split; [exact A|]. split; [exact B|]. intros a xs Q.
  destruct (C a xs Q) as (C1 & C2). cbn [holder shared pr] in C2. split; [exact C1|]. split.
  - intros E. rewrite E in Eh. destruct h; [discriminate|]. exact C2.
  - intros h' done op line f E N. assert (h = Some h') as ->.
    { destruct (fines_serial _ _ _ _ _ _ FF) as (s1 & m1 & _ & M). apply (matches_in _ _ _ _ _ _ _ M E). }
    exact (C2 done op line f E N).
Qed.

(** ** scripts *)
Definition pgo (proc : nat -> nat) (mm : Z) (k : conf (S := ring) (L := user)) (x : fcmd6) : option (fev * conf (S := ring) (L := user)) :=
  match x with
  | Decide c op => match pr k c with POut u => Some (FPriv c, mkconf (shared k) (holder k) (upd (pr k) c (POut (fst u, Some op)))) | _ => None end
  | Go c => match pr k c with
      | POut u => if match holder k with None => true | Some p => Nat.eqb p (proc c) end
                  then Some (FLock c, mkconf (shared k) (Some (proc c)) (upd (pr k) c (PIn u (usect mm c u)))) else None
      | PIn u (At line f) => match f (shared k) with Ok (s', p') => Some (FStmt c line, mkconf s' (holder k) (upd (pr k) c (PIn u p'))) | _ => None end
      | PIn u (Ret u') => Some (FUnlock c, mkconf (shared k) (let_go (proc c) (holder k)) (upd (pr k) c (POut u')))
      | PDead => None end
  | Kill c => match pr k c with
      | POut u => Some (FKill c None, mkconf (shared k) (let_go (proc c) (holder k)) (upd (pr k) c PDead))
      | _ => None end
  end.
Lemma pgo_fine proc mm k x e k' : pgo proc mm k x = Some (e, k') -> pfine (usect mm) upriv proc k e k'.
Proof.
  destruct x as [c op|c|c]; cbn [pgo]; destruct (pr k c) as [u|u [u'|line f]|] eqn:E; try discriminate.
  - intros H; injection H as <- <-. apply p_priv with u; [exact E|]. exists op. reflexivity.
  - destruct (holder k) as [p|] eqn:Eh.
    + destruct (Nat.eqb_spec p (proc c)) as [->|]; [|discriminate]. intros H; injection H as <- <-. apply p_lock; [exact E|right; exact Eh].
    + intros H; injection H as <- <-. apply p_lock; [exact E|left; exact Eh].
  - intros H; injection H as <- <-. apply p_unlock with u. exact E.
  - destruct (f (shared k)) as [[s' p']| | |] eqn:Ef; try discriminate. intros H; injection H as <- <-. econstructor; eassumption.
  - intros H; injection H as <- <-. apply p_close with u. exact E.
Qed.
(** [n] handles are in use; for [one_at_a_time] *)
Definition lone_b (proc : nat -> nat) (n : nat) (k : conf (S := ring) (L := user)) (e : fev) : bool :=
  match e with
  | FLock h | FKill h _ => forallb (fun h' => Nat.eqb h' h || negb (Nat.eqb (proc h') (proc h)) || match pr k h' with PIn _ _ => false | _ => true end) (seq 0 n)
  | _ => true end.
Fixpoint pgos (proc : nat -> nat) (n : option nat) (mm : Z) (k : conf) (xs : list fcmd6) : option (list fev * conf) :=
  match xs with
  | [] => Some ([], k)
  | x :: xs => match pgo proc mm k x with None => None
      | Some (e, k') => if match n with Some n => lone_b proc n k e && match x with Decide c _ | Go c | Kill c => (c <? n)%nat end | None => true end then
          match pgos proc n mm k' xs with None => None | Some (t, k'') => Some (e :: t, k'') end else None end
  end.
Lemma pgos_fines proc n mm k0 : forall xs t0 k t k', pfines (usect mm) upriv proc (match n with Some _ => true | None => false end) k0 t0 k ->
  (forall m, n = Some m -> forall h, (m <= h)%nat -> forall l p, pr k h <> PIn l p) ->
  pgos proc n mm k xs = Some (t, k') -> pfines (usect mm) upriv proc (match n with Some _ => true | None => false end) k0 (t0 ++ t) k'.
Proof.
  induction xs as [|x xs IH]; intros t0 k t k' F NI H; cbn [pgos] in H.
  - injection H as <- <-. rewrite app_nil_r. exact F.
  - destruct (pgo proc mm k x) as [[e k1]|] eqn:E; [|discriminate]. destruct (match n with Some n => _ | None => true end) eqn:B; [|discriminate].
    destruct (pgos proc n mm k1 xs) as [[t1 k2]|] eqn:E2; [|discriminate].
    injection H as <- <-. replace (t0 ++ e :: t1) with ((t0 ++ [e]) ++ t1) by (rewrite <- app_assoc; reflexivity).
    apply (IH _ k1); [| |exact E2].
    + econstructor; [exact F|apply (pgo_fine proc mm _ x); exact E|]. destruct n as [n|]; [|discriminate]. intros _. apply andb_true_iff in B. destruct B as [B _].
      destruct e; cbn [one_at_a_time lone_b] in *; auto; intros h' l p HP N Q; rewrite forallb_forall in B;
        (destruct (Nat.lt_ge_cases h' n) as [LT|GE]; [|apply (NI n eq_refl h' GE l p Q)]);
        specialize (B h' ltac:(apply in_seq; lia)); rewrite Q, HP, Nat.eqb_refl in B; cbn in B; rewrite !orb_false_r in B; apply Nat.eqb_eq in B; contradiction.
    + intros m Em h Hh l p. subst n. apply andb_true_iff in B. destruct B as [_ B].
      assert (N : h <> match x with Decide c _ | Go c | Kill c => c end) by (destruct x; apply Nat.ltb_lt in B; lia).
      assert (Q : pr k1 h = pr k h).
      { destruct x as [c op|c|c]; cbn [pgo] in E; destruct (pr k c) as [u|u [u'|line f]|]; try discriminate E;
          repeat match type of E with (match ?y with _ => _ end) = _ => destruct y; try discriminate E end;
          injection E as _ <-; cbn [pr]; apply upd_other; exact N. }
      rewrite Q. apply (NI m eq_refl h Hh).
Qed.
Definition ptrace proc n (r : ring) (xs : list fcmd6) : list fev := match pgos proc n (r_mm r) (outside r nobody) xs with Some (t, _) => t | None => [] end.
Definition pconf proc n (r : ring) (xs : list fcmd6) : conf := match pgos proc n (r_mm r) (outside r nobody) xs with Some (_, k) => k | None => outside r nobody end.
Lemma pplay proc n r xs : (if pgos proc n (r_mm r) (outside r nobody) xs then true else false) = true ->
  pfines (usect (r_mm r)) upriv proc (match n with Some _ => true | None => false end) (outside r nobody) (ptrace proc n r xs) (pconf proc n r xs).
Proof.
  unfold ptrace, pconf. destruct (pgos _ _ _ _ xs) as [[t k]|] eqn:E; [|discriminate]. intros _.
  apply (pgos_fines _ _ _ _ xs [] (outside r nobody) t k); [constructor|discriminate|exact E].
Qed.
