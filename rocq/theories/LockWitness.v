(** * Concrete fine-grained executions (not part of the model) *)
From Verif Require Export LockFacts CrashFinal.

Lemma p_queue r w evs t k : reach contract r w evs ->
  fines (usect (r_mm (w_ring w))) upriv (outside (w_ring w) nobody) t k -> no_kill t = true ->
  exists all, map fst all = unlocks t
    /\ (forall c, match pr k c with POut u => fst u = own c all | PIn u _ => fst u = own c all | PDead => False end)
    /\ (forall a xs, aq_run (abs (w_ring w)) (did all) = Some (a, xs) ->
          xs = saw all
          /\ match holder k with
             | None => a = abs (shared k) /\ works_as_queue (shared k)
             | Some h => forall done op line f, pr k h = PIn (done, Some op) (At line f) -> aq_step a op <> None ->
                 exists s' p', f (shared k) = Ok (s', p')
             end).
Proof.
  intros H. apply l_queue. destruct (reach_inv contract r w evs (fun _ _ x => x) H) as (fsz & _ & _ & _ & W & _ & SB & EF & _).
  apply (works_inv _ (committed evs) (wi_ring _ _ _ W)). intros Hf. apply SB. congruence.
Qed.

Inductive fcmd6 := Decide (c : nat) (op : qop) | Go (c : nat) | Kill (c : nat).
Definition fgo (mm : Z) (k : conf (S := ring) (L := user)) (x : fcmd6) : option (fev * conf (S := ring) (L := user)) :=
  match x with
  | Decide c op => match pr k c with POut u => Some (FPriv c, mkconf (shared k) (holder k) (upd (pr k) c (POut (fst u, Some op)))) | _ => None end
  | Go c => match pr k c with
      | POut u => match holder k with None => Some (FLock c, mkconf (shared k) (Some c) (upd (pr k) c (PIn u (usect mm c u)))) | _ => None end
      | PIn u (At line f) => match f (shared k) with Ok (s', p') => Some (FStmt c line, mkconf s' (holder k) (upd (pr k) c (PIn u p'))) | _ => None end
      | PIn u (Ret u') => Some (FUnlock c, mkconf (shared k) (let_go c (holder k)) (upd (pr k) c (POut u')))
      | PDead => None end
  | Kill c => match pr k c with
      | POut u => Some (FKill c None, mkconf (shared k) (let_go c (holder k)) (upd (pr k) c PDead))
      | PIn u (At line f) => Some (FKill c (Some line), mkconf (shared k) (let_go c (holder k)) (upd (pr k) c PDead))
      | _ => None end
  end.
Lemma fgo_fine mm k x e k' : fgo mm k x = Some (e, k') -> fine (usect mm) upriv k e k'.
Proof.
  destruct x as [c op|c|c]; cbn [fgo]; destruct (pr k c) as [u|u [u'|line f]|] eqn:E; try discriminate.
  - intros H; injection H as <- <-. apply f_priv with u; [exact E|]. exists op. reflexivity.
  - destruct (holder k) eqn:Eh; [discriminate|]. intros H; injection H as <- <-. apply f_lock; assumption.
  - intros H; injection H as <- <-. apply f_unlock with u. exact E.
  - destruct (f (shared k)) as [[s' p']| | |] eqn:Ef; try discriminate. intros H; injection H as <- <-. econstructor; eassumption.
  - intros H; injection H as <- <-. apply f_kill_out with u. exact E.
  - intros H; injection H as <- <-. apply f_kill_in with u f. exact E.
Qed.
Fixpoint fgos (mm : Z) (k : conf) (xs : list fcmd6) : option (list fev * conf) :=
  match xs with
  | [] => Some ([], k)
  | x :: xs => match fgo mm k x with None => None | Some (e, k') => match fgos mm k' xs with None => None | Some (t, k'') => Some (e :: t, k'') end end
  end.
Lemma fgos_fines mm k0 : forall xs t0 k t k', fines (usect mm) upriv k0 t0 k -> fgos mm k xs = Some (t, k') -> fines (usect mm) upriv k0 (t0 ++ t) k'.
Proof.
  induction xs as [|x xs IH]; intros t0 k t k' F H; cbn [fgos] in H.
  - injection H as <- <-. rewrite app_nil_r. exact F.
  - destruct (fgo mm k x) as [[e k1]|] eqn:E; [|discriminate]. destruct (fgos mm k1 xs) as [[t1 k2]|] eqn:E2; [|discriminate].
    injection H as <- <-. replace (t0 ++ e :: t1) with ((t0 ++ [e]) ++ t1) by (rewrite <- app_assoc; reflexivity).
    apply (IH _ k1); [|exact E2]. econstructor; [exact F|]. apply (fgo_fine mm _ x). exact E.
Qed.
Definition ftrace (r : ring) (xs : list fcmd6) : list fev := match fgos (r_mm r) (outside r nobody) xs with Some (t, _) => t | None => [] end.
Definition fconf (r : ring) (xs : list fcmd6) : conf := match fgos (r_mm r) (outside r nobody) xs with Some (_, k) => k | None => outside r nobody end.
Lemma fplay r xs : (if fgos (r_mm r) (outside r nobody) xs then true else false) = true ->
  fines (usect (r_mm r)) upriv (outside r nobody) (ftrace r xs) (fconf r xs).
Proof.
  unfold ftrace, fconf. destruct (fgos _ _ xs) as [[t k]|] eqn:E; [|discriminate]. intros _.
  apply (fgos_fines _ _ xs [] (outside r nobody) t k); [constructor|exact E].
Qed.
