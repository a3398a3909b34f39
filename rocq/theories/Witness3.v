(** * Concrete histories of a file system.  Not part of the model. *)
From Verif Require Export Witness FsFacts.

Inductive fcmd :=
| Init (a : iargs) | Sys (p : nat) (ok : bool) | Kill (p : nat) | Look (q : string)
| On (i : nat) (k : cmd) | Rm (q : string).
Definition fact (s : fs) (x : fcmd) : faction :=
  match x with
  | Init a => FInit a | Sys p ok => FStep p ok | Kill p => FKill p | Look q => FLook q
  | On i k => match ring_at s i with
              | Some w => FAct i (act w k)
              | None => FAct i (act (world0 (new_ring 1 0 0 []) 0) k) end
  | Rm q => FRemove q
  end.
Definition args_b (a : iargs) : bool :=
  (0 <=? ia_data a) && (0 <=? ia_flags a) && (0 <=? ia_max a)
  && match lay a with
     | Ok (Some l) => SIZEOF_CTRL + ia_data a + SIZEOF_PTR + SIZEOF_MSG * l_mm l + zlen (ia_app a) <=? SSIZE_MAX
     | _ => true end.
Lemma args_sound a : args_b a = true -> args_ok a.
Proof.
  unfold args_b, args_ok. rewrite !andb_true_iff, !Z.leb_le. intros [[[H1 H2] H3] H4]. repeat split; try assumption.
  intros l E. rewrite E in H4. apply Z.leb_le. exact H4.
Qed.
Definition fok (s : fs) (x : fcmd) : bool :=
  match x with
  | Init a => args_b a
  | On i k => match ring_at s i with Some w => ok_b w k | None => true end
  | _ => true
  end.
Lemma fact_ok s x : fok s x = true -> fcontract s (fact s x).
Proof.
  destruct x as [a|p ok|p|q|i k|q]; cbn [fok fact fcontract]; intros H; auto.
  - apply args_sound. exact H.
  - destruct (ring_at s i) as [w|] eqn:E; cbn [fcontract]; intros w' E'; [|congruence].
    assert (w' = w) by congruence. subst w'. apply faultless_contract. apply act_faultless. exact H.
Qed.
Fixpoint fplay (s : fs) (l : list fcmd) : option (fs * list fevent) :=
  match l with
  | [] => Some (s, [])
  | x :: t =>
      if fok s x then
        match fstep s (fact s x) with
        | Ok (s1, e1) => match fplay s1 t with Some (s2, e2) => Some (s2, e1 ++ e2) | None => None end
        | _ => None
        end
      else None
  end.
Lemma fplay_exec : forall l s evs s' e, fexec s evs -> fplay s l = Some (s', e) -> fexec s' (evs ++ e).
Proof.
  induction l as [|x t IH]; intros s evs s' e X H; cbn [fplay] in H.
  - injection H as <- <-. rewrite app_nil_r. exact X.
  - destruct (fok s x) eqn:Ok; [|discriminate]. destruct (fstep s (fact s x)) as [[s1 e1]| | |] eqn:E; try discriminate.
    destruct (fplay s1 t) as [[s2 e2]|] eqn:E2; [|discriminate]. injection H as <- <-.
    rewrite app_assoc. apply (IH s1); [|exact E2]. econstructor; [exact X|apply fact_ok; exact Ok|exact E].
Qed.
Lemma fplay0 l s e : fplay fs0 l = Some (s, e) -> fexec s e.
Proof. intros H. exact (fplay_exec l fs0 [] s e fexec_nil H). Qed.
