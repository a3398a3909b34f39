(** * Scripts with power failures: witnesses for C85.
    Nothing here is part of the model. *)
From Verif Require Import CrashFinal.
From Verif Require Export DiskWitness Witness2 RebootWake.

Definition slot_dec (a b : slot) : {a = b} + {a <> b}. Proof. decide equality; apply Z.eq_dec. Defined.
Definition stat_dec (a b : rstat) : {a = b} + {a <> b}. Proof. decide equality; try apply Z.eq_dec. decide equality; apply Z.eq_dec. Defined.
Definition ring_dec (a b : ring) : {a = b} + {a <> b}.
Proof. decide equality; try apply Z.eq_dec; try (apply list_eq_dec; apply Z.eq_dec); [apply list_eq_dec, slot_dec|apply stat_dec]. Defined.
Definition opened_b (evs : list event) : bool := existsb (fun e => match e with EOpen _ (Some _) => true | _ => false end) evs.
Lemma opened_sound evs : opened_b evs = true -> was_opened evs.
Proof. unfold opened_b. rewrite existsb_exists. intros (e & I & H). destruct e as [f [c|]| | | |]; try discriminate. exists f, c. exact I. Qed.

(** the power fails between sections; or before the [n]th statement of [c]'s
    section (of the [j]th without the disk), and the first ([new] = false) or
    the last contents of the file are on the disk *)
Inductive rcmd := R (k : cmd) | Power | PowerIn (new : bool) (c n j : nat).
Definition both (w : world) (a : action) : Prop := faultless w a /\ steady w a.
Definition rok (w : world) (k : cmd) : bool := ok_b w k && newname_b w (Do k).
Lemma rok_both w k : rok w k = true -> both w (act w k).
Proof. unfold rok. rewrite andb_true_iff. intros [H N]. split; [apply act_faultless, H|]. apply orderly_steady. exact (act2_orderly w (Do k) H N). Qed.
Definition pick (new : bool) (u : store) : option image := match u with Some (x :: l) => Some (if new then x else last (x :: l) x) | _ => None end.
Lemma pick_survives new u x : pick new u = Some x -> survives u x.
Proof.
  destruct u as [[|y l]|]; try discriminate. unfold pick. intros H. assert (E : x = if new then y else last (y :: l) y) by congruence. rewrite E. apply survives_in. destruct new; [left; reflexivity|]. apply last_in. discriminate.
Qed.
Definition power_in (w : world) (u : store) (evs : list event) (new : bool) (c n j : nat) : option (world * store * list event) :=
  let e := calm (w_ks w) in
  match pick new (noted w u c n), kill_at n (dprog w (ARun c e)) (shared w, u), kill_at j (section e (cli w c)) (shared w) with
  | Some x, Some _, Some (line, m) =>
      if c_live (cli w c) && untorn w c m line && opened_b evs && rok w (Run c) && (if ring_dec (im_ring x) (sh_ring m) then true else false)
      then Some (off (killed w c m) x, Some [x], kill_events w c line ++ gone (killed w c m)) else None
  | _, _, _ => None
  end.
Definition rplay1 (mid : bool) (w : world) (u : store) (evs : list event) (k : rcmd) : option (world * store * list event) :=
  match k with
  | R k => if rok w k then
             match step w (act w k), exec_all (dprog w (act w k)) (shared w, u) with
             | Ok (w1, ev), Ok ((_, u1), tt) => Some (w1, u1, ev)
             | _, _ => None
             end
           else None
  | Power => match pick true u with
             | Some x => if opened_b evs then Some (off w x, Some [x], gone w) else None
             | None => None
             end
  | PowerIn new c n j => if mid then power_in w u evs new c n j else None
  end.
Fixpoint rplay (mid : bool) (w : world) (u : store) (evs : list event) (ks : list rcmd) : option (world * store * list event) :=
  match ks with
  | [] => Some (w, u, evs)
  | k :: t => match rplay1 mid w u evs k with Some (w1, u1, ev) => rplay mid w1 u1 (evs ++ ev) t | None => None end
  end.
Lemma rplay_exec mid w0 : forall ks w u evs w' u' evs', rexec mid both w0 w evs u -> rplay mid w u evs ks = Some (w', u', evs') -> rexec mid both w0 w' evs' u'.
Proof.
  induction ks as [|k t IH]; intros w u evs w' u' evs' X H; cbn [rplay] in H; [injection H as <- <- <-; exact X|].
  destruct (rplay1 mid w u evs k) as [[[w1 u1] ev]|] eqn:E; [|discriminate]. refine (IH _ _ _ _ _ _ _ H). destruct k as [k| |new c n j]; cbn [rplay1] in E.
  - destruct (rok w k) eqn:Ek; [|discriminate E]. destruct (step w (act w k)) as [[w2 ev2]| | |] eqn:Es; try discriminate E.
    destruct (exec_all (dprog w (act w k)) (shared w, u)) as [[[m u2] []]| | |] eqn:Ed; try discriminate E. injection E as <- <- <-.
    eapply rx_step; [exact X|apply rok_both, Ek|exact Es|exact Ed].
  - destruct (pick true u) as [x|] eqn:Ex; [|discriminate E]. destruct (opened_b evs) eqn:Eo; [|discriminate E]. injection E as <- <- <-.
    apply (rx_power mid both w0 w evs u x X (opened_sound _ Eo) (pick_survives _ _ _ Ex)).
  - destruct mid eqn:Em; [|discriminate E]. unfold power_in in E. destruct (pick new (noted w u c n)) as [x|] eqn:Ex; [|discriminate E].
    destruct (kill_at n (dprog w (ARun c (calm (w_ks w)))) (shared w, u)) as [tm|] eqn:Ed; [|discriminate E].
    destruct (kill_at j (section (calm (w_ks w)) (cli w c)) (shared w)) as [[line m]|] eqn:Ej; [|discriminate E].
    destruct (c_live (cli w c)) eqn:L; [|discriminate E]. destruct (untorn w c m line) eqn:U; [|discriminate E]. destruct (opened_b evs) eqn:Eo; [|discriminate E].
    destruct (rok w (Run c)) eqn:Ek; [|discriminate E]. destruct (ring_dec (im_ring x) (sh_ring m)) as [Er|]; [|discriminate E]. cbn [andb] in E. injection E as <- <- <-.
    apply (rx_power_in true both w0 w evs u c (calm (w_ks w)) x line m eq_refl X (opened_sound _ Eo)); [apply (rok_both w (Run c) Ek)|exact L| |apply kill_dies in Ej; exact Ej|exact U|exact Er].
    apply (fails_script w u c n); [rewrite Ed; reflexivity|]. exact (pick_survives _ _ _ Ex).
Qed.
Definition rafter (mid : bool) (w0 : world) (ks : list rcmd) : world * store * list event := match rplay mid w0 None [] ks with Some x => x | None => (w0, None, []) end.
Definition rw mid w0 ks : world := fst (fst (rafter mid w0 ks)).
Definition ru mid w0 ks : store := snd (fst (rafter mid w0 ks)).
Definition re mid w0 ks : list event := snd (rafter mid w0 ks).
Definition rplays (mid : bool) (w0 : world) (ks : list rcmd) : bool := match rplay mid w0 None [] ks with Some (_, _, evs) => zlen (committed evs) <? W64 | None => false end.
Lemma rreach_script mid r fsz ks : fresh r fsz -> rplays mid (world0 r fsz) ks = true ->
  rreach mid both r (rw mid (world0 r fsz) ks) (re mid (world0 r fsz) ks) (ru mid (world0 r fsz) ks).
Proof.
  intros F H. unfold rplays, rw, re, ru, rafter in *. destruct (rplay mid (world0 r fsz) None [] ks) as [[[w u] evs]|] eqn:E; [|discriminate].
  exists fsz. split; [exact F|]. split; [|intros _; apply Z.ltb_lt in H; exact H]. cbn [fst snd]. exact (rplay_exec mid _ ks _ _ _ _ _ _ (rx_nil _ _ _) E).
Qed.
Lemma rexec_mono mid (P Q : world -> action -> Prop) w0 w evs u : (forall w a, P w a -> Q w a) -> rexec mid P w0 w evs u -> rexec mid Q w0 w evs u.
Proof.
  intros H. induction 1; [apply rx_nil|eapply rx_step|eapply rx_power|eapply rx_power_in|eapply rx_power_open|eapply rx_power_end]; eauto.
Qed.
Lemma rreach_faultless mid r w evs u : rreach mid both r w evs u -> rreach mid faultless r w evs u.
Proof. intros (fsz & F & X & B). exists fsz. split; [exact F|]. split; [|exact B]. apply (rexec_mono mid both); [intros w1 a [H _]; exact H|exact X]. Qed.
