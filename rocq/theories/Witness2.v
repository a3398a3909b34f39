(** * Concrete executions for the wake-up theorems.  Nothing here is part of
    the model. *)
From Verif Require Export BwOcc.

(** the commands of [Witness], or an shr_open in which the kernel gives the
    new socket the name [nm] *)
Inductive cmd2 := Do (k : cmd) | OpenAs (flags pid nm : Z).
Definition named (nm : Z) (e : env) : env :=
  mkenv (e_lock e) (e_msync e) (e_alloc e) (e_socket e) (e_connect e) (e_send e) (e_probe e) (e_bind e) (e_self e) (e_force e) nm (e_name2 e) (e_cap e).
Definition act2 (w : world) (k : cmd2) : action :=
  match k with Do k => act w k | OpenAs flags pid nm => AOpen (named nm (calm (w_ks w))) flags pid end.
Definition ok2_b (w : world) (k : cmd2) : bool :=
  match k with Do k => ok_b w k | OpenAs flags pid _ => ok_b w (Open flags pid) end.
Definition newname_b (w : world) (k : cmd2) : bool :=
  match act2 w k with
  | AOpen e _ _ | ARun _ e => forallb (fun s => negb (k_name s =? e_name e)) (w_ks w)
  | _ => true end.
Fixpoint play2 (strict : bool) (w : world) (ks : list cmd2) : option (world * list event) :=
  match ks with
  | [] => Some (w, [])
  | k :: t =>
      if ok2_b w k && (negb strict || newname_b w k) then
        match step w (act2 w k) with
        | Ok (w1, ev) => match play2 strict w1 t with Some (w2, ev2) => Some (w2, ev ++ ev2) | None => None end
        | _ => None
        end
      else None
  end.
Lemma named_good ks nm e : good_sockets ks e -> good_sockets ks (named nm e).
Proof. intros [A B C D E]. constructor; assumption. Qed.
Lemma act2_reliable w k : ok2_b w k = true -> reliable w (act2 w k).
Proof.
  destruct k as [k|flags pid nm]; cbn [ok2_b act2]; intros H; [apply act_faultless; exact H|].
  pose proof (act_faultless _ _ H) as [[A B] _]. cbn [act] in A, B. split; [exact A|]. cbn [good_env] in *. apply named_good. exact B.
Qed.
Lemma act2_orderly w k : ok2_b w k = true -> newname_b w k = true -> orderly w (act2 w k).
Proof.
  intros H N. assert (NN : new_names w (act2 w k)).
  { unfold newname_b in N. unfold new_names. destruct (act2 w k); auto; rewrite forallb_forall in N; intros s Hs; specialize (N s Hs); rewrite negb_true_iff, Z.eqb_neq in N; exact N. }
  split; [split; [apply act2_reliable; exact H|exact NN]|]. destruct k as [k|flags pid nm]; cbn [act2]; [|cbn; auto]. destruct k; cbn [act]; auto; cbn; auto.
Qed.
Lemma play2_exec (strict : bool) (P : world -> action -> Prop) w0 :
  (forall w k, ok2_b w k = true -> (strict = true -> newname_b w k = true) -> P w (act2 w k)) ->
  forall ks w evs w' ev, exec P w0 w evs -> play2 strict w ks = Some (w', ev) -> exec P w0 w' (evs ++ ev).
Proof.
  intros HQ. induction ks as [|k t IH]; intros w evs w' ev X H; cbn [play2] in H.
  - injection H as <- <-. rewrite app_nil_r. exact X.
  - destruct (ok2_b w k && (negb strict || newname_b w k)) eqn:Ok; [|discriminate]. apply andb_true_iff in Ok. destruct Ok as [K1 K2].
    destruct (step w (act2 w k)) as [[w1 ev1]| | |] eqn:E; try discriminate.
    destruct (play2 strict w1 t) as [[w2 ev2]|] eqn:E2; [|discriminate]. injection H as <- <-.
    rewrite app_assoc. apply (IH w1); [|exact E2]. econstructor; [exact X| |exact E]. apply HQ; [exact K1|]. intros ->. exact K2.
Qed.
Definition sw2 (strict : bool) (w0 : world) (ks : list cmd2) : world := match play2 strict w0 ks with Some (w, _) => w | None => w0 end.
Definition se2 (strict : bool) (w0 : world) (ks : list cmd2) : list event := match play2 strict w0 ks with Some (_, e) => e | None => [] end.
Definition plays2 (strict : bool) (w0 : world) (ks : list cmd2) : bool :=
  match play2 strict w0 ks with Some (_, evs) => zlen (committed evs) <? W64 | None => false end.
Lemma reach_orderly2 r fsz ks : fresh r fsz -> plays2 true (world0 r fsz) ks = true ->
  reach orderly r (sw2 true (world0 r fsz) ks) (se2 true (world0 r fsz) ks).
Proof.
  intros F H. unfold plays2, sw2, se2 in *. destruct (play2 true (world0 r fsz) ks) as [[w evs]|] eqn:E; [|discriminate]. exists fsz. split; [exact F|]. split.
  - rewrite <- (app_nil_l evs). apply (play2_exec true orderly _) with (ks := ks) (w := world0 r fsz); [|constructor|exact E]. intros; apply act2_orderly; auto.
  - intros _. apply Z.ltb_lt. exact H.
Qed.
Lemma reach_steady2 r fsz ks : fresh r fsz -> plays2 true (world0 r fsz) ks = true ->
  reach steady r (sw2 true (world0 r fsz) ks) (se2 true (world0 r fsz) ks).
Proof. intros F H. apply (reach_mono orderly); [apply orderly_steady|apply reach_orderly2; assumption]. Qed.
Lemma reach_reliable2 r fsz ks : fresh r fsz -> plays2 false (world0 r fsz) ks = true ->
  reach reliable r (sw2 false (world0 r fsz) ks) (se2 false (world0 r fsz) ks).
Proof.
  intros F H. unfold plays2, sw2, se2 in *. destruct (play2 false (world0 r fsz) ks) as [[w evs]|] eqn:E; [|discriminate]. exists fsz. split; [exact F|]. split.
  - rewrite <- (app_nil_l evs). apply (play2_exec false reliable _) with (ks := ks) (w := world0 r fsz); [|constructor|exact E]. intros; apply act2_reliable; auto.
  - intros _. apply Z.ltb_lt. exact H.
Qed.
