From Verif Require Export Lock Crash MicroFacts.

Section Facts.
Context {S L : Type}.
Variable sect : nat -> L -> prog S L.
Variable priv : nat -> L -> L -> Prop.
Notation fine := (@fine S L sect priv).
Notation fines := (@fines S L sect priv).
Notation serials := (@serials S L sect priv).

(** part of a program executed *)
Inductive partway {R} : prog S R -> S -> prog S R -> S -> Prop :=
| pw_none p s : partway p s p s
| pw_stmt p s line f s1 s2 p2 : partway p s (At line f) s1 -> f s1 = Ok (s2, p2) -> partway p s p2 s2.
Lemma partway_exec {R} (p : prog S R) s p' s' : partway p s p' s' -> exec_all p s = exec_all p' s'.
Proof. induction 1 as [|p s line f s1 s2 p2 H IH E]; [reflexivity|]. rewrite IH. cbn [exec_all]. rewrite E. reflexivity. Qed.
Lemma partway_dies {R} (p : prog S R) s p' s' : partway p s p' s' -> forall line s'', dies_at p' s' line s'' -> dies_at p s line s''.
Proof. induction 1 as [|p s line f s1 s2 p2 H IH E]; intros l s'' D; [exact D|]. apply IH. econstructor; [exact E|exact D]. Qed.

Definition matches (k : conf) (s1 : S) (m1 : nat -> option L) : Prop :=
  match holder k with
  | None => shared k = s1 /\ forall c, pr k c = match m1 c with Some l => POut l | None => PDead end
  | Some h => (exists l p, m1 h = Some l /\ pr k h = PIn l p /\ partway (sect h l) s1 p (shared k))
      /\ forall c, c <> h -> pr k c = match m1 c with Some l => POut l | None => PDead end
  end.
Lemma upd_same {A} (f : nat -> A) c x : upd f c x c = x. Proof. unfold upd. rewrite Nat.eqb_refl. reflexivity. Qed.
Lemma upd_other {A} (f : nat -> A) c x c' : c' <> c -> upd f c x c' = f c'.
Proof. intros H. unfold upd. destruct (Nat.eqb_spec c' c); congruence. Qed.

Lemma matches_in k s1 m1 c l p : matches k s1 m1 -> pr k c = PIn l p -> holder k = Some c.
Proof.
  unfold matches. destruct (holder k) as [h|].
  - intros [_ H] E. destruct (Nat.eq_dec c h) as [->|N]; [reflexivity|]. rewrite (H c N) in E. destruct (m1 c); discriminate.
  - intros [_ H] E. rewrite H in E. destruct (m1 c); discriminate.
Qed.
Lemma matches_out k s1 m1 c l : matches k s1 m1 -> pr k c = POut l -> m1 c = Some l /\ holder k <> Some c.
Proof.
  unfold matches. destruct (holder k) as [h|].
  - intros [(l0 & p & _ & E0 & _) H] E. assert (c <> h) by congruence. rewrite (H c H0) in E.
    destruct (m1 c); [injection E as ->|discriminate]. split; congruence.
  - intros [_ H] E. rewrite H in E. destruct (m1 c); [injection E as ->|discriminate]. split; congruence.
Qed.
Lemma let_go_other c h : h <> Some c -> let_go c h = h.
Proof. destruct h as [c'|]; cbn; [|reflexivity]. intros H. destruct (Nat.eqb_spec c' c); congruence. Qed.

Lemma fines_serial s m t k : fines (outside s m) t k ->
  exists s1 m1, serials (s, m) (flat_map in_order t) (s1, m1) /\ matches k s1 m1.
Proof.
  induction 1 as [|t k1 x k2 F IH E].
  { exists s, m. split; [constructor|]. split; reflexivity. }
  destruct IH as (s1 & m1 & SS & M). rewrite flat_map_app. cbn [flat_map].
  destruct E as [k c l l' Ec Ep|k c l Ec Eh|k c l line f s' p' Ec Ef|k c l l' Ec|k c l Ec|k c l line f Ec]; cbn [in_order app].
  - destruct (matches_out _ _ _ _ _ M Ec) as [Em Nh]. exists s1, (upd m1 c (Some l')). split.
    { econstructor; [exact SS|]. econstructor; eassumption. }
    unfold matches in *. cbn [holder shared pr]. destruct (holder k) as [h|].
    + assert (Nc : h <> c) by congruence. destruct M as [(l0 & p & A & B & C) D]. split.
      * exists l0, p. rewrite !upd_other by exact Nc. auto.
      * intros c' N'. unfold upd. destruct (Nat.eqb c' c); [reflexivity|apply D, N'].
    + destruct M as [A D]. split; [exact A|]. intros c'. unfold upd. destruct (Nat.eqb c' c); [reflexivity|apply D].
  - destruct (matches_out _ _ _ _ _ M Ec) as [Em Nh]. exists s1, m1. rewrite app_nil_r. split; [exact SS|].
    unfold matches in *. cbn [holder shared pr]. rewrite Eh in M. destruct M as [A D]. split.
    + exists l, (sect c l). split; [exact Em|]. split; [apply upd_same|]. rewrite A. constructor.
    + intros c' N'. rewrite upd_other by exact N'. apply D.
  - pose proof (matches_in _ _ _ _ _ _ M Ec) as Eh. exists s1, m1. rewrite app_nil_r. split; [exact SS|].
    unfold matches in *. cbn [holder shared pr]. rewrite Eh in *. destruct M as [(l0 & p & A & B & C) D]. split.
    + rewrite Ec in B. injection B as <- <-. exists l, p'. split; [exact A|]. split; [apply upd_same|]. econstructor; eassumption.
    + intros c' N'. rewrite upd_other by exact N'. apply D, N'.
  - pose proof (matches_in _ _ _ _ _ _ M Ec) as Eh. unfold matches in M. rewrite Eh in M. destruct M as [(l0 & p & A & B & C) D].
    rewrite Ec in B. injection B as <- <-. apply partway_exec in C. cbn [exec_all] in C.
    exists (shared k), (upd m1 c (Some l')). split.
    { econstructor; [exact SS|]. econstructor; eassumption. }
    unfold matches. cbn [holder shared pr]. rewrite Eh. cbn [let_go]. rewrite Nat.eqb_refl. split; [reflexivity|].
    intros c'. unfold upd. destruct (Nat.eqb_spec c' c); [reflexivity|apply D; assumption].
  - destruct (matches_out _ _ _ _ _ M Ec) as [Em Nh]. exists s1, (upd m1 c None). split.
    { econstructor; [exact SS|]. econstructor; eassumption. }
    unfold matches in *. cbn [holder shared pr]. rewrite let_go_other by exact Nh. destruct (holder k) as [h|].
    + assert (Nc : h <> c) by congruence. destruct M as [(l0 & p & A & B & C) D]. split.
      * exists l0, p. rewrite !upd_other by exact Nc. auto.
      * intros c' N'. unfold upd. destruct (Nat.eqb c' c); [reflexivity|apply D, N'].
    + destruct M as [A D]. split; [exact A|]. intros c'. unfold upd. destruct (Nat.eqb c' c); [reflexivity|apply D].
  - pose proof (matches_in _ _ _ _ _ _ M Ec) as Eh. unfold matches in M. rewrite Eh in M. destruct M as [(l0 & p & A & B & C) D].
    rewrite Ec in B. injection B as <- <-.
    exists (shared k), (upd m1 c None). split.
    { econstructor; [exact SS|]. econstructor; [exact A|]. apply (partway_dies _ _ _ _ C). constructor. }
    unfold matches. cbn [holder shared pr]. rewrite Eh. cbn [let_go]. rewrite Nat.eqb_refl. split; [reflexivity|].
    intros c'. unfold upd. destruct (Nat.eqb_spec c' c); [reflexivity|apply D; assumption].
Qed.

Lemma l_exclusion s m t k c c' l l' p p' : fines (outside s m) t k -> pr k c = PIn l p -> pr k c' = PIn l' p' -> c = c'.
Proof.
  intros F E E'. destruct (fines_serial _ _ _ _ F) as (s1 & m1 & _ & M).
  pose proof (matches_in _ _ _ _ _ _ M E). pose proof (matches_in _ _ _ _ _ _ M E'). congruence.
Qed.
Lemma l_holder s m t k h : fines (outside s m) t k -> holder k = Some h ->
  exists s1 m1 l p, serials (s, m) (flat_map in_order t) (s1, m1) /\ m1 h = Some l /\ pr k h = PIn l p
    /\ partway (sect h l) s1 p (shared k)
    /\ forall c, c <> h -> pr k c = match m1 c with Some l => POut l | None => PDead end.
Proof.
  intros F E. destruct (fines_serial _ _ _ _ F) as (s1 & m1 & SS & M). unfold matches in M. rewrite E in M.
  destruct M as [(l & p & A & B & C) D]. exists s1, m1, l, p. auto.
Qed.
Lemma l_free s m t k : fines (outside s m) t k -> holder k = None ->
  exists m1, serials (s, m) (flat_map in_order t) (shared k, m1)
    /\ forall c, pr k c = match m1 c with Some l => POut l | None => PDead end.
Proof.
  intros F E. destruct (fines_serial _ _ _ _ F) as (s1 & m1 & SS & M). unfold matches in M. rewrite E in M.
  destruct M as [<- D]. exists m1. auto.
Qed.
End Facts.

(** ** rings *)
Lemma exec_pmap {S A B} (g : A -> B) : forall (p : prog S A) s, exec_all (pmap g p) s
  = match exec_all p s with Ok (s', x) => Ok (s', g x) | Abort => Abort | UB => UB | Stuck => Stuck end.
Proof.
  fix IH 1. intros [x|line f] s; cbn [pmap exec_all]; [reflexivity|].
  destruct (f s) as [[s' p']| | |]; [apply IH|reflexivity..].
Qed.
Lemma works_step s op a x : works_as_queue s -> aq_step (abs s) op = Some (a, x) ->
  exists s', r_step s op = Ok (s', x) /\ abs s' = a /\ works_as_queue s'.
Proof.
  intros H E. destruct (H [op] a [x]) as (s' & R & A). { cbn [aq_run]. rewrite E. reflexivity. }
  cbn [r_run] in R. destruct (r_step s op) as [[s1 y]| | |] eqn:ER; cbn [obind] in R; try discriminate. injection R as <- <-.
  exists s1. split; [reflexivity|]. split; [exact A|]. intros ops a' xs Ea.
  destruct (H (op :: ops) a' (y :: xs)) as (s2 & R2 & A2).
  { cbn [aq_run]. rewrite E, <- A, Ea. reflexivity. }
  cbn [r_run] in R2. rewrite ER in R2. cbn [obind] in R2.
  destruct (r_run s1 ops) as [[s3 ys]| | |]; cbn [obind] in R2; try discriminate.
  assert (s3 = s2 /\ ys = xs) as [-> ->] by (split; congruence). exists s2. auto.
Qed.
Lemma usect_exec s c done op s' x : r_step s op = Ok (s', x) ->
  exec_all (usect (r_mm s) c (done, Some op)) s = Ok (s', (done ++ [(op, x)], None)).
Proof.
  destruct op as [iov|q md buf niov]; cbn [r_step usect]; intros H; rewrite exec_pmap.
  - destruct (ring_write s (r_mm s) iov (nbytes iov)) as [o| | |] eqn:E; cbn [obind] in H; try discriminate.
    rewrite (write_exec _ _ _ _ _ _ E). destruct o as [r'|]; injection H as <- <-; reflexivity.
  - destruct (ring_read s q md buf niov) as [[[q' md'] o]| | |] eqn:E; cbn [obind] in H; try discriminate.
    rewrite (read_exec _ _ _ _ _ _ _ _ E). destruct o as [[y cur]|]; injection H as <- <-; reflexivity.
Qed.

Lemma own_app c a b : own c (a ++ b) = own c a ++ own c b.
Proof. unfold own. rewrite filter_app, map_app. reflexivity. Qed.
Lemma own_one c c' x : own c [(c', x)] = if Nat.eqb c' c then [x] else [].
Proof. unfold own. cbn [filter fst]. destruct (Nat.eqb c' c); reflexivity. Qed.
Lemma aq_run_app : forall ops a ops', aq_run a (ops ++ ops') =
  match aq_run a ops with None => None | Some (a', xs) => match aq_run a' ops' with None => None | Some (a'', ys) => Some (a'', xs ++ ys) end end.
Proof.
  induction ops as [|op ops IH]; intros a ops'; cbn [app aq_run].
  - destruct (aq_run a ops') as [[a'' ys]|]; reflexivity.
  - destruct (aq_step a op) as [[a' x]|]; [|reflexivity]. rewrite IH. destruct (aq_run a' ops) as [[a1 xs]|]; [|reflexivity].
    destruct (aq_run a1 ops') as [[a2 ys]|]; reflexivity.
Qed.
Lemma aq_step_mm a op a' x : aq_step a op = Some (a', x) -> q_mm a' = q_mm a.
Proof.
  destruct op as [iov|q md buf niov]; cbn [aq_step].
  - destruct (_ && _); [|discriminate]. destruct (_ || _); intros E; injection E as <- _; reflexivity.
  - destruct (_ && _); [|discriminate]. destruct (q_farm a).
    + destruct (_ && _); [|discriminate]. intros E; injection E as <- _; reflexivity.
    + intros E; injection E as <- _; reflexivity.
Qed.
Lemma aq_run_mm : forall ops a a' xs, aq_run a ops = Some (a', xs) -> q_mm a' = q_mm a.
Proof.
  induction ops as [|op ops IH]; intros a a' xs H; cbn [aq_run] in H; [injection H as <- _; reflexivity|].
  destruct (aq_step a op) as [[a1 x]|] eqn:E; [|discriminate]. destruct (aq_run a1 ops) as [[a2 ys]|] eqn:E2; [|discriminate].
  injection H as <- _. rewrite (IH _ _ _ E2). apply (aq_step_mm _ _ _ _ E).
Qed.

Fixpoint sects (t : list sev) : list nat := match t with [] => [] | SSect c :: t => c :: sects t | _ :: t => sects t end.
Lemma sects_app a b : sects (a ++ b) = sects a ++ sects b.
Proof. induction a as [|x a IH]; [reflexivity|]. destruct x; cbn [app sects]; rewrite IH; reflexivity. Qed.
Lemma sects_unlocks t : sects (flat_map in_order t) = unlocks t.
Proof. induction t as [|x t IH]; [reflexivity|]. destruct x; cbn [flat_map in_order app sects unlocks]; rewrite ?IH; reflexivity. Qed.
Definition no_killS (t : list sev) : bool := forallb (fun e => match e with SKill _ _ => false | _ => true end) t.
Lemma no_kill_S t : no_kill t = no_killS (flat_map in_order t).
Proof. induction t as [|x t IH]; [reflexivity|]. unfold no_kill, no_killS in *. destruct x; cbn [flat_map in_order app forallb andb]; rewrite ?IH; reflexivity. Qed.

(** the serial history, as a queue *)
Lemma serial_queue r0 (W : works_as_queue r0) : forall t s1 m1,
  serials (usect (r_mm r0)) upriv (r0, nobody) t (s1, m1) -> no_killS t = true ->
  exists all, map fst all = sects t /\ (forall c, exists todo, m1 c = Some (own c all, todo))
    /\ (forall a xs, aq_run (abs r0) (did all) = Some (a, xs) -> xs = saw all /\ a = abs s1 /\ works_as_queue s1).
Proof.
  intros t s1 m1 H. remember (s1, m1) as y eqn:Ey. revert s1 m1 Ey.
  induction H as [|t x1 e x2 SS IH E]; intros s2 m2 Ey K.
  { injection Ey as <- <-. exists []. split; [reflexivity|]. split; [intros c; exists None; reflexivity|].
    cbn. intros a xs Ea. injection Ea as <- <-. auto. }
  unfold no_killS in K. rewrite forallb_app in K. apply andb_true_iff in K. destruct K as [K Ke].
  destruct x1 as [s1 m1]. destruct (IH s1 m1 eq_refl K) as (all & A & B & C). clear IH.
  inversion E as [s m c l l' Em Ep|s m c l s' l' Em Ex|s m c l Em|s m c l line s' Em D]; subst; try discriminate Ke; match goal with H : (_, _) = (_, _) |- _ => injection H as <- <- end.
  - exists all. rewrite sects_app. cbn [sects]. rewrite app_nil_r. split; [exact A|]. split; [|exact C].
    intros c'. unfold upd. destruct (Nat.eqb_spec c' c) as [->|_]; [|apply B].
    destruct (B c) as [todo Eb]. rewrite Em in Eb. injection Eb as ->. destruct Ep as [op ->]. exists (Some op). reflexivity.
  - destruct (B c) as [todo Eb]. rewrite Em in Eb. injection Eb as ->.
    destruct todo as [op|]; [|discriminate Ex].
    assert (G : exists x, l' = (own c all ++ [(op, x)], None)).
    { clear - Ex. destruct op as [iov|q md buf niov]; cbn [usect] in Ex; rewrite exec_pmap in Ex;
        match type of Ex with match ?z with _ => _ end = _ => destruct z as [[s2 y]| | |] end; try discriminate; injection Ex as <- <-; eexists; reflexivity. }
    destruct G as [x ->]. exists (all ++ [(c, (op, x))]). rewrite map_app, sects_app, A. split; [reflexivity|]. split.
    + intros c'. rewrite own_app, own_one. unfold upd. rewrite (Nat.eqb_sym c c').
      destruct (Nat.eqb_spec c' c) as [->|_]; [exists None; reflexivity|]. destruct (B c') as [todo Eb]. exists todo. rewrite Eb, app_nil_r. reflexivity.
    + intros a xs Ea. unfold did, saw in *. rewrite map_app in *. cbn [map fst snd] in *. rewrite aq_run_app in Ea.
      destruct (aq_run (abs r0) _) as [[a1 xs1]|] eqn:E1; [|discriminate]. destruct (C a1 xs1 eq_refl) as (-> & -> & W1).
      cbn [aq_run] in Ea. destruct (aq_step (abs s1) op) as [[a2 y]|] eqn:E2; [|discriminate]. injection Ea as <- <-.
      destruct (works_step _ _ _ _ W1 E2) as (s3 & R & As & W3).
      pose proof (aq_run_mm _ _ _ _ E1) as Emm. cbn [abs q_mm] in Emm.
      rewrite <- Emm in Ex. rewrite (usect_exec s1 c (own c all) op s3 y R) in Ex.
      assert (s3 = s' /\ y = x) as [-> ->]. { injection Ex as -> Ex. apply app_inj_tail in Ex. destruct Ex as [_ Ex]. split; congruence. }
      auto.
Qed.

Lemma l_queue r0 t k : works_as_queue r0 -> fines (usect (r_mm r0)) upriv (outside r0 nobody) t k -> no_kill t = true ->
  exists all, map fst all = unlocks t
    /\ (forall c, match pr k c with POut u => fst u = own c all | PIn u _ => fst u = own c all | PDead => False end)
    /\ (forall a xs, aq_run (abs r0) (did all) = Some (a, xs) ->
          xs = saw all
          /\ match holder k with
             | None => a = abs (shared k) /\ works_as_queue (shared k)
             | Some h => forall done op line f, pr k h = PIn (done, Some op) (At line f) -> aq_step a op <> None ->
                 exists s' p', f (shared k) = Ok (s', p')
             end).
Proof.
  intros W F K. rewrite no_kill_S in K. destruct (fines_serial _ _ _ _ _ _ F) as (s1 & m1 & SS & M).
  destruct (serial_queue r0 W _ _ _ SS K) as (all & A & B & C). exists all. rewrite <- sects_unlocks. split; [exact A|].
  unfold matches in M. destruct (holder k) as [h|].
  - destruct M as [(l & p & Em & Ep & PW) D]. split.
    + intros c. destruct (Nat.eq_dec c h) as [->|N].
      * rewrite Ep. destruct (B h) as [todo Eb]. rewrite Em in Eb. injection Eb as ->. reflexivity.
      * rewrite (D c N). destruct (B c) as [todo ->]. reflexivity.
    + intros a xs Ea. destruct (C a xs Ea) as (-> & -> & W1). split; [reflexivity|].
      intros done op line f Ef N. rewrite Ep in Ef. injection Ef as -> ->.
      destruct (aq_step (abs s1) op) as [[a2 y]|] eqn:E2; [|congruence].
      destruct (works_step _ _ _ _ W1 E2) as (s3 & R & _).
      pose proof (aq_run_mm _ _ _ _ Ea) as Emm. cbn [abs q_mm] in Emm.
      apply partway_exec in PW. rewrite <- Emm, (usect_exec s1 h _ op s3 y R) in PW. cbn [exec_all] in PW.
      destruct (f (shared k)) as [[s' p']| | |] eqn:Ef; try discriminate. exists s', p'. auto.
  - destruct M as [<- D]. split.
    + intros c. rewrite (D c). destruct (B c) as [todo ->]. reflexivity.
    + intros a xs Ea. destruct (C a xs Ea) as (-> & -> & W1). auto.
Qed.
