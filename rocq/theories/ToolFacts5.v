(** * The publisher's event loop *)
From Verif Require Export ToolFacts4.

Lemma pub_msg_wire p m acc out up : pub_msg p m acc = Ok (out, up) -> 0 < zlen m -> (exists rest, wire p [m] = out ++ rest) /\ (up = true -> out = wire p [m]).
Proof.
  intros H L. destruct p; cbn [wire frames flat_map concat]; rewrite app_nil_r.
  - apply (t_pub_prefix m acc); assumption.
  - unfold pub_msg in H. replace (zlen m =? 0) with false in H by lia. apply (pub_body_prefix acc). exact H.
Qed.
Lemma wire_app p a b : wire p (a ++ b) = wire p a ++ wire p b.
Proof. destruct p; [apply frames_app|apply concat_app]. Qed.
Lemma read_all_app a b : read_all (a ++ b) = read_all a ++ read_all b. Proof. apply flat_map_app. Qed.
Lemma read_for_snoc c t i : read_for c (t ++ [i]) = read_for c t ++ (if is_conn c i then read_all [i] else []).
Proof. unfold read_for. rewrite filter_app, read_all_app. cbn [filter]. destruct (is_conn c i); reflexivity. Qed.
Lemma sent_to_snoc c t i : sent_to c (t ++ [i]) = sent_to c t ++ (if is_conn c i then pi_out i else []).
Proof. unfold sent_to. rewrite filter_app, flat_map_app. cbn [filter]. destruct (is_conn c i); cbn; rewrite ?app_nil_r; reflexivity. Qed.

Record PubI (p : bool) (t : list pitem) (s : pst) : Prop := mkpubi {
  pu_mon : p_mon s = match p_fd s with Some _ => true | None => false end;
  pu_now : forall c, p_fd s = Some c -> (c < p_conns s)%nat /\ sent_to c t = wire p (read_for c t) /\ (forall d, (c < d)%nat -> read_for d t = [] /\ sent_to d t = []);
  pu_new : forall c, (p_conns s <= c)%nat -> read_for c t = [] /\ sent_to c t = [];
  pu_any : forall c, exists whole last x rest, read_for c t = whole ++ last /\ zlen last <= 1 /\ sent_to c t = wire p whole ++ x /\ wire p last = x ++ rest;
  pu_all : read_all t = concat (map (fun c => read_for c t) (seq 0 (p_conns s))) }.

Lemma quiet_snoc p t e o s : read_all [mkpi e o []] = [] -> (forall c, read_for c (t ++ [mkpi e o []]) = read_for c t /\ sent_to c (t ++ [mkpi e o []]) = sent_to c t)
  /\ read_all (t ++ [mkpi e o []]) = read_all t /\ (PubI p t s -> PubI p (t ++ [mkpi e o []]) s).
Proof.
  intros Q. assert (E : forall c, read_for c (t ++ [mkpi e o []]) = read_for c t /\ sent_to c (t ++ [mkpi e o []]) = sent_to c t).
  { intros c. rewrite read_for_snoc, sent_to_snoc, Q. destruct (is_conn c _); rewrite !app_nil_r; auto. }
  assert (R : read_all (t ++ [mkpi e o []]) = read_all t) by (rewrite read_all_app, Q, app_nil_r; reflexivity).
  split; [exact E|]. split; [exact R|]. intros [A B C D F]. constructor.
  - exact A.
  - intros c H. destruct (E c) as [-> ->]. destruct (B c H) as (B1 & B2 & B3). split; [exact B1|]. split; [exact B2|]. intros d Hd. destruct (E d) as [-> ->]. auto.
  - intros c H. destruct (E c) as [-> ->]. auto.
  - intros c. destruct (E c) as [-> ->]. auto.
  - rewrite R, F. f_equal. apply map_ext. intros c. destruct (E c) as [-> _]. reflexivity.
Qed.
Lemma concat_map_seq_one {A} (f g : nat -> list A) n c l : (c < n)%nat -> (forall d, d <> c -> g d = f d) -> g c = f c ++ l -> (forall d, (c < d)%nat -> f d = []) ->
  concat (map g (seq 0 n)) = concat (map f (seq 0 n)) ++ l.
Proof.
  intros Hc O Gc Z. assert (S : seq 0 n = seq 0 c ++ [c] ++ seq (S c) (n - S c)).
  { replace n with (c + S (n - S c))%nat at 1 by lia. rewrite seq_app. reflexivity. }
  rewrite S, !map_app, !concat_app. cbn [map concat]. rewrite !app_nil_r, Gc.
  rewrite (map_ext_in g f (seq 0 c)) by (intros d Hd; apply in_seq in Hd; apply O; lia).
  assert (T : forall h : nat -> list A, (forall d, (c < d)%nat -> h d = []) -> concat (map h (seq (Datatypes.S c) (n - Datatypes.S c))) = []).
  { intros h Hh. rewrite (map_ext_in h (fun _ => [])) by (intros d Hd; apply in_seq in Hd; apply Hh; lia). generalize (seq (Datatypes.S c) (n - Datatypes.S c)). induction l0; cbn; auto. }
  rewrite !T; [rewrite !app_nil_r, app_assoc; reflexivity|exact Z|]. intros d Hd. rewrite O by lia. apply Z. exact Hd.
Qed.
Lemma pub_inv p t s : pub_run p t s -> PubI p t s.
Proof.
  induction 1 as [|t s e s' out X IH HP HS].
  - constructor; cbn; try reflexivity; try discriminate; auto. intros c. exists [], [], [], []. repeat split; cbn; try lia; destruct p; reflexivity.
  - destruct e as [ok|nr|[m|] acc|al]; cbn [pub_step] in HS.
    + destruct ok; cbn [negb] in HS; [|discriminate]. destruct (quiet_snoc p t (PAccept true) (p_fd s) s eq_refl) as (E & R & Q).
      destruct (p_fd s) as [c|] eqn:Hf; injection HS as <- <-.
      * specialize (Q IH). destruct Q as [A B C D F]. constructor; cbn [p_mon p_fd p_conns].
        -- exact A.
        -- intros d Hd. change (p_fd s = Some d) in Hd. destruct (B d Hd) as (B1 & B2 & B3). split; [cbn; lia|]. auto.
        -- intros d Hd. apply C. cbn in Hd. lia.
        -- exact D.
        -- rewrite F. cbn [p_conns set]. change (p_conns (s <| p_conns := S (p_conns s) |>)) with (S (p_conns s)). rewrite seq_S, map_app, concat_app. cbn [map concat Nat.add]. destruct (C (p_conns s)) as [-> _]; [lia|]. rewrite !app_nil_r. reflexivity.
      * specialize (Q IH). destruct Q as [A B C D F]. constructor; cbn [p_mon p_fd p_conns].
        -- reflexivity.
        -- intros d Hd. injection Hd as <-. destruct (C (p_conns s)) as [C1 C2]; [lia|]. split; [lia|]. split; [rewrite C1, C2; destruct p; reflexivity|]. intros d Hd. apply C. lia.
        -- intros d Hd. apply C. lia.
        -- exact D.
        -- rewrite F, seq_S, map_app, concat_app. cbn [map concat Nat.add]. destruct (C (p_conns s)) as [-> _]; [lia|]. rewrite !app_nil_r. reflexivity.
    + cbn [polled] in HP. destruct (p_fd s) as [c|] eqn:Hf; [|discriminate]. destruct (nr <? 0); [discriminate|].
      destruct (nr =? 0); injection HS as <- <-; destruct (quiet_snoc p t (PClient nr) (Some c) s eq_refl) as (E & R & Q); [|apply Q; exact IH].
      specialize (Q IH). destruct Q as [A B C D F]. constructor; cbn; auto; discriminate.
    + cbn [polled] in HP. pose proof (pu_mon _ _ _ IH) as M. destruct (p_fd s) as [c|] eqn:Hf; [|congruence].
      destruct (pub_msg p m acc) as [[o up]| | |] eqn:PM; cbn [obind] in HS; try discriminate. injection HS as <- <-.
      assert (NS : PubI p (t ++ [mkpi (PRing (Some m) acc) (Some c) o]) s -> PubI p (t ++ [mkpi (PRing (Some m) acc) (Some c) o]) (close_client s)).
      { intros [A B C D F]. constructor; cbn; auto; discriminate. }
      destruct (Z.eq_dec (zlen m) 0) as [E0|E0].
      { unfold pub_msg in PM. rewrite E0 in PM. cbn [Z.eqb] in PM. injection PM as <- <-. apply quiet_snoc; [|exact IH]. unfold read_all. cbn [flat_map pi_ev]. rewrite E0. reflexivity. }
      pose proof (zlen_nonneg m) as L0. assert (LM : 0 < zlen m) by lia. destruct (pub_msg_wire _ _ _ _ _ PM LM) as [[rest W] U].
      assert (RA : forall o', read_all [mkpi (PRing (Some m) acc) o' o] = [m]) by (intros o'; unfold read_all; cbn [flat_map pi_ev]; replace (zlen m =? 0) with false by lia; reflexivity).
      destruct IH as [A B C D F]. destruct (B c Hf) as (B1 & B2 & B3).
      assert (SAME : forall d, d <> c -> read_for d (t ++ [mkpi (PRing (Some m) acc) (Some c) o]) = read_for d t /\ sent_to d (t ++ [mkpi (PRing (Some m) acc) (Some c) o]) = sent_to d t).
      { intros d Hd. rewrite read_for_snoc, sent_to_snoc. unfold is_conn. cbn [pi_conn]. replace (Nat.eqb d c) with false by (symmetry; apply Nat.eqb_neq; exact Hd). rewrite !app_nil_r. auto. }
      assert (HC : read_for c (t ++ [mkpi (PRing (Some m) acc) (Some c) o]) = read_for c t ++ [m] /\ sent_to c (t ++ [mkpi (PRing (Some m) acc) (Some c) o]) = sent_to c t ++ o).
      { rewrite read_for_snoc, sent_to_snoc, RA. unfold is_conn. cbn [pi_conn pi_out]. rewrite Nat.eqb_refl. auto. }
      destruct HC as [HC1 HC2].
      assert (ALL : forall s', p_conns s' = p_conns s -> p_mon s' = match p_fd s' with Some _ => true | None => false end ->
         (forall d, p_fd s' = Some d -> d = c /\ o = wire p [m]) -> PubI p (t ++ [mkpi (PRing (Some m) acc) (Some c) o]) s').
      { intros s' E1 E2 E3. constructor.
        - exact E2.
        - intros d Hd. destruct (E3 d Hd) as [-> ->]. rewrite E1. split; [exact B1|]. split; [rewrite HC1, HC2, wire_app, B2; reflexivity|]. intros d' Hd'. destruct (SAME d' ltac:(lia)) as [-> ->]. apply B3. exact Hd'.
        - intros d Hd. rewrite E1 in Hd. destruct (SAME d ltac:(lia)) as [-> ->]. apply C. exact Hd.
        - intros d. destruct (Nat.eq_dec d c) as [->|Nd]; [|destruct (SAME d Nd) as [-> ->]; apply D].
          exists (read_for c t), [m], o, rest. rewrite HC1, HC2, B2. repeat split; auto. cbn. lia.
        - rewrite read_all_app, RA, F, E1. symmetry. apply (concat_map_seq_one (fun d => read_for d t)) with (c := c); auto.
          + intros d Hd. apply SAME. exact Hd.
          + intros d Hd. apply B3. exact Hd. }
      destruct up.
      * apply ALL; auto. intros d Hd. split; [congruence|apply U; reflexivity].
      * apply ALL; auto. discriminate.
    + discriminate.
    + destruct al; [|discriminate]. injection HS as <- <-. apply quiet_snoc; [reflexivity|exact IH].
Qed.

(** ** the publisher does not crash, and when it exits *)
Lemma pub_body_ends : forall acc m, Forall (fun k => 1 <= k) acc /\ zlen m <= zlen acc \/ (exists a b, acc = a ++ -1 :: b /\ Forall (fun k => 1 <= k) a) -> 0 < zlen m -> exists x, pub_body m acc = Ok x.
Proof.
  induction acc as [|k acc IH]; intros m H L.
  - destruct H as [[_ H]|(a & b & H & _)]; [change (zlen (@nil Z)) with 0 in H; lia|destruct a; discriminate].
  - cbn [pub_body]. destruct (k <? 0) eqn:K; [eexists; reflexivity|].
    destruct (zlen (skipn (Z.to_nat (Z.min k (zlen m))) m) >? 0) eqn:G; [|eexists; reflexivity].
    destruct (IH (skipn (Z.to_nat (Z.min k (zlen m))) m)) as [[o u] E]; [|lia|rewrite E; cbn; eexists; reflexivity].
    destruct H as [[H1 H2]|(a & b & H & F)].
    + left. inversion H1; subst. split; [assumption|]. rewrite zlen_cons in H2. unfold zlen in *. rewrite skipn_length. lia.
    + right. destruct a as [|k' a]; cbn in H; injection H as -> ->; [discriminate|]. inversion F; subst. exists a, b. auto.
Qed.
Lemma pub_msg_ends p m got_acc : writes_ok p (PRing (Some m) got_acc) -> exists x, pub_msg p m got_acc = Ok x.
Proof.
  intros (k & acc & E & K & H). unfold pub_msg. destruct (Z.eqb_spec (zlen m) 0) as [Z0|Z0]; [eexists; reflexivity|]. pose proof (zlen_nonneg m).
  destruct (pub_body_ends acc m H) as [[o u] B]; [lia|]. subst got_acc. destruct p; [|eexists; exact B].
  destruct (k <? 0) eqn:Kn; [eexists; reflexivity|]. replace (4 <=? k) with true by lia. rewrite B. eexists; reflexivity.
Qed.
Lemma t_pub_safe p t s e : pub_run p t s -> polled s e = true -> writes_ok p e -> exists x, pub_step p s e = Ok x /\ (untroubled e -> x <> None).
Proof.
  intros R P W. pose proof (pu_mon _ _ _ (pub_inv _ _ _ R)) as M. destruct e as [ok|nr|[m|] acc|al]; cbn [pub_step polled untroubled] in *.
  - destruct ok; cbn [negb]; [|exists None; split; [reflexivity|discriminate]]. destruct (p_fd s); eexists; split; try reflexivity; discriminate.
  - destruct (p_fd s); [|discriminate]. destruct (Z.ltb_spec nr 0) as [L|L]; [exists None; split; [reflexivity|lia]|]. destruct (nr =? 0); eexists; split; try reflexivity; discriminate.
  - destruct (p_fd s); [|congruence]. destruct (pub_msg_ends _ _ _ W) as [[o u] E]. rewrite E. cbn [obind]. eexists. split; [reflexivity|discriminate].
  - exists None. split; [reflexivity|congruence].
  - destruct al; eexists; split; try reflexivity; congruence.
Qed.

(** ** the subscriber when shr_writev can fail *)
Lemma decode_any wrote buf : decode_frames wrote buf = match decode_frames (fun _ => true) buf with
  | Ok (SubOk (Some ms) b) => if wrote ms then Ok (SubOk (Some ms) b) else Ok SubErr | x => x end.
Proof.
  unfold decode_frames. destruct (frame_loop _ _ _ _) as [[[c iov]|]| | |]; cbn [obind]; try reflexivity. destruct iov; [reflexivity|]. cbn zeta. destruct (wrote _); reflexivity.
Qed.
Lemma subscribe_any wrote : forall ks buf x ws b, subscribe (fun _ => true) buf x ks = Ok (ws, b, true) ->
  exists ws1 ws2 b' up, subscribe wrote buf x ks = Ok (ws1, b', up) /\ ws = ws1 ++ ws2 /\ Forall (fun w => wrote w = true) ws1
    /\ (if up then ws2 = [] /\ b' = b else match ws2 with [] => False | w :: _ => wrote w = false end).
Proof.
  induction ks as [|k ks IH]; intros buf x ws b H; cbn [subscribe] in *.
  - injection H as <- <-. exists [], [], buf, true. auto.
  - destruct (zlen x =? 0); [injection H as <- <-; exists [], [], buf, true; auto|].
    unfold do_subscriber in *. destruct (zlen buf <? BUFLEN); [|discriminate]. cbn [obind] in H |- *. cbv zeta in H |- *.
    destruct (_ <=? 0); [discriminate|]. rewrite (decode_any wrote). destruct (decode_frames (fun _ => true) _) as [[|[ms|] b1]| | |]; cbn [obind] in H |- *; try discriminate.
    + destruct (subscribe (fun _ => true) b1 _ ks) as [[[ws' b''] up']| | |] eqn:S; cbn [obind] in H; try discriminate. injection H as <- <- ->.
      destruct (wrote ms) eqn:Wm; cbn [obind].
      * destruct (IH _ _ _ _ S) as (ws1 & ws2 & b' & up & E & -> & F & U). rewrite E. cbn [obind]. exists (ms :: ws1), ws2, b', up. auto.
      * exists [], (ms :: ws'), buf, false. auto.
    + destruct (subscribe (fun _ => true) b1 _ ks) as [[[ws' b''] up']| | |] eqn:S; cbn [obind] in H; try discriminate. injection H as <- <- ->.
      destruct (IH _ _ _ _ S) as (ws1 & ws2 & b' & up & E & -> & F & U). rewrite E. cbn [obind]. exists ws1, ws2, b', up. auto.
Qed.
Lemma t_sub_any wrote ms x y ks : Forall ToolSpec.fits ms -> x ++ y = frames ms ->
  exists ws b up later, subscribe wrote [] x ks = Ok (ws, b, up) /\ ms = concat ws ++ later /\ Forall (fun w => w <> [] /\ wrote w = true) ws
    /\ (up = false -> exists w l, w <> [] /\ later = w ++ l /\ wrote w = false)
    /\ (up = true -> zlen x <= zlen ks -> x = frames (concat ws) ++ b /\ match later with [] => b = [] | m :: _ => zlen b < zlen (frame m) end).
Proof.
  intros F E. destruct (t_sub ms x y ks F E) as (ws & b & later & S & M & N & T). destruct (subscribe_any wrote _ _ _ _ _ S) as (ws1 & ws2 & b' & up & S' & -> & W & U).
  rewrite concat_app, <- app_assoc in M. exists ws1, b', up, (concat ws2 ++ later). split; [exact S'|]. split; [exact M|]. apply Forall_app in N. destruct N as [N1 N2].
  split. { rewrite Forall_forall in *. auto. } split.
  - intros ->. destruct ws2 as [|w ws2]; [destruct U|]. inversion N2; subst. exists w, (concat ws2 ++ later). cbn [concat]. rewrite <- app_assoc. auto.
  - intros -> L. destruct U as [-> ->]. rewrite app_nil_r in T. cbn [concat app]. auto.
Qed.

(** ** publisher and subscriber *)
Lemma t_stream p t s : pub_run p t s ->
  (forall c, exists whole last part rest, read_for c t = whole ++ last /\ zlen last <= 1 /\ sent_to c t = wire p whole ++ part /\ wire p last = part ++ rest)
  /\ (forall c, p_fd s = Some c -> sent_to c t = wire p (read_for c t))
  /\ read_all t = concat (map (fun c => read_for c t) (seq 0 (p_conns s))).
Proof. intros R. destruct (pub_inv _ _ _ R) as [A B C D E]. split; [exact D|]. split; [|exact E]. intros c H. apply B. exact H. Qed.
Lemma t_pipe t s c x y wrote ks : pub_run true t s -> Forall ToolSpec.fits (read_for c t) -> sent_to c t = x ++ y ->
  exists ws b up later, subscribe wrote [] x ks = Ok (ws, b, up) /\ read_for c t = concat ws ++ later /\ Forall (fun w => wrote w = true) ws
    /\ (up = false -> exists w l, later = w ++ l /\ wrote w = false)
    /\ (up = true -> p_fd s = Some c -> y = [] -> zlen x <= zlen ks -> later = []).
Proof.
  intros R F E. destruct (t_stream _ _ _ R) as (D & N & _). destruct (D c) as (whole & last & part & rest & D1 & D2 & D3 & D4).
  assert (X : x ++ (y ++ rest) = frames (read_for c t)). { rewrite app_assoc, <- E, D3, <- app_assoc, <- D4, D1. symmetry. apply (wire_app true). }
  destruct (t_sub_any wrote _ x (y ++ rest) ks F X) as (ws & b & up & later & S & M & W & U1 & U2). exists ws, b, up, later. split; [exact S|]. split; [exact M|].
  split; [rewrite Forall_forall in *; intros w Hw; apply W; exact Hw|]. split.
  - intros Hu. destruct (U1 Hu) as (w & l & _ & H). exists w, l. exact H.
  - intros Hu Hc Hy L. subst y. rewrite app_nil_r in E. subst x. rewrite (N c Hc) in U2. cbn [wire] in U2. rewrite <- (N c Hc) in U2 at 1. destruct (U2 Hu L) as [Q T].
    rewrite M in Q at 1. rewrite frames_app in Q. apply app_inv_head in Q. destruct later as [|m later]; [reflexivity|]. exfalso. rewrite <- Q, frames_cons, zlen_app in T. pose proof (zlen_nonneg (frames later)). lia.
Qed.

(** ** the read command *)
Lemma read_cmd_spec max : 0 <= max -> forall rs nread, 0 <= nread -> (max = 0 \/ nread < max) ->
  (forall l rest, Forall (fun r => r <> None) l -> rs = l ++ rest -> 
     (max <> 0 -> max - nread <= zlen (messages l) -> read_cmd true max nread rs = (firstn (Z.to_nat (max - nread)) (messages l), true)))
  /\ (Forall (fun r => r <> None) rs -> (max = 0 \/ nread + zlen (messages rs) < max) -> read_cmd true max nread rs = (messages rs, false)).
Proof.
  intros Hm. induction rs as [|r rs IH]; intros nread Hn Hx; (split; [intros l rest Fl El Nz Lm|intros Fl Lm]).
  - destruct l; [|discriminate]. cbn in Lm. lia.
  - reflexivity.
  - destruct l as [|r' l]; [cbn in Lm; lia|]. cbn [app] in El. injection El as <- E. inversion Fl as [|a b Fr Fl']; subst a b. destruct r as [m|]; [|congruence]. cbn [read_cmd messages flat_map] in *. fold (messages l) in *.
    destruct (zlen m =? 0) eqn:Z0; cbn [app] in *.
    + destruct (IH nread Hn Hx) as [I _]. apply (I l rest Fl' E Nz). exact Lm.
    + replace (max >? 0) with true by lia. cbn [andb]. rewrite zlen_cons in Lm. destruct (Z.geb_spec (nread + 1) max) as [G|G].
      * replace (max - nread) with 1 by lia. reflexivity.
      * destruct (IH (nread + 1)) as [I _]; [lia|lia|]. rewrite (I l rest Fl' E Nz) by lia. replace (Z.to_nat (max - nread)) with (S (Z.to_nat (max - (nread + 1)))) by lia. reflexivity.
  - inversion Fl as [|a b Fr Fl']; subst a b. destruct r as [m|]; [|congruence]. cbn [read_cmd messages flat_map] in *. fold (messages rs) in *.
    destruct (zlen m =? 0) eqn:Z0; cbn [app] in *.
    + destruct (IH nread Hn Hx) as [_ I]. apply I; assumption.
    + rewrite zlen_cons in Lm. pose proof (zlen_nonneg (messages rs)). replace ((max >? 0) && (nread + 1 >=? max)) with false by lia.
      destruct (IH (nread + 1)) as [_ I]; [lia|lia|]. rewrite I; [reflexivity|exact Fl'|lia].
Qed.
(** a prefix of non-empty results is treated alike with and without -b *)
Lemma read_cmd_nb max rest : forall ms nread, Forall (fun m => 0 < zlen m) ms -> read_cmd false max nread (map Some ms ++ Some [] :: rest) =
  (fst (read_cmd true max nread (map Some ms)), true).
Proof.
  induction ms as [|m ms IH]; intros nread F; [reflexivity|]. inversion F as [|a b Fm F']; subst a b. cbn [map app read_cmd].
  replace (zlen m =? 0) with false by lia. destruct ((max >? 0) && (nread + 1 >=? max)); [reflexivity|]. rewrite IH by exact F'. destruct (read_cmd true max (nread + 1) (map Some ms)). reflexivity.
Qed.
Lemma messages_some ms : Forall (fun m => 0 < zlen m) ms -> messages (map Some ms) = ms.
Proof. induction 1 as [|m ms Hm _ IH]; [reflexivity|]. cbn [map messages flat_map]. fold (messages (map Some ms)). rewrite IH. replace (zlen m =? 0) with false by lia. reflexivity. Qed.
Lemma some_not_none {A} (ms : list A) : Forall (fun r => r <> None) (map Some ms).
Proof. induction ms; constructor; [discriminate|assumption]. Qed.
Lemma t_read max : 0 <= max ->
  (forall rs, Forall (fun r => r <> None) rs ->
     read_cmd true max 0 rs = (first_max max (messages rs), (0 <? max) && (max <=? zlen (messages rs))))
  /\ (forall ms rest, Forall (fun m => 0 < zlen m) ms -> read_cmd false max 0 (map Some ms ++ Some [] :: rest) = (first_max max ms, true)).
Proof.
  intros Hm. assert (P : forall rs, Forall (fun r => r <> None) rs -> read_cmd true max 0 rs = (first_max max (messages rs), (0 <? max) && (max <=? zlen (messages rs)))).
  { intros rs F. unfold first_max. destruct (read_cmd_spec max Hm rs 0 ltac:(lia) ltac:(lia)) as [A B]. destruct (Z.eqb_spec max 0) as [->|Nz].
    - rewrite B; auto.
    - destruct (Z.leb_spec max (zlen (messages rs))) as [L|L].
      + rewrite (A rs []); [|exact F|rewrite app_nil_r; reflexivity|exact Nz|lia]. rewrite Z.sub_0_r. replace (0 <? max) with true by lia. reflexivity.
      + rewrite B; [|exact F|lia]. rewrite firstn_all2 by (unfold zlen in L; lia). rewrite andb_false_r. reflexivity. }
  split; [exact P|]. intros ms rest F. rewrite read_cmd_nb by exact F. rewrite P by apply some_not_none. rewrite messages_some by exact F. reflexivity.
Qed.

(** ** more for the theorems *)
Lemma t_spec_all (addr : Type) (lookup : bytes -> option addr) h ds : ~ In 58 h -> all_digits ds = true ->
  (forall a, lookup h = Some a -> 1 <= decimal ds <= 65535 -> ds <> [] ->
     parse_spec lookup (h ++ 58 :: ds) = Some (Some a, decimal ds) /\ parse_spec lookup ds = Some (None, decimal ds))
  /\ (lookup h = None -> parse_spec lookup (h ++ 58 :: ds) = None)
  /\ (decimal ds = 0 \/ 65535 < decimal ds < 4294967296 -> parse_spec lookup (h ++ 58 :: ds) = None /\ parse_spec lookup ds = None).
Proof.
  intros N D. split; [|split].
  - intros a L R NE. split; [apply t_spec; assumption|apply t_spec_any; assumption].
  - intros L. unfold parse_spec. rewrite split_colon_spec, L by exact N. reflexivity.
  - intros R. apply t_spec_bad; assumption.
Qed.
Lemma t_spec_ok (addr : Type) (lookup : bytes -> option addr) s a p : parse_spec lookup s = Some (a, p) ->
  1 <= p <= 65535 /\ match a with
    | None => ~ In 58 s
    | Some x => exists h t, s = h ++ 58 :: t /\ ~ In 58 h /\ lookup h = Some x end.
Proof.
  intros H. apply t_spec_sound in H. destruct H as [P H]. split; [exact P|]. destruct a; [|tauto]. destruct H as (h & t & H1 & H2 & H3 & _). exists h, t. auto.
Qed.
Lemma pub_body_up : forall acc m o u, Forall (fun k => 0 <= k) acc -> pub_body m acc = Ok (o, u) -> u = true.
Proof.
  induction acc as [|k acc IH]; intros m o u F H; cbn [pub_body] in H; [discriminate|]. inversion F as [|a b Fk F']; subst a b.
  replace (k <? 0) with false in H by lia. destruct (_ >? 0); [|congruence]. destruct (pub_body _ acc) as [[o' u']| | |] eqn:E; cbn [obind] in H; try discriminate. injection H as <- <-. eapply IH; eassumption.
Qed.
Lemma pub_msg_up p m acc o u : Forall (fun k => 0 <= k) acc -> pub_msg p m acc = Ok (o, u) -> u = true.
Proof.
  intros F H. unfold pub_msg in H. destruct (zlen m =? 0); [congruence|]. destruct p; [|eapply pub_body_up; eassumption].
  destruct acc as [|k acc]; [discriminate|]. inversion F as [|a b Fk F']; subst a b. replace (k <? 0) with false in H by lia. destruct (4 <=? k); [|discriminate].
  destruct (pub_body m acc) as [[o' u']| | |] eqn:E; cbn [obind] in H; try discriminate. injection H as <- <-. eapply pub_body_up; eassumption.
Qed.
Lemma t_unbroken p t s : pub_run p t s -> (forall e o out, In (mkpi e o out) t -> forall m acc, e = PRing (Some m) acc -> Forall (fun k => 0 <= k) acc) ->
  forall c, sent_to c t = wire p (read_for c t).
Proof.
  induction 1 as [|t s e s' out X IH HP HS]; intros F c; [destruct p; reflexivity|].
  assert (F' : forall e o out, In (mkpi e o out) t -> forall m acc, e = PRing (Some m) acc -> Forall (fun k => 0 <= k) acc) by (intros; eapply F; [apply in_or_app; left|]; eassumption).
  specialize (IH F' c). rewrite sent_to_snoc, read_for_snoc, wire_app, IH. f_equal. destruct (is_conn c _); [|destruct p; reflexivity]. cbn [pi_out].
  assert (NIL : out = [] -> read_all [mkpi e (p_fd s) out] = [] -> out = wire p (read_all [mkpi e (p_fd s) out])) by (intros -> ->; destruct p; reflexivity).
  destruct e as [ok|nr|[m|] acc|al]; cbn [pub_step] in HS.
  - destruct ok; [|discriminate]. cbn [negb] in HS. destruct (p_fd s); injection HS as <- <-; apply NIL; reflexivity.
  - destruct (p_fd s); [|discriminate]. destruct (nr <? 0); [discriminate|]. destruct (nr =? 0); injection HS as <- <-; apply NIL; reflexivity.
  - destruct (p_fd s) as [d|] eqn:Hf; [|discriminate]. destruct (pub_msg p m acc) as [[o u]| | |] eqn:E; cbn [obind] in HS; try discriminate.
    assert (EO : o = out) by congruence. subst o. clear HS.
    assert (U : u = true). { eapply pub_msg_up; [|exact E]. eapply F; [apply in_or_app; right; left; reflexivity|reflexivity]. } subst u.
    unfold read_all. cbn [flat_map pi_ev]. destruct (zlen m =? 0) eqn:Z0.
    + unfold pub_msg in E. rewrite Z0 in E. injection E as <-. destruct p; reflexivity.
    + pose proof (zlen_nonneg m). apply (pub_msg_wire p m acc out true E); [lia|reflexivity].
  - discriminate.
  - destruct al; [|discriminate]. injection HS as <- <-. apply NIL; reflexivity.
Qed.

(** ** frames that arrive together, and one by one *)
Lemma sub_round wrote buf stream k : zlen buf < BUFLEN -> 1 <= k <= zlen stream -> k <= BUFLEN - zlen buf ->
  do_subscriber wrote buf stream k = do r <- decode_frames wrote (buf ++ firstn (Z.to_nat k) stream);
    match r with SubErr => Ok None | SubOk w buf' => Ok (Some (w, buf', skipn (Z.to_nat k) stream)) end.
Proof.
  intros H1 H2 H3. unfold do_subscriber. replace (zlen buf <? BUFLEN) with true by lia. cbv zeta. replace (Z.min (Z.min (Z.max 1 k) (BUFLEN - zlen buf)) (zlen stream)) with k by lia. replace (k <=? 0) with false by lia. reflexivity.
Qed.
Lemma fits_frames ms : Forall ToolSpec.fits ms -> Forall (fun m => zlen m <= MAX_FRAME) ms.
Proof. intros F. eapply Forall_impl; [|exact F]. unfold ToolSpec.fits, BUFLEN, MAX_FRAME. intros. lia. Qed.
Lemma t_burst wrote ms : ms <> [] -> Forall ToolSpec.fits ms -> zlen (frames ms) <= BUFLEN ->
  subscribe wrote [] (frames ms) [zlen (frames ms)] = Ok (if wrote ms then ([ms], [], true) else ([], [], false)).
Proof.
  intros NE F L. cbn [subscribe]. pose proof (frames_count ms) as C. assert (0 < zlen ms) by (destruct ms; [congruence|rewrite zlen_cons; pose proof (zlen_nonneg ms); lia]).
  replace (zlen (frames ms) =? 0) with false by lia. rewrite sub_round by (change (zlen (@nil Z)) with 0; unfold BUFLEN in *; lia).
  unfold zlen at 1 2. rewrite !Nat2Z.id, firstn_all, skipn_all. cbn [app].
  pose proof (decode_spec wrote ms [] (or_introl eq_refl) (fits_frames _ F)) as D. rewrite app_nil_r in D. rewrite D by exact L. cbn [obind]. destruct ms as [|m ms]; [congruence|].
  destruct (wrote (m :: ms)); reflexivity.
Qed.
Lemma t_one_by_one wrote ms : Forall ToolSpec.fits ms -> Forall (fun m => wrote [m] = true) ms ->
  subscribe wrote [] (frames ms) (map (fun m => zlen (frame m)) ms) = Ok (map (fun m => [m]) ms, [], true).
Proof.
  intros F W. induction ms as [|m ms IH]; [reflexivity|]. inversion F as [|a b Fm F']; subst a b. inversion W as [|a b Wm W']; subst a b. cbn [map subscribe].
  rewrite frames_cons, zlen_app. pose proof (frame_len m) as FL. pose proof (zlen_nonneg (frames ms)). destruct Fm as [F1 F2]. replace (zlen (frame m) + zlen (frames ms) =? 0) with false by lia.
  rewrite sub_round by (rewrite ?zlen_app; change (zlen (@nil Z)) with 0; unfold BUFLEN in *; lia). unfold zlen at 1 2. rewrite !Nat2Z.id, firstn_app, skipn_app, firstn_all, skipn_all, Nat.sub_diag. cbn [app firstn skipn]. rewrite app_nil_r.
  pose proof (decode_spec wrote [m] [] (or_introl eq_refl)) as D. cbn [frames flat_map] in D. rewrite !app_nil_r in D. rewrite D; [|constructor; [unfold BUFLEN, MAX_FRAME in *; lia|constructor]|unfold BUFLEN in *; lia].
  rewrite Wm. cbn [obind]. rewrite (IH F' W'). reflexivity.
Qed.
