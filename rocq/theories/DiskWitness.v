(** * Scripts on rings with SHR_SYNC: witnesses for C83, C84.
    Nothing here is part of the model. *)
From Verif Require Import CrashFinal.
From Verif Require Export Witness DiskFinal.

(** ** scripts *)
Inductive dcmd := D (k : cmd) | NoSync (c : nat).     (* [c] runs, and msync fails *)
Definition unsync (e : env) : env := mkenv (e_lock e) false (e_alloc e) (e_socket e) (e_connect e) (e_send e) (e_probe e) (e_bind e) (e_self e) (e_force e) (e_name e) (e_name2 e) (e_cap e).
Definition dact (w : world) (k : dcmd) : action := match k with D k => act w k | NoSync c => ARun c (unsync (calm (w_ks w))) end.
Definition dok (strict : bool) (w : world) (k : dcmd) : bool := match k with D k => ok_b w k | NoSync _ => negb strict end.
Fixpoint dplay (strict : bool) (w : world) (u : store) (ks : list dcmd) : option (world * store * list event) :=
  match ks with
  | [] => Some (w, u, [])
  | k :: t =>
      if dok strict w k then
        match step w (dact w k), exec_all (dprog w (dact w k)) (shared w, u) with
        | Ok (w1, ev), Ok ((_, u1), tt) => match dplay strict w1 u1 t with Some (w2, u2, ev2) => Some (w2, u2, ev ++ ev2) | None => None end
        | _, _ => None
        end
      else None
  end.
Definition drule (strict : bool) : world -> action -> Prop := if strict then faultless else contract.
Lemma dok_rule strict w k : dok strict w k = true -> drule strict w (dact w k).
Proof.
  destruct k as [k|c]; cbn [dok dact]; [|destruct strict; [discriminate|]; intros _; exact Logic.I].
  intros H. pose proof (act_faultless w k H) as F. destruct strict; [exact F|apply faultless_contract, F].
Qed.
Lemma dplay_exec strict w0 : forall ks w u evs w' u' ev, dexec (drule strict) w0 w evs u -> dplay strict w u ks = Some (w', u', ev) -> dexec (drule strict) w0 w' (evs ++ ev) u'.
Proof.
  induction ks as [|k t IH]; intros w u evs w' u' ev X H; cbn [dplay] in H; [injection H as <- <- <-; rewrite app_nil_r; exact X|].
  destruct (dok strict w k) eqn:Ek; [|discriminate]. destruct (step w (dact w k)) as [[w1 ev1]| | |] eqn:Es; try discriminate H.
  destruct (exec_all (dprog w (dact w k)) (shared w, u)) as [[[m u1] []]| | |] eqn:Ed; try discriminate H.
  destruct (dplay strict w1 u1 t) as [[[w2 u2] ev2]|] eqn:E2; [|discriminate H]. injection H as <- <- <-. rewrite app_assoc.
  eapply IH; [|exact E2]. econstructor; [exact X|apply dok_rule, Ek|exact Es|exact Ed].
Qed.
Definition dafter (strict : bool) (w0 : world) (ks : list dcmd) : world * store * list event := match dplay strict w0 None ks with Some x => x | None => (w0, None, []) end.
Definition dw strict w0 ks : world := fst (fst (dafter strict w0 ks)).
Definition du strict w0 ks : store := snd (fst (dafter strict w0 ks)).
Definition de strict w0 ks : list event := snd (dafter strict w0 ks).
Definition dplays (strict : bool) (w0 : world) (ks : list dcmd) : bool := match dplay strict w0 None ks with Some (_, _, evs) => zlen (committed evs) <? W64 | None => false end.
Lemma dreach_script strict r fsz ks : fresh r fsz -> dplays strict (world0 r fsz) ks = true ->
  dreach (drule strict) r (dw strict (world0 r fsz) ks) (de strict (world0 r fsz) ks) (du strict (world0 r fsz) ks).
Proof.
  intros F H. unfold dplays, dw, de, du, dafter in *. destruct (dplay strict (world0 r fsz) None ks) as [[[w u] evs]|] eqn:E; [|discriminate].
  exists fsz. split; [exact F|]. split; [|intros _; apply Z.ltb_lt in H; exact H]. cbn [fst snd].
  exact (dplay_exec strict _ ks _ _ [] _ _ _ (dx_nil _ _) E).
Qed.

(** ** images *)
Lemma survives_in l x : In x l -> survives (Some l) x.
Proof. intros I p _. exists x. split; [exact I|]. repeat split. Qed.
(** page 0 as in [s0], the others as in [s1] *)
Definition half_new (s0 s1 : image) : image :=
  mkim (im_ring s0 <| r_d := firstn 2312 (r_d (im_ring s0)) ++ skipn 2312 (r_d (im_ring s1)) |> <| r_mv := r_mv (im_ring s1) |> <| r_app := r_app (im_ring s1) |>) (im_w2r s0) (im_r2w s0).
Lemma zget_mix (a b : bytes) n : (n <= length a)%nat -> forall k, 0 <= k ->
  zget (firstn n a ++ skipn n b) k = if k <? Z.of_nat n then zget a k else if Z.of_nat n <=? k then zget (repeat 0 n ++ skipn n b) k else UB.
Proof.
  intros L k Hk. unfold zget. destruct (0 <=? k) eqn:E; [|lia]. destruct (Z.ltb_spec k (Z.of_nat n)).
  - rewrite nth_error_app1 by (rewrite firstn_length; lia). rewrite <- (firstn_skipn n a) at 2. rewrite nth_error_app1 by (rewrite firstn_length; lia). reflexivity.
  - destruct (Z.leb_spec (Z.of_nat n) k); [|lia]. rewrite !nth_error_app2 by (rewrite ?firstn_length, ?repeat_length; lia). rewrite firstn_length, repeat_length, Nat.min_l by lia. reflexivity.
Qed.
Lemma zget_tail (b : bytes) n k : Z.of_nat n <= k -> (n <= length b)%nat -> zget (repeat 0 n ++ skipn n b) k = zget b k.
Proof.
  intros L Lb. unfold zget. destruct (0 <=? k); [|reflexivity]. rewrite nth_error_app2 by (rewrite repeat_length; lia). rewrite repeat_length.
  rewrite <- (firstn_skipn n b) at 2. rewrite nth_error_app2 by (rewrite firstn_length; lia). rewrite firstn_length, Nat.min_l by lia. reflexivity.
Qed.
Lemma survives_half l s0 s1 : In s0 l -> In s1 l -> r_n (im_ring s0) = r_n (im_ring s1) -> r_pad_len (im_ring s0) = r_pad_len (im_ring s1) -> r_mv_len (im_ring s0) = r_mv_len (im_ring s1) ->
  2312 <= r_n (im_ring s0) -> 0 <= r_pad_len (im_ring s0) -> 0 <= r_mv_len (im_ring s0) -> zlen (r_d (im_ring s0)) = r_n (im_ring s0) -> zlen (r_d (im_ring s1)) = r_n (im_ring s0) ->
  survives (Some l) (half_new s0 s1).
Proof.
  intros I0 I1 En Ep Em Ln Lp Lm L0 L1 p Hp. change SIZEOF_CTRL with 1784 in *. change PAGE with 4096 in *. change SIZEOF_MSG with 16 in *.
  assert (Z0 : Z.of_nat 2312 = 2312) by reflexivity. assert (B0 : (2312 <= length (r_d (im_ring s0)))%nat) by (unfold zlen in L0; lia). assert (B1 : (2312 <= length (r_d (im_ring s1)))%nat) by (unfold zlen in L1; lia).
  unfold same_page. change SIZEOF_CTRL with 1784. change PAGE with 4096. change SIZEOF_MSG with 16.
  assert (SMALL : forall o, 0 <= o -> o / 4096 = 0 -> o < 4096) by (intros o Ho E; pose proof (Z.div_mod o 4096 ltac:(lia)); pose proof (Z.mod_pos_bound o 4096 ltac:(lia)); lia).
  destruct (Z.eq_dec p 0) as [->|NP].
  - exists s0. split; [exact I0|]. cbn [half_new im_ring im_w2r im_r2w]. unfold half_new.
    split; [intros _; repeat split|]. split; [|split; [|split]]; intros k Hk E; try (apply SMALL in E; lia).
    cbn [im_ring r_d set]. rewrite zget_mix by assumption. apply SMALL in E; [|lia]. rewrite Z0. destruct (Z.ltb_spec k 2312); [reflexivity|lia].
  - exists s1. split; [exact I1|]. unfold half_new. cbn [im_ring im_w2r im_r2w]. split; [intros ->; contradiction|]. split; [|split; [|split]]; intros k Hk E; try reflexivity.
    cbn [r_d set]. rewrite zget_mix by assumption. rewrite Z0. destruct (Z.ltb_spec k 2312) as [L|L]; [rewrite Z.div_small in E by lia; congruence|].
    destruct (Z.leb_spec 2312 k); [|lia]. apply zget_tail; [lia|exact B1].
Qed.

(** ** rings *)
Definition sync_ring := new_ring 10 (SHR_MAXMSGS_2 + SHR_SYNC) 3 [].
Definition sync_size := new_size 10 (SHR_MAXMSGS_2 + SHR_SYNC) 3 [].
Lemma sync_fresh : fresh sync_ring sync_size. Proof. apply new_fresh. reflexivity. Qed.
Definition sync0 := world0 sync_ring sync_size.
(** two pages: 2400 bytes, 2 messages *)
Definition big_ring := new_ring 2400 (SHR_MAXMSGS_2 + SHR_SYNC) 2 [].
Definition big_size := new_size 2400 (SHR_MAXMSGS_2 + SHR_SYNC) 2 [].
Lemma big_fresh : fresh big_ring big_size. Proof. apply new_fresh. vm_compute. reflexivity. Qed.
Definition big0 := world0 big_ring big_size.
Definition bigd_ring := new_ring 2400 (SHR_MAXMSGS_2 + SHR_SYNC + SHR_DROP) 3 [].
Definition bigd_size := new_size 2400 (SHR_MAXMSGS_2 + SHR_SYNC + SHR_DROP) 3 [].
Lemma bigd_fresh : fresh bigd_ring bigd_size. Proof. apply new_fresh. vm_compute. reflexivity. Qed.
Definition bigd0 := world0 bigd_ring bigd_size.

(** The power fails before the [n]th statement of client [c]'s section; the
    images noted by then. *)
Definition noted (w : world) (u : store) (c : nat) (n : nat) : store :=
  match kill_at n (dprog w (ARun c (calm (w_ks w)))) (shared w, u) with Some (_, (_, u')) => u' | None => None end.
Definition first_of (u : store) : image := match u with Some l => last l (im (shared plain0)) | None => im (shared plain0) end.
Definition last_of (u : store) : image := match u with Some (x :: _) => x | _ => im (shared plain0) end.
Lemma last_in {A} (l : list A) (d : A) : l <> [] -> In (last l d) l.
Proof. induction l as [|a [|b l] IH]; intros H; [congruence|left; reflexivity|]. right. apply IH. discriminate. Qed.
Lemma fails_script w u c n : match kill_at n (dprog w (ARun c (calm (w_ks w)))) (shared w, u) with Some _ => true | None => false end = true ->
  forall x, survives (noted w u c n) x -> fails_in w u (ARun c (calm (w_ks w))) x.
Proof.
  unfold noted. destruct (kill_at _ _ _) as [[line [m u']]|] eqn:E; [|discriminate]. intros _ x S. exists line, m, u'. split; [apply kill_dies in E; exact E|exact S].
Qed.
Definition half_b (u : store) (s0 s1 : image) : bool :=
  match u with Some (_ :: _) => true | _ => false end
  && ((r_n (im_ring s0) =? r_n (im_ring s1)) && (r_pad_len (im_ring s0) =? r_pad_len (im_ring s1)) && (r_mv_len (im_ring s0) =? r_mv_len (im_ring s1))
      && (2312 <=? r_n (im_ring s0)) && (0 <=? r_pad_len (im_ring s0)) && (0 <=? r_mv_len (im_ring s0))
      && (zlen (r_d (im_ring s0)) =? r_n (im_ring s0)) && (zlen (r_d (im_ring s1)) =? r_n (im_ring s0))).
Lemma half_b_survives u s0 s1 : half_b u s0 s1 = true -> (s0 = first_of u \/ s0 = last_of u) -> (s1 = first_of u \/ s1 = last_of u) -> survives u (half_new s0 s1).
Proof.
  unfold half_b. intros H H0 H1. destruct u as [[|a l]|]; try discriminate H. cbn [andb] in H. rewrite !andb_true_iff, ?Z.eqb_eq, ?Z.leb_le in H.
  assert (I : forall s, s = first_of (Some (a :: l)) \/ s = last_of (Some (a :: l)) -> In s (a :: l)).
  { intros s [->| ->]; unfold first_of, last_of; [apply last_in; discriminate|left; reflexivity]. }
  apply survives_half; try apply I; try assumption; tauto.
Qed.
(** After script [ks] the power fails before the [n]th statement of [c]'s
    section; [new]: page 0 has its first contents, the others the last. *)
Definition half (new : bool) (u : store) : image := if new then half_new (first_of u) (last_of u) else half_new (last_of u) (first_of u).
Lemma power_fails (new : bool) r fsz ks c n : fresh r fsz ->
  (let w0 := world0 r fsz in let w := dw true w0 ks in let u := noted w (du true w0 ks) c n in
   dplays true w0 ks && match kill_at n (dprog w (ARun c (calm (w_ks w)))) (shared w, du true w0 ks) with Some _ => true | None => false end
   && half_b u (first_of u) (last_of u) && half_b u (last_of u) (first_of u)) = true ->
  let w0 := world0 r fsz in let w := dw true w0 ks in
  dreach faultless r w (de true w0 ks) (du true w0 ks) /\ fails_in w (du true w0 ks) (ARun c (calm (w_ks w))) (half new (noted w (du true w0 ks) c n)).
Proof.
  intros F H w0 w. cbv zeta in H. fold w0 in H. fold w in H. rewrite !andb_true_iff in H. destruct H as [[[H1 H2] H3] H4].
  split; [exact (dreach_script true r fsz ks F H1)|]. apply (fails_script w (du true w0 ks) c n H2). unfold half. destruct new; apply half_b_survives; auto.
Qed.
