(** * Names and slots over whole critical sections and executions. *)
From Verif Require Import BaseFacts MicroFacts KillExec KillFacts BwInv KillBwInv LockFacts WorldFacts.
From Verif Require Export FineHome FineSect.

Section Shm.
Variables (e : env) (ks0 : socks) (home0 : Z -> bool -> nat -> Prop).
Definition JH (home : Z -> bool -> nat -> Prop) (m : shm) : Prop :=
  hext home0 home /\ unique home /\ named home (sh_ks m) /\ hshm home m /\ kx ks0 (sh_ks m).
Definition JS (m : shm) : Prop := exists home, JH home m.
Lemma JH_put home b m y : JH home m -> Jb home b (sh_ks m) y -> JH home (put_bk b m y).
Proof.
  intros (X & U & N & H & K) [J1 J2]. split; [exact X|]. split; [exact U|].
  assert (E : sh_ks (put_bk b m y) = b_ks y) by (destruct b; reflexivity). split; [rewrite E; apply (named_kx _ _ _ J2), N|].
  split; [|rewrite E; eapply kx_trans; eassumption]. intros b'. destruct b, b'; cbn [put_bk KillBwInv.hd]; [exact J1|exact (H false)|exact (H true)|exact J1].
Qed.
Lemma on_fix {A} home b m (p : prog bks A) (Q : A -> bks -> Prop) : JH home m -> ok p (get_bk b m) (Jb home b (sh_ks m)) (fun x y => Jb home b (sh_ks m) y /\ Q x y) ->
  ok (on_bw b p) m JS (fun x m' => JH home m' /\ kx (sh_ks m) (sh_ks m') /\ Q x (get_bk b m')).
Proof.
  intros J [H1 H2]. split.
  - intros l m' D. apply dies_bw in D. destruct D as (y & D & ->). exists home. apply JH_put; [exact J|apply (H1 _ _ D)].
  - intros m' x E. rewrite exec_bw in E. apply obind_ok in E. destruct E as ([y x'] & E & E2). apply ok_pair in E2. destruct E2 as [<- <-].
    destruct (H2 _ _ E) as [Hj Hq]. split; [apply JH_put; assumption|]. rewrite bk_gp. split; [|exact Hq]. destruct b; apply Hj.
Qed.
Lemma Jb_get home b m : JH home m -> Jb home b (sh_ks m) (get_bk b m).
Proof. intros (_ & _ & _ & H & _). split; [exact (H b)|apply kx_refl]. Qed.
Lemma Jk_get home b m : JH home m -> Jk home b (sh_ks m) (get_bk b m).
Proof. intros (_ & _ & _ & H & _). split; [exact (H b)|reflexivity]. Qed.

Lemma ok_on_ring {A} home (p : prog ring A) : forall m, JH home m -> ok (on_ring p) m JS (fun _ m' => JH home m' /\ sh_ks m' = sh_ks m).
Proof.
  enough (G : forall ks m, JH home m -> sh_ks m = ks -> ok (on_ring p) m JS (fun _ m' => JH home m' /\ sh_ks m' = ks)) by (intros m J; apply (G (sh_ks m) m J eq_refl)).
  intros ks. induction p as [x|l f IH] using prog_ind2; intros m J E; cbn [on_ring liftp]; [apply ok_ret; split; assumption|].
  apply ok_at; [exists home; exact J|]. intros s' p' Ef. destruct (f (sh_ring m)) as [[r2 p2]| | |] eqn:Ef2; try discriminate Ef. apply ok_pair in Ef. destruct Ef as [<- <-].
  apply (IH _ _ _ Ef2); [|exact E]. exact J.
Qed.
Lemma ok_on_wake home b h m : JH home m -> hwake home b h (sh_ks m) ->
  ok (on_bw b (bw_wake_p e h)) m JS (fun r m' => JH home m' /\ kx (sh_ks m) (sh_ks m') /\ hwake home b (fst r) (sh_ks m') /\ exists q cs, fst r = Wake q cs).
Proof. intros J H. exact (on_fix home b m _ (fun r y => hwake home b (fst r) (b_ks y) /\ exists q cs, fst r = Wake q cs) J (ok_wake e home b (sh_ks m) h _ (Jb_get home b m J) H)). Qed.
Lemma ok_on_force home b h want m : JH home m -> ok (on_bw b (bw_force_p e h want)) m JS (fun _ m' => JH home m' /\ kx (sh_ks m) (sh_ks m')).
Proof.
  intros J. eapply ok_weak; [| |apply (on_fix home b m _ (fun _ _ => True) J)]; [auto|intros x s (A1 & A2 & _); auto|].
  eapply ok_weak; [| |apply (ok_force e home b (sh_ks m) h want _ (Jb_get home b m J))]; auto.
Qed.
Lemma ok_on_close home b h m : JH home m -> ok (on_bw b (bw_close_p h)) m JS (fun _ m' => JH home m' /\ kx (sh_ks m) (sh_ks m')).
Proof.
  intros J. eapply ok_weak; [| |apply (on_fix home b m _ (fun _ _ => True) J)]; [auto|intros x s (A1 & A2 & _); auto|].
  eapply ok_weak; [| |apply (ok_close home b (sh_ks m) h _ (Jb_get home b m J))]; auto.
Qed.
Lemma ok_on_open_wake home b m : JH home m ->
  ok (on_bw b (bw_open_wake_p e)) m JS (fun o m' => JH home m' /\ sh_ks m' = sh_ks m /\ forall h, o = Some h -> hwake home b h (sh_ks m') /\ exists q cs, h = Wake q cs).
Proof.
  intros J. eapply ok_weak; [| |apply (on_fix home b m _ (fun o y => b_ks y = sh_ks m /\ forall h, o = Some h -> hwake home b h (sh_ks m) /\ exists q cs, h = Wake q cs) J)].
  - auto.
  - intros o s (A1 & A2 & A3 & A4). assert (E : sh_ks s = sh_ks m) by exact A3. rewrite E. auto.
  - eapply ok_weak; [| |apply (ok_open_wake e home b _ (sh_ks m) (Jk_get home b m J))].
    + intros y. apply Jk_Jb, kx_refl.
    + intros o y [[A1 A2] A3]. split; [split; [exact A1|rewrite A2; apply kx_refl]|auto].
Qed.
Definition fresh_sid (ks ks' : socks) (o : option bwt) : Prop := forall h, o = Some h -> exists n sid, h = Wait n sid [] /\ (length ks <= sid < length ks')%nat.
Lemma ok_on_open_wait home b pid name m : JH home m -> (forall s, (s < length (sh_ks m))%nat -> k_name (sk (sh_ks m) s) <> name) ->
  ok (on_bw b (bw_open_wait_p e pid name)) m JS (fun o m' => (exists home', JH home' m' /\ hext home home') /\ kx (sh_ks m) (sh_ks m') /\ fresh_sid (sh_ks m) (sh_ks m') o).
Proof.
  intros J New. destruct J as (X & U & N & H & K). pose proof (ok_open_wait e home b (sh_ks m) pid name U N New (get_bk b m) (conj (H b) eq_refl)) as [H1 H2].
  assert (PUT : forall y, Jx home b (sh_ks m) y -> exists home', JH home' (put_bk b m y) /\ hext home home' /\ kx (sh_ks m) (b_ks y)).
  { intros y (home' & E1 & U' & N' & S' & K'). exists home'. split; [|auto]. assert (E : sh_ks (put_bk b m y) = b_ks y) by (destruct b; reflexivity).
    split; [eapply hext_trans; eassumption|]. split; [exact U'|]. split; [rewrite E; exact N'|]. split; [|rewrite E; eapply kx_trans; eassumption].
    intros b'. destruct b, b'; cbn [put_bk KillBwInv.hd]; [exact S'|exact (hslots_ext _ _ _ _ E1 (H false))|exact (hslots_ext _ _ _ _ E1 (H true))|exact S']. }
  split.
  - intros l m' D. apply dies_bw in D. destruct D as (y & D & ->). destruct (PUT y (H1 _ _ D)) as (home' & A1 & _). exists home'. exact A1.
  - intros m' x E. rewrite exec_bw in E. apply obind_ok in E. destruct E as ([y x'] & E & E2). apply ok_pair in E2. destruct E2 as [<- <-].
    destruct (H2 _ _ E) as [Hj Hq]. destruct (PUT y Hj) as (home' & A1 & A2 & A3). assert (Ek : sh_ks (put_bk b m y) = b_ks y) by (destruct b; reflexivity).
    rewrite Ek. split; [exists home'; auto|]. split; [exact A3|exact Hq].
Qed.

(** a call: the handles afterwards *)
Definition gh (home : Z -> bool -> nat -> Prop) (ks : socks) (cl cl' : client) : Prop := forall b h, hnd b cl' = Some h ->
  match h with
  | Wake _ cs => hconns home b ks cs
  | Wait n s _ => (exists n' p', hnd b cl = Some (Wait n' s p')) \/ (b = false /\ (length ks0 <= s < length ks)%nat)
  end.
Definition Qr (cl : client) (r : fres) (m : shm) : Prop := exists home, JH home m /\ forall cl' ev, r = Ok (Some cl', ev) -> gh home (sh_ks m) cl cl'.
Lemma gh_id home ks cl a b : same_id a b -> gh home ks cl a -> gh home ks cl b.
Proof.
  intros I G d h E. assert (S : bw_same (hnd d a) (hnd d b)) by (destruct d; apply I). rewrite E in S.
  destruct h as [q cs|n s p].
  - pose proof (bw_same_wake _ _ _ S) as Ea. exact (G d _ Ea).
  - destruct (bw_same_wait _ _ _ _ S) as [p0 Ea]. exact (G d _ Ea).
Qed.
Lemma gh_same home ks cl cl' : hext home0 home -> kx ks0 ks -> hcl home0 ks0 cl -> c_w2r cl' = c_w2r cl -> c_r2w cl' = c_r2w cl -> gh home ks cl cl'.
Proof.
  intros X K H E1 E2 b h E. assert (Eb : hnd b cl = Some h) by (destruct b; cbn [hnd] in *; congruence). pose proof (H b h Eb) as G.
  destruct h as [q cs|n s p]; [|left; eauto]. apply (hconns_kx _ _ _ _ _ K), (hconns_ext _ _ _ _ _ X), G.
Qed.
Lemma gh_none home ks cl cl' : c_w2r cl' = None -> c_r2w cl' = None -> gh home ks cl cl'.
Proof. intros E1 E2 b h E. destruct b; cbn [hnd] in *; congruence. Qed.
Lemma gh_w2r home ks cl cl' h : hext home0 home -> kx ks0 ks -> hcl home0 ks0 cl -> hwake home true h ks -> (exists q cs, h = Wake q cs) -> c_w2r cl' = Some h -> c_r2w cl' = c_r2w cl -> gh home ks cl cl'.
Proof.
  intros X K H Hh (q & cs & ->) E1 E2 b h' E. destruct b; cbn [hnd] in E; [assert (h' = Wake q cs) as -> by congruence; exact Hh|].
  assert (Eb : hnd false cl = Some h') by (cbn [hnd]; congruence). pose proof (H false h' Eb) as G.
  destruct h' as [q' cs'|n s p]; [|left; eauto]. apply (hconns_kx _ _ _ _ _ K), (hconns_ext _ _ _ _ _ X), G.
Qed.
Lemma gh_r2w home ks cl cl' h : hext home0 home -> kx ks0 ks -> hcl home0 ks0 cl -> hwake home false h ks -> (exists q cs, h = Wake q cs) -> c_r2w cl' = Some h -> c_w2r cl' = c_w2r cl -> gh home ks cl cl'.
Proof.
  intros X K H Hh (q & cs & ->) E1 E2 b h' E. destruct b; cbn [hnd] in E; [|assert (h' = Wake q cs) as -> by congruence; exact Hh].
  assert (Eb : hnd true cl = Some h') by (cbn [hnd]; congruence). pose proof (H true h' Eb) as G.
  destruct h' as [q' cs'|n s p]; [|left; eauto]. apply (hconns_kx _ _ _ _ _ K), (hconns_ext _ _ _ _ _ X), G.
Qed.

Lemma JH_S home m : JH home m -> JS m. Proof. intros H. exists home. exact H. Qed.
Lemma Qr_ret home cl r m : JH home m -> (forall cl' ev, r = Ok (Some cl', ev) -> gh home (sh_ks m) cl cl') -> ok (Ret r) m JS (Qr cl).
Proof. intros J H. apply ok_ret. exists home. auto. Qed.
Lemma ok_stop {A} l (o : outcome (shm * prog shm A)) m (Q : A -> shm -> Prop) : (forall x, o <> Ok x) -> JS m -> ok (At l (fun _ => o)) m JS Q.
Proof. intros H J. apply ok_at; [exact J|]. intros s' p' E. elim (H _ E). Qed.
Theorem fsection_ok sync c cl m : JH home0 m -> sh_ks m = ks0 -> hcl home0 ks0 cl ->
  (forall s, (s < length ks0)%nat -> k_name (sk ks0 s) <> e_name e) -> ok (fsection e sync c cl) m JS (Qr cl).
Proof.
  intros J E0 HC New.
  assert (SAME : forall home m1 r, JH home m1 -> (forall cl' ev, r = Ok (Some cl', ev) -> c_w2r cl' = c_w2r cl /\ c_r2w cl' = c_r2w cl) -> ok (Ret r) m1 JS (Qr cl)).
  { intros home m1 r J1 H. apply (Qr_ret home); [exact J1|]. intros cl' ev E. destruct (H cl' ev E) as [E1 E2]. destruct J1 as (X & _ & _ & _ & K). apply gh_same; assumption. }
  unfold fsection. destruct (c_pc cl) as [|k iov len nb|k iov len nb|buf niov|buf niov| | |reset|get set sz] eqn:Epc.
  - apply ok_stop; [discriminate|apply (JH_S home0), J].
  - eapply ok_bind; [apply ok_on_ring, J|]. intros stored m1 [J1 Ek]. rewrite E0 in Ek. destruct stored.
    + destruct (c_w2r cl) as [h|] eqn:Eh; [|apply ok_stop; [discriminate|apply (JH_S home0), J1]].
      eapply ok_bind; [apply (ok_on_wake home0); [exact J1|rewrite Ek; exact (HC true h Eh)]|]. intros [h' k'] m2 (J2 & K2 & H2 & W2). cbn [fst snd] in *.
      assert (DONE : forall m3 rv, JH home0 m3 -> kx (sh_ks m2) (sh_ks m3) -> ok (Ret (do (cl, rs) <- end_write (cl <| c_w2r := Some h' |>) k iov rv; Ok (Some cl, [ECommit c iov] ++ rets c rs))) m3 JS (Qr cl)).
      { intros m3 rv J3 K3. apply (Qr_ret home0); [exact J3|]. intros cl' ev E. apply obind_ok in E. destruct E as ([cl1 rs] & E & E2). injection E2 as -> _.
        apply end_write_id in E. destruct E as [ID _]. apply (gh_id home0 (sh_ks m3) cl _ _ ID). destruct J3 as (X & _ & _ & _ & K). 
        apply (gh_w2r home0 (sh_ks m3) cl _ h'); [exact X|exact K|exact HC|apply (hwake_kx _ _ _ _ _ K3), H2|exact W2|reflexivity|reflexivity]. }
      cbn zeta. destruct k'.
      * eapply ok_bind; [apply ok_on_ring, J2|]. intros u m3 [J3 Ek3]. apply DONE; [exact J3|]. rewrite Ek3. apply kx_refl.
      * apply DONE; [exact J2|apply kx_refl].
    + destruct nb.
      * apply (Qr_ret home0); [exact J1|]. intros cl' ev E. apply obind_ok in E. destruct E as ([cl1 rs] & E & E2). injection E2 as -> _.
        apply end_write_id in E. destruct E as [ID _]. apply (gh_id home0 (sh_ks m1) cl _ _ ID). destruct J1 as (X & _ & _ & _ & K). apply gh_same; try assumption; reflexivity.
      * destruct (c_r2w cl) as [[|n s p]|] eqn:Er; apply (SAME home0); try exact J1; intros cl' ev E; try discriminate E. injection E as <- _. split; [reflexivity|exact Er].
  - apply ok_stop; [discriminate|apply (JH_S home0), J].
  - eapply ok_bind; [apply ok_on_ring, J|]. intros [[q md] got] m1 [J1 Ek]. rewrite E0 in Ek. cbn zeta.
    change (c_w2r (cl <| c_q := q |> <| c_md := md |>)) with (c_w2r cl). change (c_r2w (cl <| c_q := q |> <| c_md := md |>)) with (c_r2w cl).
    destruct (c_w2r cl) as [h|] eqn:Eh; [|destruct got as [[]|]; (apply ok_stop; [discriminate|apply (JH_S home0), J1])].
    destruct got as [[l cur']|].
    + eapply ok_bind with (R := fun cl' m2 => JH home0 m2 /\ gh home0 (sh_ks m2) cl cl').
      * assert (G1 : gh home0 (sh_ks m1) cl (cl <| c_q := q |> <| c_md := md |>)) by (destruct J1 as (X & _ & _ & _ & K); apply gh_same; try assumption; reflexivity).
        destruct (_ >? 0); [|apply ok_ret; split; assumption]. destruct (c_r2w cl) as [h2|] eqn:Eh2; [|apply ok_stop; [discriminate|apply (JH_S home0), J1]].
        eapply ok_bind; [apply (ok_on_wake home0); [exact J1|rewrite Ek; exact (HC false h2 Eh2)]|]. intros [h' k'] m2 (J2 & K2 & H2 & W2). cbn [fst snd] in *.
        apply ok_ret. split; [exact J2|]. destruct J2 as (X & _ & _ & _ & K). apply (gh_r2w home0 (sh_ks m2) cl _ h'); try assumption; reflexivity.
      * intros cl' m2 [J2 G2]. eapply ok_bind; [apply ok_on_force, J2|]. intros u m3 [J3 K3]. apply (Qr_ret home0); [exact J3|]. intros cl2 ev E. injection E as <- _.
        intros b' h'' E'. change (hnd b' (cl' <| c_pc := Idle |>)) with (hnd b' cl') in E'. specialize (G2 b' h'' E'). destruct h'' as [q0 cs0|n0 s0 p0].
        -- apply (hconns_kx _ _ _ _ _ K3), G2.
        -- destruct G2 as [G2|[G2 G3]]; [left; exact G2|right; split; [exact G2|]]. destruct K3 as [K3 _]. lia.
    + destruct (has _ _).
      * eapply ok_bind; [apply ok_on_force, J1|]. intros u m3 [J3 K3]. apply (SAME home0); [exact J3|]. intros cl' ev E. injection E as <- _. split; [exact Eh|reflexivity].
      * apply (SAME home0); [exact J1|]. intros cl' ev E. destruct h; [discriminate E|]. injection E as <- _. split; [exact Eh|reflexivity].
  - apply ok_stop; [discriminate|apply (JH_S home0), J].
  - eapply ok_bind; [apply (ok_on_open_wait home0); [exact J|rewrite E0; exact New]|]. intros o m1 ((home & J1 & X1) & K1 & F1). destruct o as [h|].
    + apply (Qr_ret home); [exact J1|]. intros cl' ev E. apply obind_ok in E. destruct E as ([cl1 rs] & E & E2). injection E2 as -> _.
      apply flush_write_id in E. destruct E as [ID _]. apply (gh_id home (sh_ks m1) cl _ _ ID). destruct J1 as (X & _ & _ & _ & K). destruct (F1 h eq_refl) as (n & sid & -> & L).
      rewrite E0 in L. intros b' h' E. destruct b'; cbn [hnd] in E.
      * change (c_w2r (cl <| c_r2w := Some (Wait n sid []) |>)) with (c_w2r cl) in E. pose proof (HC true h' E) as G. destruct h' as [q0 cs0|n0 s0 p0]; [|left; eauto].
        apply (hconns_kx _ _ _ _ _ K), (hconns_ext _ _ _ _ _ X), G.
      * change (c_r2w (cl <| c_r2w := Some (Wait n sid []) |>)) with (Some (Wait n sid [])) in E. injection E as <-. right. auto.
    + apply (SAME home); [exact J1|]. intros cl' ev E. injection E as <- _. split; reflexivity.
  - eapply ok_bind with (R := fun _ m1 => JH home0 m1).
    + destruct (c_w2r cl); [|apply ok_ret, J]. eapply ok_weak; [| |apply (ok_on_close home0), J]; [auto|intros x s' [H _]; exact H].
    + intros u m1 J1. eapply ok_bind with (R := fun _ m2 => JH home0 m2).
      * destruct (c_r2w cl); [|apply ok_ret, J1]. eapply ok_weak; [| |apply (ok_on_close home0), J1]; [auto|intros x s' [H _]; exact H].
      * intros u2 m2 J2. apply (Qr_ret home0); [exact J2|]. intros cl' ev E. injection E as <- _. apply gh_none; reflexivity.
  - apply ok_at; [apply (JH_S home0), J|]. intros s' p' E. cbn zeta in E. apply ok_pair in E. destruct E as [<- <-].
    destruct reset.
    + eapply ok_bind; [apply ok_on_ring, J|]. intros u m1 [J1 _]. apply (SAME home0); [exact J1|]. intros cl' ev E. injection E as <- _. split; reflexivity.
    + apply (SAME home0); [exact J|]. intros cl' ev E. injection E as <- _. split; reflexivity.
  - apply ok_at; [apply (JH_S home0), J|]. intros s' p' E. cbn zeta in E.
    assert (D : forall x m1, JH home0 m1 -> ok (Ret (Ok (Some (cl <| c_pc := Idle |>), [ERet c x]))) m1 JS (Qr cl)).
    { intros x m1 J1. apply (SAME home0); [exact J1|]. intros cl' ev E1. injection E1 as <- _. split; reflexivity. }
    repeat match goal with
    | H : obind ?t _ = Ok _ |- _ => destruct t eqn:?; cbn [obind] in H; try discriminate H
    | H : match ?t with _ => _ end = Ok _ |- _ => match t with context [match _ with _ => _ end] => fail 1 | _ => destruct t eqn:? end
    end; try discriminate E; apply ok_pair in E; destruct E as [<- <-];
      first [apply D, J|eapply ok_bind; [apply ok_on_ring, J|]; intros u m1 [J1 _]; apply D, J1].
Qed.

(** shr_open *)
Definition ghn (home : Z -> bool -> nat -> Prop) (ks : socks) (cl' : client) : Prop :=
  (forall b h, hnd b cl' = Some h -> match h with Wake _ cs => hconns home b ks cs | Wait n s _ => (length ks0 <= s < length ks)%nat end)
  /\ (no_sock (c_w2r cl') \/ no_sock (c_r2w cl')).
Definition Qo (r : fres) (m : shm) : Prop := exists home, JH home m /\ forall cl' ev, r = Ok (Some cl', ev) -> ghn home (sh_ks m) cl'.
Theorem fopen_ok fsz flags pid m : JH home0 m -> sh_ks m = ks0 -> (forall s, (s < length ks0)%nat -> k_name (sk ks0 s) <> e_name e) ->
  ok (fopen e fsz flags pid) m JS Qo.
Proof.
  intros J E0 New. unfold fopen. apply ok_at; [apply (JH_S home0), J|]. intros s' p' E. cbn zeta in E. apply ok_pair in E. destruct E as [<- <-].
  assert (FAIL : forall home m1 ev0, JH home m1 -> ok (Ret (Ok (@None client, ev0))) m1 JS Qo) by (intros home m1 ev0 J1; apply ok_ret; exists home; split; [exact J1|intros cl' ev E; discriminate E]).
  assert (UN : forall home a b m1, JH home m1 -> ok (run! _ <- fail_open a b; Ret (Ok (@None client, @nil event))) m1 JS Qo).
  { intros home a b m1 J1. eapply ok_bind with (R := fun _ m1 => JH home m1); [|intros u m2 J2; apply (FAIL home), J2]. unfold fail_open, close_opt.
    eapply ok_bind with (R := fun _ m1 => JH home m1).
    - destruct b; [|apply ok_ret, J1]. eapply ok_weak; [| |apply (ok_on_close home), J1]; [auto|intros x s' [H _]; exact H].
    - intros u m2 J2. destruct a; [|apply ok_ret, J2]. eapply ok_weak; [| |apply (ok_on_close home), J2]; [auto|intros x s' [H _]; exact H]. }
  assert (FIN : forall home m1 a b, JH home m1 -> (forall cl', c_w2r cl' = a -> c_r2w cl' = b -> ghn home (sh_ks m1) cl') ->
     ok (Ret (Ok (match init_cache e (sh_ring m) flags with
               | None => None
               | Some ca => if shr_sync e (sh_ring m) then Some (mkcl true pid flags (r_q (sh_ring m)) 0 a b ca (r_n (sh_ring m)) (r_mm (sh_ring m)) Idle) else None
               end, @nil event))) m1 JS Qo).
  { intros home m1 a b J1 G. apply ok_ret. exists home. split; [exact J1|]. intros cl' ev E. destruct (init_cache e (sh_ring m) flags); [|discriminate E].
    destruct (shr_sync e (sh_ring m)); [|discriminate E]. injection E as <- _. apply G; reflexivity. }
  destruct (_ || _); [apply (FAIL home0), J|]. destruct (has flags SHR_RDONLY).
  - eapply ok_bind; [apply (ok_on_open_wait home0); [exact J|rewrite E0; exact New]|]. intros a m1 ((home & J1 & X1) & K1 & F1). rewrite E0 in F1.
    eapply ok_bind; [apply (ok_on_open_wake home), J1|]. intros b m2 (J2 & E2 & W2).
    destruct a as [a|]; [|apply (UN home), J2]. destruct b as [b|]; [|apply (UN home), J2].
    eapply ok_bind; [apply ok_on_force, J2|]. intros k m3 [J3 K3]. destruct k; [|apply (UN home), J3].
    apply (FIN home); [exact J3|]. intros cl' Ea Eb. destruct (F1 a eq_refl) as (n & sid & -> & L).
    destruct (W2 b eq_refl) as [W (q & cs & ->)]. split; [|right; rewrite Eb; exact I].
    intros d h E. destruct d; cbn [hnd] in E; rewrite ?Ea, ?Eb in E; injection E as <-; [destruct K3 as [K3 _]; rewrite E2 in K3; lia|].
    apply (hconns_kx _ _ _ _ _ K3), W.
  - eapply ok_bind; [apply (ok_on_open_wake home0), J|]. intros a m1 (J1 & E1 & W1). rewrite E0 in E1. destruct a as [a|]; [|apply (FAIL home0), J1].
    destruct (W1 a eq_refl) as [W (q & cs & ->)].
    destruct (_ && _).
    + eapply ok_bind; [apply (ok_on_open_wait home0); [exact J1|rewrite E1; exact New]|]. intros b m2 ((home & J2 & X2) & K2 & F2). rewrite E1 in F2.
      destruct b as [b|]; [|apply (UN home), J2]. destruct (F2 b eq_refl) as (n & sid & -> & L). apply (FIN home); [exact J2|]. intros cl' Ea Eb.
      split; [|left; rewrite Ea; exact I]. intros d h E. destruct d; cbn [hnd] in E; rewrite ?Ea, ?Eb in E; injection E as <-; [|exact L].
      apply (hconns_kx _ _ _ _ _ K2), (hconns_ext _ _ _ _ _ X2), W.
    + apply (FIN home0); [exact J1|]. intros cl' Ea Eb. split; [|left; rewrite Ea; exact I]. intros d h E. destruct d; cbn [hnd] in E; rewrite ?Ea, ?Eb in E; [injection E as <-; exact W|discriminate E].
Qed.
End Shm.

(** ** worlds *)
Record HIw (home : Z -> bool -> nat -> Prop) (w : world) : Prop := mkHI {
  hi_u : unique home;
  hi_n : named home (w_ks w);
  hi_s : forall b, hslots home b (whd b w);
  hi_c : forall c, hcl home (w_ks w) (cli w c);
  hi_lt : forall b c n s p, hnd b (cli w c) = Some (Wait n s p) -> (s < length (w_ks w))%nat;
  hi_own : forall b c n s p b' c' n' p', hnd b (cli w c) = Some (Wait n s p) -> hnd b' (cli w c') = Some (Wait n' s p') -> b = b' /\ c = c' }.
Definition HI (w : world) : Prop := exists home, HIw home w.
Lemma HI_start r fsz : HI (world0 r fsz).
Proof.
  assert (N : forall b c h, hnd b (cli (world0 r fsz) c) = Some h -> False).
  { intros b c h E. unfold cli, world0 in E. cbn [w_cl] in E. destruct c, b; discriminate E. }
  exists (fun _ _ _ => False). constructor.
  - intros nm b i b' i' H. elim H.
  - intros nm b i H. elim H.
  - intros b i H. elim H. assert (E : whd b (world0 r fsz) = bwh0) by (destruct b; reflexivity). rewrite E. unfold bwh0. cbn [h_wr]. rewrite repeat_nth. reflexivity.
  - intros c b h E. elim (N _ _ _ E).
  - intros b c n s p E. elim (N _ _ _ E).
  - intros b c n s p b' c' n' p' E. elim (N _ _ _ E).
Qed.
Lemma HI_JH home w : HIw home w -> JH (w_ks w) home home (shared w).
Proof. intros H. split; [intros ? ? ? X; exact X|]. split; [apply H|]. split; [apply H|]. split; [|apply kx_refl]. intros b. pose proof (hi_s _ _ H b) as G. destruct b; exact G. Qed.
(** client [c] alone has changed *)
Lemma HI_upd home0 w w' c home : HIw home0 w -> JH (w_ks w) home0 home (shared w') -> (forall c', c' <> c -> cli w' c' = cli w c') ->
  gh (w_ks w) home (w_ks w') (cli w c) (cli w' c) -> HI w'.
Proof.
  intros H (X & U & N & S & K) HC G. exists home. pose proof (proj1 K) as KL. cbn [shared sh_ks] in *. constructor.
  - exact U.
  - exact N.
  - intros b. specialize (S b). destruct b; exact S.
  - intros c' b h E. destruct (Nat.eq_dec c' c) as [->|Nc].
    + specialize (G b h E). destruct h as [q cs|n s p]; [exact G|exact I].
    + rewrite HC in E by exact Nc. pose proof (hi_c _ _ H c' b h E) as G'. apply (hwake_kx _ _ _ _ _ K), (hwake_ext _ _ _ _ _ X), G'.
  - intros b c' n s p E. destruct (Nat.eq_dec c' c) as [->|Nc].
    + specialize (G b _ E). cbn in G. destruct G as [(n' & p' & E')|[_ L]]; [|lia]. pose proof (hi_lt _ _ H _ _ _ _ _ E'). lia.
    + rewrite HC in E by exact Nc. pose proof (hi_lt _ _ H _ _ _ _ _ E). lia.
  - assert (OLD : forall b c' n s p, hnd b (cli w' c') = Some (Wait n s p) -> (exists n' p', hnd b (cli w c') = Some (Wait n' s p')) \/ (c' = c /\ b = false /\ (length (w_ks w) <= s)%nat)).
    { intros b c' n s p E. destruct (Nat.eq_dec c' c) as [->|Nc]; [|rewrite HC in E by exact Nc; left; eauto]. specialize (G b _ E). cbn in G. destruct G as [G|[-> L]]; [left; exact G|right; repeat split; lia]. }
    intros b c1 n s p b' c2 n' p' E1 E2. apply OLD in E1. apply OLD in E2.
    destruct E1 as [(x1 & y1 & E1)|(-> & -> & L1)], E2 as [(x2 & y2 & E2)|(-> & -> & L2)].
    + apply (hi_own _ _ H _ _ _ _ _ _ _ _ _ E1 E2).
    + pose proof (hi_lt _ _ H _ _ _ _ _ E1). lia.
    + pose proof (hi_lt _ _ H _ _ _ _ _ E2). lia.
    + auto.
Qed.
(** a client has been added *)
Lemma HI_add home0 w w' home : HIw home0 w -> JH (w_ks w) home0 home (shared w') -> (forall c', (c' < length (w_cl w))%nat -> cli w' c' = cli w c') ->
  (length (w_cl w') <= S (length (w_cl w)))%nat ->
  ghn (w_ks w) home (w_ks w') (cli w' (length (w_cl w))) -> HI w'.
Proof.
  intros H (X & U & N & S & K) HC HL [G GN]. exists home. pose proof (proj1 K) as KL. cbn [shared sh_ks] in *. set (c := length (w_cl w)) in *.
  assert (HC' : forall c' b h, c' <> c -> hnd b (cli w' c') = Some h -> hnd b (cli w c') = Some h).
  { intros c' b h Nc E. destruct (Nat.lt_ge_cases c' c) as [L|L]; [rewrite HC in E by exact L; exact E|]. exfalso.
    unfold cli in E. rewrite nth_overflow in E by lia. destruct b; discriminate E. }
  constructor.
  - exact U.
  - exact N.
  - intros b. specialize (S b). destruct b; exact S.
  - intros c' b h E. destruct (Nat.eq_dec c' c) as [->|Nc].
    + specialize (G b h E). destruct h as [q cs|n s p]; [exact G|exact I].
    + apply HC' in E; [|exact Nc]. pose proof (hi_c _ _ H c' b h E) as G'. apply (hwake_kx _ _ _ _ _ K), (hwake_ext _ _ _ _ _ X), G'.
  - intros b c' n s p E. destruct (Nat.eq_dec c' c) as [->|Nc].
    + specialize (G b _ E). cbn in G. lia.
    + apply HC' in E; [|exact Nc]. pose proof (hi_lt _ _ H _ _ _ _ _ E). lia.
  - assert (OLD : forall b c' n s p, hnd b (cli w' c') = Some (Wait n s p) -> (c' <> c /\ hnd b (cli w c') = Some (Wait n s p)) \/ (c' = c /\ (length (w_ks w) <= s)%nat)).
    { intros b c' n s p E. destruct (Nat.eq_dec c' c) as [->|Nc]; [|left; split; [exact Nc|apply HC'; assumption]]. specialize (G b _ E). cbn in G. right. split; [reflexivity|lia]. }
    intros b c1 n s p b' c2 n' p' E1 E2. pose proof E1 as D1. pose proof E2 as D2. apply OLD in E1. apply OLD in E2.
    destruct E1 as [[N1 E1]|[-> L1]], E2 as [[N2 E2]|[-> L2]].
    + apply (hi_own _ _ H _ _ _ _ _ _ _ _ _ E1 E2).
    + pose proof (hi_lt _ _ H _ _ _ _ _ E1). lia.
    + pose proof (hi_lt _ _ H _ _ _ _ _ E2). lia.
    + split; [|reflexivity]. destruct b, b'; try reflexivity; exfalso; cbn [hnd] in D1, D2; rewrite ?D1, ?D2 in GN; destruct GN as [GN|GN]; exact GN.
Qed.
