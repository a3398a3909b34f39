(** * Executions of BwTool.v given as scripts, for the examples beside C94 *)
From Verif Require Export BwPlay BwToolFinal.

Inductive tcmd :=
| KOther (k : bcmd)
| KSignal
| KOpen (nm : Z)
| KWake
| KCtl
| KSelect
| KReady
| KWait (sig : bool)
| KLast
| KExit.
Definition ret_of (v : bev) : Z := match v with BRet _ _ r => r | _ => 0 end.
Definition foreignb (pid : Z) (y : bsys) (v : bev) : bool :=
  match v with BOpened c _ _ | BRet c _ _ => negb (bc_pid (bcli y c) =? pid) | BDied p _ => negb (p =? pid) end.
Definition readableb (y : bsys) (c : nat) : bool := match queued y c with Some n => 0 <? n | None => false end.
Definition play_force (c : nat) (want b : bool) (y : bsys) : option (list tev * bsys) :=
  if b then match bplay1 false y (Cl c (BcForce want)) with
            | Some (y', v) => Some ([Mine (BRet c (BcForce want) (ret_of v))], y')
            | None => None end
  else Some ([], y).
Definition tplay1 (o : topts) (pid : Z) (t : tool) (k : tcmd) : option (list tev * tool) :=
  let y := t_y t in
  match k, t_ph t with
  | KOther k, _ => match bplay1 false y k with
      | Some (y', v) => if foreignb pid y' v then Some ([Other v], t <| t_y := y' |>) else None
      | None => None end
  | KSignal, _ => Some ([Signal], t <| t_sig := true |>)
  | KOpen nm, PStart => match bplay1 false y (Op (negb (to_wake o)) pid nm) with
      | Some (y', BOpened c w true) => if Bool.eqb w (negb (to_wake o)) && (bc_pid (bcli y' c) =? pid)
          then Some ([Mine (BOpened c (negb (to_wake o)) true)], mktool y' (if to_wake o then PWake c else POpen c) (t_sig t)) else None
      | _ => None end
  | KWake, PWake c => match bplay1 false y (Cl c BcWake) with
      | Some (y1, v) => if ret_of v =? 0 then match bplay1 false y1 (Cl c BcClose) with
          | Some (y', u) => Some ([Mine (BRet c BcWake 0); Mine (BRet c BcClose (ret_of u))], mktool y' (PLeave 0) (t_sig t))
          | None => None end else None
      | None => None end
  | KCtl, POpen c => match bplay1 false y (Cl c (BcCtl SIGFD)) with
      | Some (y', v) => Some ([Mine (BRet c (BcCtl SIGFD) (ret_of v))], mktool y' (if ret_of v =? 0 then PBlock c else PLeave (-1)) (t_sig t))
      | None => None end
  | KSelect, PBlock c => if negb (to_api o) && (readableb y c || t_sig t)
      then Some (Said (FdReady true) :: (if t_sig t then [Said GotSignal] else []), t <| t_ph := if t_sig t then PLeave (-1) else PReady c |>) else None
  | KReady, PReady c => match bplay1 false y (Cl c BcReady) with
      | Some (y', v) => Some ([Mine (BRet c BcReady (ret_of v))], mktool y' (if ret_of v <? 0 then PLeave (-1) else PLock c) (t_sig t))
      | None => None end
  | KWait sig, PBlock c => let x := if sig then BcOther SIGFD else BcWait in
      if to_api o && (negb sig || t_sig t) then match bplay1 false y (Cl c x) with
      | Some (y', v) => Some (Mine (BRet c x (ret_of v)) :: wait_says (ret_of v), mktool y' (wait_next c (ret_of v)) (t_sig t))
      | None => None end else None
  | KLast, PLock c => match play_force c true (to_force o) y with
      | Some (e1, y1) => match play_force c false (to_clear o) y1 with
          | Some (e2, y2) => if t_sig t then Some (e1 ++ e2 ++ [Said (FdReady true); Said GotSignal], mktool y2 (PLeave (-1)) (t_sig t))
              else match bplay1 false y2 (Cl c BcClose) with
                   | Some (y', v) => Some (e1 ++ e2 ++ [Said (FdReady (readableb y2 c)); Mine (BRet c BcClose (ret_of v))], mktool y' (PLeave 0) (t_sig t))
                   | None => None end
          | None => None end
      | None => None end
  | KExit, PLeave code => match bplay1 false y (Di pid) with
      | Some (y', _) => Some ([Exit code; Mine (BDied pid None)], mktool y' PGone (t_sig t))
      | None => None end
  | _, _ => None
  end.
Lemma cl_step y c x y' v : bplay1 false y (Cl c x) = Some (y', v) -> bstep honest y (BRet c x (ret_of v)) y'.
Proof.
  intros H. pose proof (bplay1_step _ _ _ _ _ H) as S. cbn [bplay1] in H. destruct (name_ok _ _ _); [|discriminate]. destruct (bc_h _); [|discriminate].
  destruct (exec_all _ _) as [[s [o r]]| | |]; try discriminate. injection H as <- <-. exact S.
Qed.
Lemma readableb_ok y c : readableb y c = true <-> readable y c.
Proof.
  unfold readableb, readable. destruct (queued y c) as [n|]; [|split; [discriminate|intros (n & E & _); discriminate]]. rewrite Z.ltb_lt.
  split; [intros H; exists n; auto|intros (m & E & L); injection E as <-; exact L].
Qed.
Lemma play_force_ok c want b y l y' : play_force c want b y = Some (l, y') -> tforce honest c want y b l y'.
Proof.
  unfold play_force. destruct b; [|intros H; injection H as <- <-; constructor]. destruct (bplay1 _ _ _) as [[y1 v]|] eqn:E; [|discriminate]. intros H. injection H as <- <-. constructor. apply cl_step, E.
Qed.
Lemma tplay1_step o pid t k l t' : tplay1 o pid t k = Some (l, t') -> tstep honest o pid t l t'.
Proof.
  intros H. unfold tplay1 in H. destruct k as [k| |nm| | | | |sg| |].
  - destruct (bplay1 _ _ _) as [[y' v]|] eqn:E; [|discriminate]. destruct (foreignb pid y' v) eqn:F; [|discriminate]. injection H as <- <-.
    apply ts_other; [apply (bplay1_step false _ _ _ _ E)|]. unfold foreignb in F. destruct v; apply negb_true_iff, Z.eqb_neq in F; exact F.
  - injection H as <- <-. constructor.
  - destruct (t_ph t) eqn:N; try discriminate. destruct (bplay1 _ _ _) as [[y' [c w []| |]]|] eqn:E; try discriminate. destruct (eqb _ _ && _) eqn:K; [|discriminate].
    apply andb_true_iff in K. destruct K as [K1 K2]. apply eqb_prop in K1. subst w. apply Z.eqb_eq in K2. injection H as <- <-.
    apply (ts_open honest o pid t c true y' N (bplay1_step false _ _ _ _ E) K2).
  - destruct (t_ph t) eqn:N; try discriminate. destruct (bplay1 _ _ _) as [[y1 v]|] eqn:E; [|discriminate]. destruct (Z.eqb_spec (ret_of v) 0) as [Z0|]; [|discriminate].
    destruct (bplay1 _ y1 _) as [[y' u]|] eqn:E2; [|discriminate]. injection H as <- <-. apply cl_step in E. rewrite Z0 in E. apply (ts_wake honest o pid t c (ret_of u) y1 y' 0 (or_introl eq_refl) N E (cl_step _ _ _ _ _ E2)).
  - destruct (t_ph t) eqn:N; try discriminate. destruct (bplay1 _ _ _) as [[y' v]|] eqn:E; [|discriminate]. injection H as <- <-. apply (ts_ctl honest o pid t c _ y' N (cl_step _ _ _ _ _ E)).
  - destruct (t_ph t) eqn:N; try discriminate. destruct (negb _ && _) eqn:K; [|discriminate]. apply andb_true_iff in K. destruct K as [K1 K2]. apply negb_true_iff in K1. injection H as <- <-.
    apply (ts_select honest o pid t c N K1). apply orb_true_iff in K2. rewrite readableb_ok in K2. exact K2.
  - destruct (t_ph t) eqn:N; try discriminate. destruct (bplay1 _ _ _) as [[y' v]|] eqn:E; [|discriminate]. injection H as <- <-. apply (ts_ready honest o pid t c _ y' N (cl_step _ _ _ _ _ E)).
  - destruct (t_ph t) eqn:N; try discriminate. destruct (_ && _) eqn:K; [|discriminate]. apply andb_true_iff in K. destruct K as [K1 K2]. destruct (bplay1 _ _ _) as [[y' v]|] eqn:E; [|discriminate]. injection H as <- <-.
    apply (ts_wait honest o pid t c _ _ y' N K1); [|apply cl_step, E]. destruct sg; [right; split; [reflexivity|exact K2]|left; reflexivity].
  - destruct (t_ph t) eqn:N; try discriminate. destruct (play_force _ true _ _) as [[e1 y1]|] eqn:F1; [|discriminate]. destruct (play_force _ false _ _) as [[e2 y2]|] eqn:F2; [|discriminate].
    apply play_force_ok in F1. apply play_force_ok in F2. destruct (t_sig t) eqn:G.
    + injection H as <- <-. pose proof (ts_last_sig honest o pid t c e1 e2 y1 y2 N F1 F2 G) as K. rewrite G in K. exact K.
    + destruct (bplay1 _ _ _) as [[y' v]|] eqn:E; [|discriminate]. injection H as <- <-. 
      pose proof (ts_last honest o pid t c e1 e2 y1 y2 _ _ y' 0 (or_introl eq_refl) N F1 F2 G (readableb_ok y2 c) (cl_step _ _ _ _ _ E)) as K. rewrite G in K. exact K.
  - destruct (t_ph t) eqn:N; try discriminate. cbn [bplay1] in H. injection H as <- <-. apply (ts_exit honest o pid t code _ N). apply bs_die.
Qed.
Fixpoint tplay (o : topts) (pid : Z) (t : tool) (ks : list tcmd) : option (list tev * tool) :=
  match ks with
  | [] => Some ([], t)
  | k :: r => match tplay1 o pid t k with
              | Some (l, t1) => match tplay o pid t1 r with Some (m, t2) => Some (l ++ m, t2) | None => None end
              | None => None end
  end.
Definition t0 : tool := mktool bsys0 PStart false.
Lemma tplay_from o pid : forall ks t evs l t', treach honest o pid t evs -> tplay o pid t ks = Some (l, t') -> treach honest o pid t' (evs ++ l).
Proof.
  induction ks as [|k ks IH]; intros t evs l t' R H; cbn [tplay] in H; [injection H as <- <-; rewrite app_nil_r; exact R|].
  destruct (tplay1 o pid t k) as [[l1 t1]|] eqn:E; [|discriminate]. destruct (tplay o pid t1 ks) as [[m t2]|] eqn:E2; [|discriminate]. injection H as <- <-.
  rewrite app_assoc. apply (IH t1); [|exact E2]. econstructor; [exact R|]. apply (tplay1_step _ _ _ _ _ _ E).
Qed.
Lemma tplay_ok o pid ks l t : tplay o pid t0 ks = Some (l, t) -> treach honest o pid t l.
Proof.
  intros H. change l with ([] ++ l). apply (tplay_from o pid ks t0 [] l t); [|exact H]. apply (tr_start honest o pid bsys0 []); [constructor|]. cbn. intros c L. lia.
Qed.
Definition tt (o : topts) (pid : Z) (ks : list tcmd) : tool := match tplay o pid t0 ks with Some (_, t) => t | None => t0 end.
Definition te (o : topts) (pid : Z) (ks : list tcmd) : list tev := match tplay o pid t0 ks with Some (l, _) => l | None => [] end.
