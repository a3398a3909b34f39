(** * Executions of BwApi.v given as scripts, for the examples beside the theorems *)
From Verif Require Import Witness KillFinal CrashFinal KillBwStep.
From Verif Require Export BwApiFinal2.

(** no system call fails; the next socket gets the name [nm] *)
Definition benv (ks : socks) (nm : Z) : env :=
  mkenv true true true (fun _ => true) (fun _ => true) (fun _ => true) (e_probe (calm ks)) true true true nm (nm + 1) 10.
Lemma benv_good ks nm : good_sockets ks (benv ks nm).
Proof. destruct (calm_good ks) as [A1 A2 A3 A4 A5]. constructor; [reflexivity|reflexivity|reflexivity|reflexivity|exact A5]. Qed.
Inductive bcmd :=
| Op (wait : bool) (pid nm : Z)
| Cl (c : nat) (x : bcall)
| Di (pid : Z)
| Ki (c : nat) (x : bcall) (n : nat)             (* killed before the [n]th statement *)
| KiO (wait : bool) (pid nm : Z) (n : nat).
Definition name_ok (reuse : bool) (ks : socks) (nm : Z) : bool := forallb (fun k => (reuse && negb (k_open k)) || negb (k_name k =? nm)) ks.
Definition bplay1 (reuse : bool) (y : bsys) (k : bcmd) : option (bsys * bev) :=
  let ks := b_ks (y_s y) in
  match k with
  | Op wait pid nm => if name_ok reuse ks nm && (0 <? pid) then
      match exec_all (open_p (benv ks nm) wait pid) (y_s y) with
      | Ok (s, o) => Some (mkbsys s (y_cl y ++ [mkbcl pid o]), BOpened (length (y_cl y)) wait (if o then true else false))
      | _ => None end else None
  | Cl c x => if name_ok reuse ks (-1) then match bc_h (bcli y c) with
      | Some h => match exec_all (call_p (benv ks (-1)) h x) (y_s y) with
                  | Ok (s, (o, v)) => Some (mkbsys s (set_nat (y_cl y) c (bcli y c <| bc_h := o |>)), BRet c x v)
                  | _ => None end
      | None => None end else None
  | Di pid => Some (ended pid y (y_s y), BDied pid None)
  | Ki c x n => if name_ok reuse ks (-1) then match bc_h (bcli y c) with
      | Some h => match kill_at n (call_p (benv ks (-1)) h x) (y_s y) with
                  | Some (_, s) => Some (ended (bc_pid (bcli y c)) y s, BDied (bc_pid (bcli y c)) (Some (c, x)))
                  | None => None end
      | None => None end else None
  | KiO wait pid nm n => if name_ok reuse ks nm && (0 <? pid) then
      match kill_at n (open_p (benv ks nm) wait pid) (y_s y) with
      | Some (_, s) => Some (ended pid y s, BDied pid None)
      | None => None end else None
  end.
Fixpoint bplay (reuse : bool) (y : bsys) (ks : list bcmd) : option (bsys * list bev) :=
  match ks with
  | [] => Some (y, [])
  | k :: t => match bplay1 reuse y k with
              | Some (y1, v) => match bplay reuse y1 t with Some (y2, vs) => Some (y2, v :: vs) | None => None end
              | None => None
              end
  end.
Definition rule (reuse : bool) : bsys -> env -> Prop := if reuse then recycling else honest.
Lemma name_rule reuse y nm : name_ok reuse (b_ks (y_s y)) nm = true -> rule reuse y (benv (b_ks (y_s y)) nm).
Proof.
  intros H. pose proof (good_honest _ _ (benv_good (b_ks (y_s y)) nm)) as G. unfold name_ok in H. rewrite forallb_forall in H.
  destruct reuse; cbn [rule]; (split; [exact G|]); cbn [benv e_name].
  - intros k Hi Ho. specialize (H k Hi). rewrite Ho in H. cbn in H. apply negb_true_iff, Z.eqb_neq in H. exact H.
  - intros k Hi. specialize (H k Hi). cbn in H. apply negb_true_iff, Z.eqb_neq in H. exact H.
Qed.
Lemma bplay1_step reuse y k y' v : bplay1 reuse y k = Some (y', v) -> bstep (rule reuse) y v y'.
Proof.
  destruct k as [wait pid nm|c x|pid|c x n|wait pid nm n]; cbn [bplay1]; intros H.
  - destruct (name_ok reuse _ nm) eqn:N; [|discriminate]. destruct (Z.ltb_spec 0 pid) as [P|]; [|discriminate]. cbn [andb] in H.
    destruct (exec_all _ _) as [[s o]| | |] eqn:E; try discriminate. injection H as <- <-. apply (bs_open _ y (benv (b_ks (y_s y)) nm)); [apply name_rule, N|exact P|exact E].
  - destruct (name_ok reuse _ _) eqn:N; [|discriminate]. destruct (bc_h (bcli y c)) as [h|] eqn:HC; [|discriminate].
    destruct (exec_all _ _) as [[s [o r]]| | |] eqn:E; try discriminate. injection H as <- <-. apply (bs_call _ y (benv (b_ks (y_s y)) (-1)) c h); [apply name_rule, N|exact HC|exact E].
  - injection H as <- <-. apply bs_die.
  - destruct (name_ok reuse _ _) eqn:N; [|discriminate]. destruct (bc_h (bcli y c)) as [h|] eqn:HC; [|discriminate].
    destruct (kill_at _ _ _) as [[line s]|] eqn:E; try discriminate. injection H as <- <-. apply (bs_kill _ y (benv (b_ks (y_s y)) (-1)) c h x line); [apply name_rule, N|exact HC|apply kill_dies in E; exact E].
  - destruct (name_ok reuse _ nm) eqn:N; [|discriminate]. destruct (Z.ltb_spec 0 pid) as [P|]; [|discriminate]. cbn [andb] in H.
    destruct (kill_at _ _ _) as [[line s]|] eqn:E; try discriminate. injection H as <- <-. apply (bs_kill_open _ y (benv (b_ks (y_s y)) nm) wait pid line); [apply name_rule, N|exact P|apply kill_dies in E; exact E].
Qed.
Lemma bplay_reach reuse : forall ks y evs y' vs, breach (rule reuse) y evs -> bplay reuse y ks = Some (y', vs) -> breach (rule reuse) y' (evs ++ vs).
Proof.
  induction ks as [|k t IH]; intros y evs y' vs R H; cbn [bplay] in H; [injection H as <- <-; rewrite app_nil_r; exact R|].
  destruct (bplay1 reuse y k) as [[y1 v]|] eqn:E; [|discriminate]. destruct (bplay reuse y1 t) as [[y2 vs2]|] eqn:E2; [|discriminate]. injection H as <- <-.
  replace (evs ++ v :: vs2) with ((evs ++ [v]) ++ vs2) by (rewrite <- app_assoc; reflexivity). apply (IH y1); [|exact E2]. econstructor; [exact R|]. apply (bplay1_step _ _ _ _ _ E).
Qed.
Lemma bplay_honest ks y vs : bplay false bsys0 ks = Some (y, vs) -> breach honest y vs.
Proof. intros H. apply (bplay_reach false ks bsys0 [] y vs); [constructor|exact H]. Qed.
Lemma bplay_recycling ks y vs : bplay true bsys0 ks = Some (y, vs) -> breach recycling y vs.
Proof. intros H. apply (bplay_reach true ks bsys0 [] y vs); [constructor|exact H]. Qed.
Definition yb (reuse : bool) (ks : list bcmd) : bsys := match bplay reuse bsys0 ks with Some (y, _) => y | None => bsys0 end.
Definition vb (reuse : bool) (ks : list bcmd) : list bev := match bplay reuse bsys0 ks with Some (_, v) => v | None => [] end.
