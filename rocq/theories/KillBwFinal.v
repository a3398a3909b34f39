(** * Wake-ups when processes are killed and connecting may fail (C54, C55). *)
From Verif Require Import MicroFacts Crash Effects Final Pending Trace.
From Verif Require Export BwFinal KillBwStep KillFinal.

Lemma flaky_contract : forall w a, flaky w a -> contract w a.
Proof. intros w a H. apply H. Qed.
Lemma steady_flaky : forall w a, steady w a -> flaky w a.
Proof.
  intros w a [[HC HG] HN]. split; [exact HC|]. split; [|exact HN]. destruct a; auto; destruct HG; constructor; assumption.
Qed.
Lemma BI2_start r fsz : BI2 (world0 r fsz).
Proof.
  destruct (BI_start r fsz) as [A1 A2 A3 A4 A5 A6]. constructor; try assumption.
  intros b c q cs [_ H]. rewrite world0_cli in H. destruct b; discriminate.
Qed.
Lemma kill_PIDS w c m : PIDS w -> c_live (cli w c) = true -> PIDS (killed w c m).
Proof.
  intros H Hl c' L. destruct (Nat.eq_dec c' c) as [->|N].
  - rewrite cli_killed_same in L by (apply live_bound; exact Hl). discriminate.
  - rewrite cli_killed_other in * by exact N. apply H, L.
Qed.
Lemma kexec_BI2 r fsz w evs : fresh r fsz -> kexec flaky (world0 r fsz) w evs -> seq_bound r evs -> PIDS w /\ BI2 w.
Proof.
  intros F X. induction X as [|w evs a w' ev X IH Pa S|w evs c e line m X IH Pa Hl D U|w evs e flags pid line m X IH Pa D]; intros HB.
  - split; [intros c; rewrite world0_cli; discriminate|apply BI2_start].
  - destruct (IH (seq_bound_app _ _ _ HB)) as [P B]. destruct (kexec_inv flaky r fsz flaky_contract F _ _ X (seq_bound_app _ _ _ HB)) as (W & _ & _).
    split; [apply (step_PIDS _ _ _ _ _ _ W P (flaky_contract _ _ Pa) S)|].
    destruct (step_ST _ _ _ _ _ _ W (kexec_LI _ _ _ _ _ X) P B Pa S) as (c & _ & T). apply (sr_bi _ _ _ (st_sr _ _ _ _ _ T)).
  - destruct (IH (seq_bound_app _ _ _ HB)) as [P B]. split; [apply kill_PIDS; assumption|].
    destruct Pa as (_ & HG & HN). apply (sr_bi _ _ _ (kill_SR _ _ _ _ _ B HG HN Hl D)).
  - destruct (IH HB) as [P B]. split; [exact P|]. destruct Pa as (_ & HG & HN). apply (sr_bi _ _ _ (kill_open_SR _ _ _ _ _ _ B HG HN D)).
Qed.
Lemma kreach_BI2 r w evs : kreach flaky r w evs -> exists w0, WI w0 w evs /\ LI w /\ PIDS w /\ BI2 w.
Proof.
  intros (fsz & F & X & B). exists (world0 r fsz). destruct (kexec_inv flaky r fsz flaky_contract F _ _ X B) as (W & _ & _).
  destruct (kexec_BI2 _ _ _ _ F X B) as [P BB]. split; [exact W|]. split; [exact (kexec_LI _ _ _ _ _ X)|]. auto.
Qed.
Lemma k_ST r w evs a w' ev : kreach flaky r w evs -> flaky w a -> step w a = Ok (w', ev) ->
  exists c, (actor a = Some c \/ actor a = None /\ c = length (w_cl w)) /\ ST w w' a ev c.
Proof. intros R Ha S. destruct (kreach_BI2 _ _ _ R) as (w0 & W & L & P & B). apply (step_ST _ _ _ _ _ _ W L P B Ha S). Qed.

Theorem k_wake_readers r w evs a w' ev c ms : kreach flaky r w evs -> flaky w a -> step w a = Ok (w', ev) -> In (ECommit c ms) ev ->
  good_env w a \/ (exists x, In (ERet c x) ev /\ success x) -> forall c' s, data_sock w' c' = Some s -> readable w' s.
Proof.
  intros R Ha S HI HG c' s Hd. destruct (k_ST _ _ _ _ _ _ R Ha S) as (c0 & _ & T). apply data_sock_wt in Hd. destruct Hd as [n Hd].
  apply (st_commit _ _ _ _ _ T _ _ HI HG _ _ _ Hd).
Qed.
Theorem k_wake_writers r w evs a w' ev c v b i : kreach flaky r w evs -> flaky w a -> step w a = Ok (w', ev) -> In (ERet c (RetRead v b i)) ev -> 0 < v ->
  good_env w a -> forall c' s, space_sock w' c' = Some s -> readable w' s.
Proof.
  intros R Ha S HI Hv HG c' s Hd. destruct (k_ST _ _ _ _ _ _ R Ha S) as (c0 & _ & T). apply space_sock_wt in Hd. destruct Hd as [n Hd].
  refine (st_read _ _ _ _ _ T _ HG _ _ _ Hd). eauto 8.
Qed.
Definition keeps (w w' : world) (c s : nat) : Prop :=
  (data_sock w c = Some s -> data_sock w' c = Some s /\ (readable w s -> readable w' s))
  /\ (space_sock w c = Some s -> space_sock w' c = Some s /\ (readable w s -> readable w' s)).
Lemma SR_keeps w w' c0 c s : SR w w' c0 -> c <> c0 -> keeps w w' c s.
Proof.
  intros T N. unfold keeps. rewrite !data_sock_wt, !space_sock_wt. unfold readable. split.
  - intros [n Hd]. destruct (sr_other _ _ _ T _ _ _ _ N Hd) as [H LE]. split; [eauto|lia].
  - intros [n Hd]. destruct (sr_other _ _ _ T _ _ _ _ N Hd) as [H LE]. split; [eauto|lia].
Qed.
Lemma sock_bound w c s : data_sock w c = Some s \/ space_sock w c = Some s -> c <> length (w_cl w).
Proof.
  intros H E. subst c. unfold data_sock, space_sock in H. rewrite dead_out in H. destruct H; discriminate.
Qed.
Lemma SR_keeps_new w w' c s : SR w w' (length (w_cl w)) -> keeps w w' c s.
Proof.
  intros T. destruct (Nat.eq_dec c (length (w_cl w))) as [E|N]; [|apply (SR_keeps _ _ _ _ _ T N)].
  split; intros H; elim (sock_bound w c s); auto.
Qed.
Theorem k_wake_kept r w evs a w' ev c s : kreach flaky r w evs -> flaky w a -> step w a = Ok (w', ev) -> actor a <> Some c -> keeps w w' c s.
Proof.
  intros R Ha S HA. destruct (k_ST _ _ _ _ _ _ R Ha S) as (c0 & [Q|[_ ->]] & T).
  - apply (SR_keeps _ _ _ _ _ (st_sr _ _ _ _ _ T)). congruence.
  - apply SR_keeps_new, T.
Qed.
Theorem k_wake_kept_kill r w evs c0 e line m c s : kreach flaky r w evs -> flaky w (ARun c0 e) -> c_live (cli w c0) = true ->
  dies_at (section e (cli w c0)) (shared w) line m -> c <> c0 -> keeps w (killed w c0 m) c s.
Proof.
  intros R (_ & HG & HN) Hl D N. destruct (kreach_BI2 _ _ _ R) as (w0 & W & L & P & B). apply (SR_keeps _ _ _ _ _ (kill_SR _ _ _ _ _ B HG HN Hl D) N).
Qed.
Theorem k_wake_kept_open r w evs e flags pid line m c s : kreach flaky r w evs -> flaky w (AOpen e flags pid) ->
  dies_at (open_section e w flags pid) (shared w) line m -> keeps w (killed_opening w m) c s.
Proof.
  intros R (_ & HG & HN) D. destruct (kreach_BI2 _ _ _ R) as (w0 & W & L & P & B). apply SR_keeps_new, (kill_open_SR _ _ _ _ _ _ B HG HN D).
Qed.
Theorem k_registered r w evs : kreach flaky r w evs ->
  (forall c s, data_sock w c = Some s -> exists n, (n < BW_WAITMAX)%nat /\ k_open (sk (w_ks w) s) = true
      /\ ws_pid (slot_of (w_w2r w) n) = k_pid (sk (w_ks w) s) /\ ws_name (slot_of (w_w2r w) n) = k_name (sk (w_ks w) s) /\ k_pid (sk (w_ks w) s) <> 0)
  /\ (forall c s, space_sock w c = Some s -> exists n, (n < BW_WAITMAX)%nat /\ k_open (sk (w_ks w) s) = true
      /\ ws_pid (slot_of (w_r2w w) n) = k_pid (sk (w_ks w) s) /\ ws_name (slot_of (w_r2w w) n) = k_name (sk (w_ks w) s) /\ k_pid (sk (w_ks w) s) <> 0)
  /\ (forall c c' s, data_sock w c = Some s -> data_sock w c' = Some s -> c = c')
  /\ (forall c c' s, space_sock w c = Some s -> space_sock w c' = Some s -> c = c')
  /\ (forall c c' s, data_sock w c = Some s -> space_sock w c' = Some s -> False).
Proof.
  intros R. destruct (kreach_BI2 _ _ _ R) as (w0 & W & L & P & B).
  assert (K : forall b c n s, wt b w c n s -> exists n, (n < BW_WAITMAX)%nat /\ k_open (sk (w_ks w) s) = true
      /\ ws_pid (slot_of (whd b w) n) = k_pid (sk (w_ks w) s) /\ ws_name (slot_of (whd b w) n) = k_name (sk (w_ks w) s) /\ k_pid (sk (w_ks w) s) <> 0).
  { intros b c n s H. destruct (b2_wt _ B _ _ _ _ H) as (H1 & H2 & H3 & H4). exists n. unfold slot_of. rewrite H4. auto. }
  repeat split.
  - intros c s H. apply data_sock_wt in H. destruct H as [n H]. apply (K true c n s H).
  - intros c s H. apply space_sock_wt in H. destruct H as [n H]. apply (K false c n s H).
  - intros c c' s H H'. apply data_sock_wt in H, H'. destruct H as [n H], H' as [n' H']. apply (b2_own _ B _ _ _ _ _ _ _ H H').
  - intros c c' s H H'. apply space_sock_wt in H, H'. destruct H as [n H], H' as [n' H']. apply (b2_own _ B _ _ _ _ _ _ _ H H').
  - intros c c' s H H'. apply data_sock_wt in H. apply space_sock_wt in H'. destruct H as [n H], H' as [n' H'].
    destruct (b2_own _ B _ _ _ _ _ _ _ H H') as [Q _]. discriminate.
Qed.

(** ** scripts in which connect may fail *)
Inductive fcmd := Norm (k : kcmd) | NoConnect (c : nat).
Definition unconnected (e : env) : env :=
  mkenv (e_lock e) (e_msync e) (e_alloc e) (e_socket e) (fun _ => false) (e_send e) (e_probe e) (e_bind e) (e_self e) (e_force e) (e_name e) (e_name2 e) (e_cap e).
Definition names_b (w : world) : bool := forallb (fun s => negb (k_name s =? e_name (calm (w_ks w)))) (w_ks w).
Definition fplay1 (w : world) (k : fcmd) : option (world * list event) :=
  if names_b w then
    match k with
    | Norm k => kplay1 w k
    | NoConnect c => match step w (ARun c (unconnected (calm (w_ks w)))) with Ok x => Some x | _ => None end
    end
  else None.
Fixpoint fplay (w : world) (ks : list fcmd) : option (world * list event) :=
  match ks with
  | [] => Some (w, [])
  | k :: t => match fplay1 w k with
              | Some (w1, ev) => match fplay w1 t with Some (w2, ev2) => Some (w2, ev ++ ev2) | None => None end
              | None => None
              end
  end.
Lemma names_new w : names_b w = true -> forall k, In k (w_ks w) -> k_name k <> e_name (calm (w_ks w)).
Proof. unfold names_b. rewrite forallb_forall. intros H k I. specialize (H k I). rewrite negb_true_iff, Z.eqb_neq in H. exact H. Qed.
Lemma act_steady w k : names_b w = true -> ok_b w k = true -> steady w (act w k).
Proof.
  intros N Ok. split; [apply act_faultless; exact Ok|]. unfold new_names. destruct k; cbn [act]; auto; apply names_new, N.
Qed.
Definition connects (k : fcmd) : bool := match k with Norm _ => true | NoConnect _ => false end.
Lemma fplay_exec (P : world -> action -> Prop) w0 : (forall w k, names_b w = true -> ok_b w k = true -> P w (act w k)) ->
  forall ks, (forallb connects ks = false -> forall w a, flaky w a -> P w a) ->
  forall w evs w' ev, kexec P w0 w evs -> fplay w ks = Some (w', ev) -> kexec P w0 w' (evs ++ ev).
Proof.
  intros HS. induction ks as [|k t IH]; intros HF w evs w' ev X H; cbn [fplay] in H.
  - injection H as <- <-. rewrite app_nil_r. exact X.
  - destruct (fplay1 w k) as [[w1 ev1]|] eqn:E; [|discriminate]. destruct (fplay w1 t) as [[w2 ev2]|] eqn:E2; [|discriminate]. injection H as <- <-.
    rewrite app_assoc. apply (IH (fun Q => HF (proj2 (andb_false_iff _ _) (or_intror Q))) w1); [|exact E2]. clear IH E2. unfold fplay1 in E. destruct (names_b w) eqn:NB; [|discriminate].
    destruct k as [[k|c n|flags pid n]|c]; cbn [kplay1] in E.
    + destruct (ok_b w k) eqn:Ok; [|discriminate]. destruct (step w (act w k)) as [x| | |] eqn:Es; try discriminate. injection E as ->.
      eapply kx_step; [exact X|exact (HS _ _ NB Ok)|exact Es].
    + destruct (c_live (cli w c)) eqn:Hl; [|discriminate]. destruct (kill_at _ _ _) as [[line m]|] eqn:Ek; [|discriminate].
      destruct (untorn w c m line) eqn:U; [|discriminate]. injection E as <- <-. apply kill_dies in Ek.
      apply (kx_kill _ _ _ _ _ (calm (w_ks w)) line m); [exact X| |exact Hl|exact Ek|exact U]. exact (HS w (Run c) NB eq_refl).
    + destruct (ok_b w (Open flags pid)) eqn:Ok; [|discriminate]. destruct (kill_at _ _ _) as [[line m]|] eqn:Ek; [|discriminate].
      injection E as <- <-. apply kill_dies in Ek. rewrite app_nil_r.
      apply (kx_kill_open _ _ _ _ (calm (w_ks w)) flags pid line m); [exact X| |exact Ek]. exact (HS w (Open flags pid) NB Ok).
    + destruct (step w (ARun c (unconnected (calm (w_ks w))))) as [x| | |] eqn:Es; try discriminate. injection E as ->.
      eapply kx_step; [exact X| |exact Es]. apply (HF eq_refl). destruct (steady_flaky _ _ (act_steady w (Run c) NB eq_refl)) as (A1 & [A2 A3] & A4).
      split; [exact A1|]. split; [constructor; assumption|exact A4].
Qed.
Definition fw (w0 : world) (ks : list fcmd) : world := match fplay w0 ks with Some (w, _) => w | None => w0 end.
Definition fe (w0 : world) (ks : list fcmd) : list event := match fplay w0 ks with Some (_, e) => e | None => [] end.
Definition fplays (w0 : world) (ks : list fcmd) : bool := match fplay w0 ks with Some (_, evs) => zlen (committed evs) <? W64 | None => false end.
Lemma kreach_flaky r fsz ks : fresh r fsz -> fplays (world0 r fsz) ks = true ->
  kreach flaky r (fw (world0 r fsz) ks) (fe (world0 r fsz) ks).
Proof.
  intros F H. unfold fplays, fw, fe in *. destruct (fplay (world0 r fsz) ks) as [[w evs]|] eqn:E; [|discriminate].
  exists fsz. split; [exact F|]. split; [apply (fplay_exec _ _ (fun w k N O => steady_flaky _ _ (act_steady w k N O)) ks (fun _ w a H => H) (world0 r fsz) []); [constructor|exact E]|]. intros _. apply Z.ltb_lt in H. exact H.
Qed.
Lemma kreach_steady r fsz ks : fresh r fsz -> fplays (world0 r fsz) ks = true -> forallb connects ks = true ->
  kreach steady r (fw (world0 r fsz) ks) (fe (world0 r fsz) ks).
Proof.
  intros F H HC. unfold fplays, fw, fe in *. destruct (fplay (world0 r fsz) ks) as [[w evs]|] eqn:E; [|discriminate].
  exists fsz. split; [exact F|]. split; [|intros _; apply Z.ltb_lt in H; exact H].
  apply (fplay_exec _ _ act_steady ks ltac:(congruence) (world0 r fsz) []); [constructor|exact E].
Qed.
