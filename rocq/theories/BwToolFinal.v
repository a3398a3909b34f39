(** * BwToolFinal: lib/bw-tool.c (C94) *)
From Verif Require Import KillFinal BwApiFinal2.
From Verif Require Export BwToolSpec.

(** ** the handle of the tool *)
Definition own (pid : Z) (c : nat) (y : bsys) : Prop := (c < length (y_cl y))%nat /\ bc_pid (bcli y c) = pid.
Lemma own_step P pid c y v y' : bstep P y v y' -> own pid c y -> own pid c y'.
Proof.
  intros S [L E]. destruct S as [e wait p s o H0 Hp X|e c1 h x s o r H0 HC X|p|e c1 h x line s H0 HC D|e wait p line s H0 Hp D].
  - split; [cbn [y_cl]; rewrite app_length; cbn; lia|]. rewrite bcli_open. destruct (Nat.eqb_spec c (length (y_cl y))); [lia|exact E].
  - split; [cbn [y_cl]; rewrite zlen_set_nat; exact L|]. rewrite bcli_call by congruence. destruct (Nat.eqb_spec c c1) as [->|_]; exact E.
  - split; [unfold ended; cbn [y_cl]; rewrite map_length; exact L|]. rewrite bcli_end. destruct (_ =? p); exact E.
  - split; [unfold ended; cbn [y_cl]; rewrite map_length; exact L|]. rewrite bcli_end. destruct (_ =? _); exact E.
  - split; [unfold ended; cbn [y_cl]; rewrite map_length; exact L|]. rewrite bcli_end. destruct (_ =? p); exact E.
Qed.
Lemma open_own P pid c w ok y y' : bstep P y (BOpened c w ok) y' -> bc_pid (bcli y' c) = pid -> own pid c y'.
Proof. intros S E. split; [|exact E]. inversion S; subst. cbn [y_cl]. rewrite app_length. cbn. lia. Qed.

(** ** what the calls return *)
Lemma wait_call P y c v y' : bstep P y (BRet c BcWait v) y' -> v = 0 /\ readable y c.
Proof.
  intros S. inversion S as [|e c1 h x s o r H0 HC X| | |]; subst. cbn [call_p] in X. destruct h as [q cs|n k p]; [discriminate|].
  cbn in X. destruct (k_pend (sk (b_ks (y_s y)) k) >? 0) eqn:K; [|discriminate]. cbn in X. injection X as <- <- <-.
  split; [reflexivity|]. exists (k_pend (sk (b_ks (y_s y)) k)). unfold queued. rewrite HC. split; [reflexivity|]. apply Z.gtb_lt in K. exact K.
Qed.
Lemma other_call P y c fd v y' : bstep P y (BRet c (BcOther fd) v) y' -> v = -3.
Proof.
  intros S. inversion S as [|e c1 h x s o r H0 HC X| | |]; subst. cbn [call_p] in X. destruct h as [q cs|n k p]; [discriminate|].
  cbn in X. destruct (existsb _ p); [|discriminate]. cbn in X. injection X as <- <- <-. reflexivity.
Qed.
Lemma ready_call P y c v y' : bstep P y (BRet c BcReady v) y' -> v = 0.
Proof.
  intros S. inversion S as [|e c1 h x s o r H0 HC X| | |]; subst. cbn [call_p] in X. destruct h as [q cs|n k p]; [discriminate|].
  cbn in X. injection X as <- <- <-. reflexivity.
Qed.
Lemma force_call P y c w v y' : bstep P y (BRet c (BcForce w) v) y' -> waiting y c.
Proof.
  intros S. inversion S as [|e c1 h x s o r H0 HC X| | |]; subst. cbn [call_p] in X. destruct h as [q cs|n k p]; [discriminate|].
  unfold waiting, queued. rewrite HC. discriminate.
Qed.
Lemma wake_call P y c v y' : bstep P y (BRet c BcWake v) y' -> ~ waiting y c.
Proof.
  intros S. inversion S as [|e c1 h x s o r H0 HC X| | |]; subst. unfold waiting, queued. rewrite HC. destruct h as [q cs|n k p]; [congruence|]. discriminate X.
Qed.

(** ** wake-ups *)
Lemma bws_app a b : bws (a ++ b) = bws a ++ bws b.
Proof. unfold bws. apply flat_map_app. Qed.
Lemma bws_other l : bws (map Other l) = l.
Proof. induction l as [|v l IH]; [reflexivity|]. cbn. fold (bws (map Other l)). rewrite IH. reflexivity. Qed.
Lemma credit_quiet c : forall l n, (forall v, In v l -> ~ wakes v /\ forall u, v <> BRet c (BcForce true) u) -> fold_left (sent c) l n <= Z.max 0 n.
Proof.
  induction l as [|v l IH]; intros n H; cbn [fold_left]; [lia|]. etransitivity; [apply IH; intros w I; apply H; right; exact I|].
  destruct (H v (or_introl eq_refl)) as [N1 N2]. enough (sent c n v <= Z.max 0 n) by lia. clear IH H.
  destruct v as [c' w ok|c' x r|p i]; cbn [sent].
  - destruct (_ =? _)%nat; lia.
  - destruct x as [|[]| | | | |]; try (destruct (c' =? c)%nat; lia); try lia.
    + destruct r; [elim N1; exact I|lia|lia].
    + destruct r; [|lia|lia]. destruct (Nat.eqb_spec c' c) as [->|]; [elim (N2 0); reflexivity|lia].
    + destruct r; [|lia|lia]. destruct (c' =? c)%nat; lia.
  - destruct i as [[c1 x]|]; [|lia]. destruct x; try lia. elim N1. exact I.
Qed.
Lemma wakes_dec v : wakes v \/ ~ wakes v.
Proof. destruct v as [| c x [ | | ]|p [[c []]|]]; try destruct x; cbn; tauto. Qed.
Lemma some_wake l : (exists v, In v l /\ wakes v) \/ forall v, In v l -> ~ wakes v.
Proof.
  induction l as [|v l [(w & I & W)|N]]; [right; intros v []|left; exists w; cbn; auto|].
  destruct (wakes_dec v) as [W|W]; [left; exists v; cbn; auto|]. right. intros w [<-|I]; auto.
Qed.

(** ** the invariant *)
Definition opened (c : nat) (evs : list tev) : Prop :=
  exists e1 e2, evs = e1 ++ Mine (BOpened c true true) :: e2
  /\ (forall v, In (Mine v) e2 -> exists u, v = BRet c (BcCtl SIGFD) u) /\ (forall u, ~ In (Other (BRet c (BcForce true) u)) e2).
Lemma opened_woken y evs c : breach honest y (bws evs) -> opened c evs -> readable y c -> woken evs.
Proof.
  intros R (e1 & e2 & -> & HM & HO) (n & Q & P). pose proof (no_more _ _ _ _ R Q) as K. rewrite bws_app in K. cbn in K. fold (bws e2) in K.
  unfold credit in K. rewrite fold_left_app in K. cbn [fold_left] in K. cbn [sent] in K. rewrite Nat.eqb_refl in K.
  assert (HI : forall v, In v (bws e2) -> In (Mine v) e2 \/ In (Other v) e2).
  { intros v I. unfold bws in I. apply in_flat_map in I. destruct I as (x & I & J). destruct x; cbn in J; try tauto; destruct J as [<-|[]]; auto. }
  destruct (some_wake (bws e2)) as [(v & I & W)|N].
  - exists c, e1, e2, v. split; [reflexivity|]. split; [|exact W]. destruct (HI _ I) as [J|J]; [|exact J]. destruct (HM _ J) as [u ->]. destruct W.
  - pose proof (credit_quiet c (bws e2) 0) as C. assert (fold_left (sent c) (bws e2) 0 <= Z.max 0 0); [|lia]. apply C. intros v I. split; [apply N, I|].
    intros u ->. destruct (HI _ I) as [J|J]; [destruct (HM _ J) as [u' E]; discriminate|]. apply (HO _ J).
Qed.
Lemma woken_app a b : woken a -> woken (a ++ b).
Proof. intros (c & e1 & e2 & v & -> & I & W). exists c, e1, (e2 ++ b), v. rewrite <- app_assoc. split; [reflexivity|]. split; [apply in_or_app; left; exact I|exact W]. Qed.
Lemma closes_app a b : closes a \/ closes b -> closes (a ++ b).
Proof. intros [(c & v & I)|(c & v & I)]; exists c, v; apply in_or_app; auto. Qed.
Definition done_ok (o : topts) (evs : list tev) : Prop :=
  if to_wake o then exists c, In (Mine (BRet c BcWake 0)) evs else woken evs /\ closes evs.
Lemma done_ok_app o a b : done_ok o a -> done_ok o (a ++ b).
Proof. unfold done_ok. destruct (to_wake o); [intros [c I]; exists c; apply in_or_app; auto|]. intros [W C]. split; [apply woken_app, W|apply closes_app; auto]. Qed.
Definition phase_ok (o : topts) (pid : Z) (y : bsys) (sg : bool) (ph : tph) (evs : list tev) : Prop :=
  match ph with
  | PStart | PGone => True
  | POpen c | PBlock c => own pid c y /\ to_wake o = false /\ opened c evs
  | PReady c => own pid c y /\ to_wake o = false /\ woken evs
  | PSig _ => False
  | PLock c => own pid c y /\ to_wake o = false /\ (woken evs \/ sg = true)
  | PWake c => own pid c y /\ to_wake o = true
  | PLeave code => code = 0 -> done_ok o evs
  end.
Record TI (o : topts) (pid : Z) (t : tool) (evs : list tev) : Prop := mkti {
  ti_b : breach honest (t_y t) (bws evs);
  ti_sig : t_sig t = true <-> In Signal evs;
  ti_ph : phase_ok o pid (t_y t) (t_sig t) (t_ph t) evs;
  ti_exit : In (Exit 0) evs -> exists a b, evs = a ++ Exit 0 :: b /\ done_ok o a;
  ti_dead : ~ In (Said SignalBlocked) evs }.

Lemma force_evs P c w y b l y' : tforce P c w y b l y' -> forall x, In x l -> exists v, x = Mine (BRet c (BcForce w) v).
Proof. intros [|v y1 S] x I; [destruct I|]. destruct I as [<-|[]]. exists v. reflexivity. Qed.
Lemma force_breach c w y b l y' evs : breach honest y evs -> tforce honest c w y b l y' -> breach honest y' (evs ++ bws l).
Proof. intros R [|v y1 S]; [cbn; rewrite app_nil_r; exact R|]. cbn. econstructor; [exact R|exact S]. Qed.
Lemma force_own pid c w y b l y' : tforce honest c w y b l y' -> own pid c y -> own pid c y'.
Proof. intros [|v y1 S] H; [exact H|apply (own_step _ _ _ _ _ _ S H)]. Qed.
Lemma opened_ctl c evs u : opened c evs -> opened c (evs ++ [Mine (BRet c (BcCtl SIGFD) u)]).
Proof.
  intros (e1 & e2 & -> & HM & HO). exists e1, (e2 ++ [Mine (BRet c (BcCtl SIGFD) u)]). rewrite <- app_assoc. split; [reflexivity|]. split.
  - intros v I. apply in_app_iff in I. destruct I as [I|[I|[]]]; [apply HM, I|]. injection I as <-. eexists; reflexivity.
  - intros w I. apply in_app_iff in I. destruct I as [I|[I|[]]]; [apply (HO _ I)|discriminate].
Qed.
Lemma opened_app c evs l : opened c evs -> (forall v, ~ In (Mine v) l) -> (forall u, ~ In (Other (BRet c (BcForce true) u)) l) -> opened c (evs ++ l).
Proof.
  intros (e1 & e2 & -> & HM & HO) H1 H2. exists e1, (e2 ++ l). rewrite <- app_assoc. split; [reflexivity|]. split.
  - intros v I. apply in_app_iff in I. destruct I as [I|I]; [apply HM, I|elim (H1 _ I)].
  - intros w I. apply in_app_iff in I. destruct I as [I|I]; [apply (HO _ I)|elim (H2 _ I)].
Qed.
Lemma TI_mk o pid t evs l t' : TI o pid t evs -> breach honest (t_y t') (bws evs ++ bws l) -> (t_sig t' = true <-> t_sig t = true \/ In Signal l) ->
  phase_ok o pid (t_y t') (t_sig t') (t_ph t') (evs ++ l) -> (In (Exit 0) l -> exists b, l = Exit 0 :: b /\ done_ok o evs) -> ~ In (Said SignalBlocked) l -> TI o pid t' (evs ++ l).
Proof.
  intros [B S P E D] B' S' P' E' D'. constructor.
  - rewrite bws_app. exact B'.
  - rewrite S', in_app_iff, S. tauto.
  - exact P'.
  - intros I. apply in_app_iff in I. destruct I as [I|I].
    + destruct (E I) as (a & b & -> & K). exists a, (b ++ l). rewrite <- app_assoc. auto.
    + destruct (E' I) as (b & -> & K). exists evs, b. auto.
  - rewrite in_app_iff. tauto.
Qed.
Lemma one y evs v y' : breach honest y evs -> bstep honest y v y' -> breach honest y' (evs ++ [v]).
Proof. intros R S. econstructor; eassumption. Qed.
Ltac leaf := solve [cbn; intuition (discriminate || auto)].

Theorem TI_step o pid t evs l t' : TI o pid t evs -> tstep honest o pid t l t' -> TI o pid t' (evs ++ l).
Proof.
  intros T S. pose proof (ti_b _ _ _ _ T) as B. pose proof (ti_ph _ _ _ _ T) as PH.
  destruct S as [v y' S F| |i y' N S|c N|c ok y' N S E|c v y' N S E|c u y1 y' code Hc N S1 S2|c v y' N S|c N A W|c v y' N S|c x v y' N A X S|c v y' N S
    |c e1 e2 y1 y2 N F1 F2 G|c e1 e2 y1 y2 r v y' code Hc N F1 F2 G HR S|code y' N S].
  - (* other *)
    apply (TI_mk _ _ _ _ _ _ T); [eapply one; eassumption|leaf| |leaf|leaf].
    assert (OC : forall c, own pid c (t_y t) -> forall u, ~ In (Other (BRet c (BcForce true) u)) [Other v]).
    { intros c O u [I|[]]. injection I as ->. cbn in F. apply F. apply (own_step _ _ _ _ _ _ S O). }
    assert (MC : forall u, ~ In (Mine u) [Other v]) by (intros u [I|[]]; discriminate).
    cbn [t_y t_ph t_sig]. change (t_ph (t <| t_y := y' |>)) with (t_ph t). change (t_sig (t <| t_y := y' |>)) with (t_sig t). change (t_y (t <| t_y := y' |>)) with y'.
    unfold phase_ok in *. destruct (t_ph t) as [|c|c|c|c|c|c|code|]; auto.
    + destruct PH as (O & M & Q). split; [apply (own_step _ _ _ _ _ _ S O)|]. split; [exact M|]. apply opened_app; auto.
    + destruct PH as (O & M & Q). split; [apply (own_step _ _ _ _ _ _ S O)|]. split; [exact M|]. apply opened_app; auto.
    + destruct PH as (O & M & Q). split; [apply (own_step _ _ _ _ _ _ S O)|]. split; [exact M|]. apply woken_app, Q.
    + destruct PH as (O & M & Q). split; [apply (own_step _ _ _ _ _ _ S O)|]. split; [exact M|]. destruct Q; [left; apply woken_app; assumption|right; assumption].
    + destruct PH as (O & M). split; [apply (own_step _ _ _ _ _ _ S O)|exact M].
    + intros Z0. apply done_ok_app, PH, Z0.
  - (* signal *)
    apply (TI_mk _ _ _ _ _ _ T); [cbn; rewrite app_nil_r; exact B|leaf| |leaf|leaf].
    change (t_ph (t <| t_sig := true |>)) with (t_ph t). change (t_sig (t <| t_sig := true |>)) with true. change (t_y (t <| t_sig := true |>)) with (t_y t).
    unfold phase_ok in *. destruct (t_ph t) as [|c|c|c|c|c|c|code|]; auto.
    + destruct PH as (O & M & Q). split; [exact O|]. split; [exact M|]. apply opened_app; [exact Q| |]; intros u [I|[]]; discriminate.
    + destruct PH as (O & M & Q). split; [exact O|]. split; [exact M|]. apply opened_app; [exact Q| |]; intros u [I|[]]; discriminate.
    + destruct PH as (O & M & Q). split; [exact O|]. split; [exact M|]. apply woken_app, Q.
    + destruct PH as (O & M & Q). auto.
    + intros Z0. apply done_ok_app, PH, Z0.
  - apply (TI_mk _ _ _ _ _ _ T); [eapply one; eassumption|leaf|exact I|leaf|leaf].
  - apply (TI_mk _ _ _ _ _ _ T); [cbn; rewrite app_nil_r; exact B|leaf| |leaf|leaf]. intros Z0. discriminate.
  - apply (TI_mk _ _ _ _ _ _ T); [eapply one; eassumption|leaf| |leaf|leaf]. cbn [t_y t_ph t_sig]. destruct ok; [|intros Z0; discriminate].
    pose proof (open_own _ _ _ _ _ _ _ S E) as O. destruct (to_wake o) eqn:M; [split; assumption|]. split; [exact O|]. split; [exact M|].
    exists evs, []. split; [reflexivity|]. split; intros v [].
  - apply (TI_mk _ _ _ _ _ _ T); [eapply one; eassumption|leaf| |leaf|leaf]. intros Z0. discriminate.
  - apply (TI_mk _ _ _ _ _ _ T); [cbn [t_y]; change (bws [Mine (BRet c BcWake 0); Mine (BRet c BcClose u)]) with ([BRet c BcWake 0] ++ [BRet c BcClose u]); rewrite app_assoc; apply (one y1); [apply (one (t_y t)); assumption|assumption]|leaf| |leaf|leaf].
    intros Z0. unfold done_ok. rewrite N in PH. destruct PH as [_ ->]. exists c. apply in_or_app. right. left. reflexivity.
  - rewrite N in PH. destruct PH as (O & M & Q). apply (TI_mk _ _ _ _ _ _ T); [eapply one; eassumption|leaf| |leaf|leaf]. cbn [t_y t_ph t_sig]. destruct (v =? 0); [|intros Z0; discriminate].
    split; [apply (own_step _ _ _ _ _ _ S O)|]. split; [exact M|]. apply opened_ctl, Q.
  - rewrite N in PH. destruct PH as (O & M & Q). change (t_y (t <| t_ph := _ |>)) with (t_y t).
    apply (TI_mk _ _ _ _ _ _ T); [destruct (t_sig t); cbn; rewrite app_nil_r; exact B|destruct t as [ty tp []]; leaf| |destruct (t_sig t); leaf|destruct (t_sig t); leaf].
    destruct t as [ty tp sg]. cbn in *. destruct sg; cbn; [intros Z0; discriminate|]. split; [exact O|]. split; [exact M|]. apply woken_app. destruct W as [W|W]; [|discriminate]. apply (opened_woken _ _ _ B Q W).
  - rewrite N in PH. destruct PH as (O & M & Q). apply (TI_mk _ _ _ _ _ _ T); [eapply one; eassumption|leaf| |leaf|leaf]. rewrite (ready_call _ _ _ _ _ S). cbn.
    split; [apply (own_step _ _ _ _ _ _ S O)|]. split; [exact M|]. left. apply woken_app, Q.
  - rewrite N in PH. destruct PH as (O & M & Q). destruct X as [->|[-> G]].
    + destruct (wait_call _ _ _ _ _ S) as [-> W]. apply (TI_mk _ _ _ _ _ _ T); [eapply one; eassumption|leaf| |leaf|leaf]. cbn.
      split; [apply (own_step _ _ _ _ _ _ S O)|]. split; [exact M|]. left. apply woken_app. apply (opened_woken _ _ _ B Q W).
    + pose proof (other_call _ _ _ _ _ _ S) as V. subst v. change (wait_says (-3)) with (@nil tev). change (wait_next c (-3)) with (PLock c). apply (TI_mk _ _ _ _ _ _ T); [eapply one; eassumption|leaf| |leaf|leaf]. cbn [t_y t_ph t_sig phase_ok].
      split; [apply (own_step _ _ _ _ _ _ S O)|]. split; [exact M|]. right. exact G.
  - rewrite N in PH. destruct PH.
  - apply (TI_mk _ _ _ _ _ _ T).
    + cbn [t_y]. rewrite !bws_app. cbn [bws flat_map]. rewrite app_nil_r, app_assoc. apply (force_breach _ _ _ _ _ _ _ (force_breach _ _ _ _ _ _ _ B F1) F2).
    + cbn [t_sig]. split; [auto|]. intros [H|H]; [exact H|]. rewrite !in_app_iff in H. destruct H as [H|[H|[H|[H|[]]]]]; try discriminate; [apply (force_evs _ _ _ _ _ _ _ F1) in H|apply (force_evs _ _ _ _ _ _ _ F2) in H]; destruct H; discriminate.
    + intros Z0. discriminate.
    + intros H. rewrite !in_app_iff in H. destruct H as [H|[H|[H|[H|[]]]]]; try discriminate; [apply (force_evs _ _ _ _ _ _ _ F1) in H|apply (force_evs _ _ _ _ _ _ _ F2) in H]; destruct H; discriminate.
    + intros H. rewrite !in_app_iff in H. destruct H as [H|[H|[H|[H|[]]]]]; try discriminate; [apply (force_evs _ _ _ _ _ _ _ F1) in H|apply (force_evs _ _ _ _ _ _ _ F2) in H]; destruct H; discriminate.
  - rewrite N in PH. destruct PH as (O & M & Q). apply (TI_mk _ _ _ _ _ _ T).
    + cbn [t_y]. rewrite !bws_app. cbn [bws flat_map]. change (bws [Said (FdReady r); Mine (BRet c BcClose v)]) with [BRet c BcClose v]. cbn [app]. rewrite !app_assoc. apply (one y2); [|exact S].
      apply (force_breach _ _ _ _ _ _ _ (force_breach _ _ _ _ _ _ _ B F1) F2).
    + cbn [t_sig]. split; [auto|]. intros [H|H]; [exact H|]. rewrite !in_app_iff in H. destruct H as [H|[H|[H|[H|[]]]]]; try discriminate; [apply (force_evs _ _ _ _ _ _ _ F1) in H|apply (force_evs _ _ _ _ _ _ _ F2) in H]; destruct H; discriminate.
    + intros Z0. unfold done_ok. rewrite M. split; [|exists c, v; rewrite !in_app_iff; cbn; tauto]. apply woken_app. destruct Q as [Q|Q]; [exact Q|congruence].
    + intros H. rewrite !in_app_iff in H. destruct H as [H|[H|[H|[H|[]]]]]; try discriminate; [apply (force_evs _ _ _ _ _ _ _ F1) in H|apply (force_evs _ _ _ _ _ _ _ F2) in H]; destruct H; discriminate.
    + intros H. rewrite !in_app_iff in H. destruct H as [H|[H|[H|[H|[]]]]]; try discriminate; [apply (force_evs _ _ _ _ _ _ _ F1) in H|apply (force_evs _ _ _ _ _ _ _ F2) in H]; destruct H; discriminate.
  - rewrite N in PH. apply (TI_mk _ _ _ _ _ _ T); [eapply one; eassumption|leaf|exact I| |leaf].
    intros [H|[H|[]]]; [|discriminate]. injection H as ->. eexists. split; [reflexivity|]. apply PH. reflexivity.
Qed.
Theorem TI_reach o pid t evs : treach honest o pid t evs -> TI o pid t evs.
Proof.
  induction 1 as [y evs0 R N|t evs l t' R IH S]; [|apply (TI_step _ _ _ _ _ _ IH S)].
  assert (H : forall x, In x (map Other evs0) -> exists v, x = Other v) by (intros x I; apply in_map_iff in I; destruct I as (v & <- & _); eauto).
  constructor; cbn [t_y t_ph t_sig phase_ok]; auto.
  - rewrite bws_other. exact R.
  - split; [discriminate|]. intros I. destruct (H _ I); discriminate.
  - intros I. destruct (H _ I); discriminate.
  - intros I. destruct (H _ I); discriminate.
Qed.

(** ** the theorems *)
Theorem exit_wait o pid t evs : treach honest o pid t evs -> to_wake o = false -> In (Exit 0) evs -> exists a b, evs = a ++ Exit 0 :: b /\ woken a /\ closes a.
Proof.
  intros R M I. destruct (ti_exit _ _ _ _ (TI_reach _ _ _ _ R) I) as (a & b & E & D). unfold done_ok in D. rewrite M in D. exists a, b. auto.
Qed.
Theorem exit_wake o pid t evs : treach honest o pid t evs -> to_wake o = true -> In (Exit 0) evs -> exists c a b, evs = a ++ Exit 0 :: b /\ In (Mine (BRet c BcWake 0)) a.
Proof.
  intros R M I. destruct (ti_exit _ _ _ _ (TI_reach _ _ _ _ R) I) as (a & b & E & D). unfold done_ok in D. rewrite M in D. destruct D as [c D]. exists c, a, b. auto.
Qed.
Theorem dead_branch o pid t evs : treach honest o pid t evs -> ~ In (Said SignalBlocked) evs.
Proof. intros R. apply (ti_dead _ _ _ _ (TI_reach _ _ _ _ R)). Qed.
Lemma call_waiting home y c x v y' c' : BY home y -> bstep honest y (BRet c x v) y' -> waiting y c' -> c <> c' -> waiting y' c'.
Proof.
  intros B S W N. apply waiting_Wt in W. destruct W as (n & k & W). apply waiting_Wt. exists n, k. apply (step_stays _ _ _ _ _ _ _ B S W).
  cbn [takes]. destruct x as [|[]| | | | |]; auto.
Qed.
Theorem wake_all_tool o pid t evs l t' c : treach honest o pid t evs -> tstep honest o pid t l t' -> In (Mine (BRet c BcWake 0)) l ->
  forall c', waiting (t_y t) c' -> readable (t_y t') c'.
Proof.
  intros R S I c' W. pose proof (ti_b _ _ _ _ (TI_reach _ _ _ _ R)) as B.
  destruct S as [v y' S F| |i y' N S|c1 N|c1 ok y' N S E|c1 v y' N S E|c1 u y1 y' code Hc N S1 S2|c1 v y' N S|c1 N A W1|c1 v y' N S|c1 x v y' N A X S|c1 v y' N S
    |c1 e1 e2 y1 y2 N F1 F2 G|c1 e1 e2 y1 y2 r v y' code Hc N F1 F2 G HR S|code y' N S]; cbn [In] in I.
  - destruct I as [I|[]]. discriminate.
  - destruct I as [I|[]]. discriminate.
  - destruct I as [I|[]]. discriminate.
  - destruct I.
  - destruct I as [I|[]]. discriminate.
  - destruct I as [I|[]]. injection I as -> ->. elim E. reflexivity.
  - destruct (breach_BY _ _ B) as [home BY0]. pose proof (wake_call _ _ _ _ _ S1) as NW. cbn [t_y].
    assert (c1 <> c') by (intros ->; contradiction).
    pose proof (wake_all _ _ _ _ _ B S1 W) as R1. apply (kept _ _ _ _ _ (one _ _ _ _ B S1) S2 R1). cbn [takes]. exact H.
  - destruct I as [I|[]]. discriminate.
  - destruct (t_sig t); cbn in I; intuition discriminate.
  - destruct I as [I|[]]. discriminate.
  - destruct I as [I|I]; [destruct X as [->|[-> _]]; discriminate|]. unfold wait_says in I. destruct (v =? 0), (v =? -1), (v =? -2); cbn in I; intuition discriminate.
  - destruct I as [I|[]]. discriminate.
  - rewrite !in_app_iff in I. destruct I as [I|[I|I]]; [apply (force_evs _ _ _ _ _ _ _ F1) in I|apply (force_evs _ _ _ _ _ _ _ F2) in I|cbn in I; intuition discriminate]; destruct I; discriminate.
  - rewrite !in_app_iff in I. destruct I as [I|[I|I]]; [apply (force_evs _ _ _ _ _ _ _ F1) in I|apply (force_evs _ _ _ _ _ _ _ F2) in I|cbn in I; intuition discriminate]; destruct I; discriminate.
  - intuition discriminate.
Qed.

Lemma closes_dec l : closes l \/ ~ closes l.
Proof.
  induction l as [|x l [(c & v & I)|N]]; [right; intros (c & v & [])|left; exists c, v; right; exact I|].
  assert (D : (exists c v, x = Mine (BRet c BcClose v)) \/ ~ (exists c v, x = Mine (BRet c BcClose v))).
  { destruct x as [[|c x v|]| | | |]; try (right; intros (? & ? & E); discriminate E).
    idtac. destruct x; try (right; intros (? & ? & E); discriminate E). left. exists c, v. reflexivity. }
  destruct D as [(c & v & ->)|D]; [left; exists c, v; left; reflexivity|]. right. intros (c & v & [I|I]); [apply D; eauto|apply N; exists c, v; exact I].
Qed.
Ltac noin := let I := fresh in intros I; cbn [In] in I; repeat match type of I with _ \/ _ => destruct I as [I|I] end; try discriminate I; try contradiction.
Lemma force_in c w y b l y' P : tforce P c w y b l y' -> ~ In Signal l /\ ~ In (Exit 0) l /\ ~ closes l.
Proof.
  intros F. repeat split.
  - intros I. apply (force_evs _ _ _ _ _ _ _ F) in I. destruct I; discriminate.
  - intros I. apply (force_evs _ _ _ _ _ _ _ F) in I. destruct I; discriminate.
  - intros (c1 & v & I). apply (force_evs _ _ _ _ _ _ _ F) in I. destruct I; discriminate.
Qed.
Lemma step_sig o pid t evs l t' : TI o pid t evs -> tstep honest o pid t l t' -> to_wake o = false ->
  (l = [Signal] \/ ~ In Signal l) /\ (t_sig t = true -> ~ closes evs -> ~ closes l /\ ~ In (Exit 0) l).
Proof.
  intros T S M. pose proof (ti_ph _ _ _ _ T) as PH.
  destruct S as [v y' S F| |i y' N S|c N|c ok y' N S E|c v y' N S E|c u y1 y' code Hc N S1 S2|c v y' N S|c N A W|c v y' N S|c x v y' N A X S|c v y' N S
    |c e1 e2 y1 y2 N F1 F2 G|c e1 e2 y1 y2 r v y' code Hc N F1 F2 G HR S|code y' N S].
  - split; [right; noin|]. intros _ _. split; [intros (c & u & I); revert I; noin|noin].
  - split; [left; reflexivity|]. intros _ _. split; [intros (c & u & I); revert I; noin|noin].
  - split; [right; noin|]. intros _ _. split; [intros (c & u & I); revert I; noin|noin].
  - split; [right; noin|]. intros _ _. split; [intros (c1 & u & I); revert I; noin|noin].
  - split; [right; noin|]. intros _ _. split; [intros (c1 & u & I); revert I; noin|noin].
  - split; [right; noin|]. intros _ _. split; [intros (c1 & u & I); revert I; noin|noin].
  - rewrite N in PH. destruct PH. congruence.
  - split; [right; noin|]. intros _ _. split; [intros (c1 & u & I); revert I; noin|noin].
  - split; [right; destruct (t_sig t); noin|]. intros _ _. split; [intros (c1 & u & I); revert I; destruct (t_sig t); noin|destruct (t_sig t); noin].
  - split; [right; noin|]. intros _ _. split; [intros (c1 & u & I); revert I; noin|noin].
  - assert (V : forall z, In z (wait_says v) -> exists s, z = Said s).
    { intros z I. unfold wait_says in I. destruct (v =? 0), (v =? -1), (v =? -2); cbn in I; repeat (destruct I as [<-|I]); try contradiction; eexists; reflexivity. }
    split; [right; intros [I|I]; [discriminate|apply V in I; destruct I; discriminate]|]. intros _ _. split.
    + intros (c1 & u & [I|I]); [destruct X as [->|[-> _]]; discriminate|apply V in I; destruct I; discriminate].
    + intros [I|I]; [discriminate|apply V in I; destruct I; discriminate].
  - rewrite N in PH. destruct PH.
  - destruct (force_in _ _ _ _ _ _ _ F1) as (A1 & A2 & A3). destruct (force_in _ _ _ _ _ _ _ F2) as (B1 & B2 & B3). split; [right; rewrite !in_app_iff; intros [I|[I|I]]; [tauto|tauto|revert I; noin]|].
    intros _ _. split; [|rewrite !in_app_iff; intros [I|[I|I]]; [tauto|tauto|revert I; noin]].
    intros (c1 & u & I). rewrite !in_app_iff in I. destruct I as [I|[I|I]]; [apply A3; exists c1, u; exact I|apply B3; exists c1, u; exact I|revert I; noin].
  - destruct (force_in _ _ _ _ _ _ _ F1) as (A1 & A2 & A3). destruct (force_in _ _ _ _ _ _ _ F2) as (B1 & B2 & B3). split; [right; rewrite !in_app_iff; intros [I|[I|I]]; [tauto|tauto|revert I; noin]|].
    intros G'. congruence.
  - split; [right; noin|]. intros _ NC. rewrite N in PH. split; [intros (c1 & u & I); revert I; noin|]. intros [I|[I|[]]]; [|discriminate]. injection I as ->.
    specialize (PH eq_refl). unfold done_ok in PH. rewrite M in PH. destruct PH as [_ C]. contradiction.
Qed.
Theorem signalled o pid t evs : treach honest o pid t evs -> to_wake o = false -> forall e1 e2, evs = e1 ++ Signal :: e2 -> closes e1 \/ ~ closes e2 /\ ~ In (Exit 0) e2.
Proof.
  intros R M. induction R as [y evs0 R N|t evs l t' R IH S]; intros e1 e2 E.
  - assert (I : In Signal (map Other evs0)) by (rewrite E; apply in_or_app; right; left; reflexivity). apply in_map_iff in I. destruct I as (v & I & _). discriminate.
  - pose proof (TI_reach _ _ _ _ R) as T. destruct (step_sig _ _ _ _ _ _ T S M) as [L K].
    apply app_eq_app in E. destruct E as (m & [[E1 E2]|[E1 E2]]).
    + destruct m as [|x m].
      * cbn in E2. subst l. destruct L as [L|L]; [injection L as ->|elim L; left; reflexivity]. right. split; [intros (c & v & [])|intros []].
      * cbn in E2. injection E2 as <- E2. subst e2. destruct (IH _ _ E1) as [H|[H1 H2]]; [left; exact H|].
        destruct (closes_dec e1) as [C|C]; [left; exact C|]. right.
        assert (SG : t_sig t = true) by (apply (ti_sig _ _ _ _ T); rewrite E1; apply in_or_app; right; left; reflexivity).
        destruct (K SG) as [K1 K2].
        { intros (c & v & I). rewrite E1 in I. apply in_app_iff in I. destruct I as [I|[I|I]]; [apply C; exists c, v; exact I|discriminate|apply H1; exists c, v; exact I]. }
        split.
        -- intros (c & v & I). apply in_app_iff in I. destruct I as [I|I]; [apply H1; exists c, v; exact I|apply K1; exists c, v; exact I].
        -- intros I. apply in_app_iff in I. tauto.
    + destruct L as [L|L]; [|elim L; rewrite E2; apply in_or_app; right; left; reflexivity].
      rewrite L in E2. destruct m as [|x m]; [injection E2 as <-|destruct m; discriminate]. right. split; [intros (c & v & [])|intros []].
Qed.

(** -f and -c *)
Lemma force_result y evs c w v y' : breach honest y evs -> bstep honest y (BRet c (BcForce w) v) y' -> v = 0 -> (readable y' c <-> w = true).
Proof.
  intros B S ->. pose proof (force_call _ _ _ _ _ _ S) as W. unfold waiting in W. destruct (queued y c) as [n|] eqn:Q; [|elim W; reflexivity]. clear W.
  destruct (no_more _ _ _ _ B Q) as [P _]. destruct (BwApiFinal2.own _ _ _ _ _ _ _ B S Q) as [K _]; [discriminate|]. cbn in K.
  unfold readable. rewrite K. destruct w; split; auto; [intros _; eexists; split; [reflexivity|lia]|intros (m & E & L); injection E as <-; lia|discriminate].
Qed.
Theorem forced o pid t evs l t' r : treach honest o pid t evs -> tstep honest o pid t l t' -> t_sig t = false -> In (Said (FdReady r)) l ->
  (forall c, In (Mine (BRet c (BcForce false) 0)) l -> r = false)
  /\ (forall c, In (Mine (BRet c (BcForce true) 0)) l -> (forall v, ~ In (Mine (BRet c (BcForce false) v)) l) -> r = true).
Proof.
  intros R S G I. pose proof (ti_b _ _ _ _ (TI_reach _ _ _ _ R)) as B.
  destruct S as [v y' S F| |i y' N S|c N|c ok y' N S E|c v y' N S E|c u y1 y' code Hc N S1 S2|c v y' N S|c N A W|c v y' N S|c x v y' N A X S|c v y' N S
    |c e1 e2 y1 y2 N F1 F2 G1|c e1 e2 y1 y2 r1 v y' code Hc N F1 F2 G1 HR S|code y' N S]; try (revert I; noin; fail).
  - (* select: nothing is forced *) rewrite G in *. split; intros c1; noin.
  - destruct I as [I|I]; [discriminate|]. exfalso. unfold wait_says in I. destruct (v =? 0), (v =? -1), (v =? -2); revert I; noin.
  - congruence.
  - assert (r1 = r) as ->.
    { rewrite !in_app_iff in I. destruct I as [I|[I|[I|[I|[]]]]]; try discriminate; [apply (force_evs _ _ _ _ _ _ _ F1) in I; destruct I; discriminate|apply (force_evs _ _ _ _ _ _ _ F2) in I; destruct I; discriminate|injection I as ->; reflexivity]. }
    split.
    + intros c1 J. rewrite !in_app_iff in J. destruct J as [J|[J|J]]; [apply (force_evs _ _ _ _ _ _ _ F1) in J; destruct J; discriminate| |revert J; noin].
      destruct F2 as [|v2 y2 S2]; [destruct J|]. destruct J as [J|[]]. injection J as -> ->.
      pose proof (force_breach _ _ _ _ _ _ _ B F1) as B1. pose proof (force_result _ _ _ _ _ _ B1 S2 eq_refl) as K. destruct r; [|reflexivity]. apply proj1 in HR. apply K in HR; [discriminate|reflexivity].
    + intros c1 J H. rewrite !in_app_iff in J. destruct J as [J|[J|J]]; [|apply (force_evs _ _ _ _ _ _ _ F2) in J; destruct J; discriminate|revert J; noin].
      destruct F1 as [|v1 y1 S1]; [destruct J|]. destruct J as [J|[]]. injection J as -> ->.
      destruct F2 as [|v2 y2 S2]; [|elim (H v2); cbn; tauto]. apply HR. apply (force_result _ _ _ _ _ _ B S1 eq_refl). reflexivity.
Qed.

(** a tool that waits is not kept waiting once its handle is readable *)
Theorem goes_on o pid t evs c e : treach honest o pid t evs -> t_ph t = PBlock c -> readable (t_y t) c -> honest (t_y t) e ->
  exists l t', tstep honest o pid t l t' /\ (In (Said (FdReady true)) l \/ In (Said Awoken) l).
Proof.
  intros R N W H. destruct (to_api o) eqn:A.
  - destruct W as (n & Q & P). unfold queued in Q. destruct (bc_h (bcli (t_y t) c)) as [[q cs|i k p]|] eqn:HC; try discriminate. injection Q as <-.
    eexists _, _. split. { eapply (ts_wait _ _ _ _ c BcWait 0); [exact N|exact A|left; reflexivity|]. eapply (bs_call _ _ e); [exact H|exact HC|].
    cbn. rewrite (proj2 (Z.gtb_lt _ _) P). reflexivity. }
    right. right. left. reflexivity.
  - eexists _, _. split; [apply (ts_select _ _ _ _ c N A (or_introl W))|left; left; reflexivity].
Qed.
(** ... and until then, with no signal, it says nothing and makes no call *)
Theorem stays o pid t evs c l t' : treach honest o pid t evs -> t_ph t = PBlock c -> ~ readable (t_y t) c -> t_sig t = false -> tstep honest o pid t l t' ->
  (exists v, l = [Other v]) \/ l = [Signal] \/ t_ph t' = PLeave (-1) /\ l = [] \/ (exists i, l = [Mine (BDied pid i)]).
Proof.
  intros R N W G S. destruct S; try congruence; try (rewrite N in *; discriminate); eauto 6.
  - assert (c0 = c) by congruence. subst c0. destruct H1; [contradiction|congruence].
  - assert (c0 = c) by congruence. subst c0. destruct H1 as [->|[_ E]]; [|congruence]. destruct (wait_call _ _ _ _ _ H2) as [_ K]. contradiction.
Qed.
