(** * A woken tool gets to its end (C94) *)
From Verif Require Export BwToolPlay.

Lemma fresh_name : forall ks : socks, exists nm, forall k, In k ks -> k_name k < nm.
Proof.
  induction ks as [|k ks (nm & IH)]; [exists 0; intros k []|]. exists (Z.max nm (k_name k + 1)). intros k0 [<-|I]; [lia|]. specialize (IH _ I). lia.
Qed.
Lemma some_working y : exists e, working y e.
Proof.
  destruct (fresh_name (b_ks (y_s y))) as [nm H]. exists (benv (b_ks (y_s y)) nm). split; [apply benv_good|]. split; [|repeat split].
  intros k I. cbn. specialize (H _ I). lia.
Qed.
Lemma call_goes y evs c x : breach honest y evs -> waiting y c -> (forall fd, x <> BcOther fd) -> x <> BcWake -> (x = BcWait -> readable y c) ->
  exists v y', bstep honest y (BRet c x v) y'.
Proof.
  intros R W N NW RW. destruct (some_working y) as [e H]. pose proof (good_honest' _ _ H) as HH.
  unfold waiting, queued in W. destruct (bc_h (bcli y c)) as [h|] eqn:HC; [|elim W; reflexivity].
  destruct (modes y evs c h e x R HC N) as (A & _). destruct A as (s & o & v & E & _).
  - unfold allowed. assert (waiting y c) by (unfold waiting, queued; rewrite HC; exact W). destruct x; auto.
  - exact RW.
  - eexists v, _. apply (bs_call honest y e c h x s o v HH HC E).
Qed.
Lemma call_keeps y evs c x v y' : breach honest y evs -> bstep honest y (BRet c x v) y' -> waiting y c -> x <> BcClose -> waiting y' c.
Proof.
  intros R S W N. unfold waiting in W. destruct (queued y c) as [n|] eqn:Q; [|elim W; reflexivity]. destruct (BwApiFinal2.own _ _ _ _ _ _ _ R S Q N) as [K _].
  unfold waiting. rewrite K. discriminate.
Qed.
Lemma force_goes y evs c w b : breach honest y evs -> waiting y c -> exists l y', tforce honest c w y b l y' /\ breach honest y' (evs ++ bws l) /\ waiting y' c.
Proof.
  intros R W. destruct b; [|exists [], y; split; [constructor|]; cbn; rewrite app_nil_r; auto].
  destruct (call_goes y evs c (BcForce w) R W) as (v & y' & S); try discriminate.
  exists [Mine (BRet c (BcForce w) v)], y'. split; [constructor; exact S|]. split; [apply (one y); assumption|]. apply (call_keeps _ _ _ _ _ _ R S W). discriminate.
Qed.
(** from before the last section *)
Lemma lock_goes o pid y c evs : breach honest y evs -> waiting y c ->
  exists l t', truns honest o pid (mktool y (PLock c) false) l t' /\ In (Exit 0) l /\ by_itself l.
Proof.
  intros R W. destruct (force_goes y evs c true (to_force o) R W) as (e1 & y1 & F1 & R1 & W1). destruct (force_goes y1 _ c false (to_clear o) R1 W1) as (e2 & y2 & F2 & R2 & W2).
  destruct (call_goes y2 _ c BcClose R2 W2) as (v & y3 & S); try discriminate.
  eexists _, _. split; [|split].
  - eapply tu_step; [apply (ts_last honest o pid (mktool y (PLock c) false) c e1 e2 y1 y2 (readableb y2 c) v y3 0 (or_introl eq_refl) eq_refl F1 F2 eq_refl (readableb_ok y2 c) S)|].
    eapply tu_step; [apply (ts_exit honest o pid (mktool y3 (PLeave 0) false) 0 _ eq_refl (bs_die honest y3 pid))|apply tu_none].
  - rewrite in_app_iff. right. left. reflexivity.
  - intros e I. rewrite !in_app_iff in I. destruct I as [[I|[I|I]]|[I|I]].
    + apply (force_evs _ _ _ _ _ _ _ F1) in I. destruct I as [? ->]. exact Logic.I.
    + apply (force_evs _ _ _ _ _ _ _ F2) in I. destruct I as [? ->]. exact Logic.I.
    + destruct I as [<-|[<-|[]]]; exact Logic.I.
    + destruct I as [<-|[<-|[]]]; exact Logic.I.
    + destruct I.
Qed.
Theorem finishes o pid t evs c : treach honest o pid t evs -> t_ph t = PBlock c -> readable (t_y t) c -> t_sig t = false ->
  exists l t', truns honest o pid t l t' /\ In (Exit 0) l /\ by_itself l.
Proof.
  intros R N W G. pose proof (ti_b _ _ _ _ (TI_reach _ _ _ _ R)) as B.
  assert (WA : waiting (t_y t) c) by (destruct W as (n & Q & _); unfold waiting; rewrite Q; discriminate).
  destruct t as [y ph sg]. cbn in N, W, G, B, WA. subst ph sg. destruct (to_api o) eqn:A.
  - destruct (call_goes y _ c BcWait B WA) as (v & y' & S); try discriminate; [auto|]. pose proof (wait_call _ _ _ _ _ S) as [-> _].
    destruct (lock_goes o pid y' c _ (one _ _ _ _ B S)) as (l & t' & T & E & BI); [apply (call_keeps _ _ _ _ _ _ B S WA); discriminate|].
    eexists _, t'. split; [|split].
    + eapply tu_step; [|exact T]. apply (ts_wait honest o pid (mktool y (PBlock c) false) c BcWait 0 y' eq_refl A (or_introl eq_refl) S).
    + apply in_or_app. right. exact E.
    + intros e I. apply in_app_or in I. destruct I as [[<-|[<-|[]]]|I]; [exact Logic.I|exact Logic.I|apply BI, I].
  - destruct (call_goes y _ c BcReady B WA) as (v & y' & S); try discriminate. pose proof (ready_call _ _ _ _ _ S) as ->.
    destruct (lock_goes o pid y' c _ (one _ _ _ _ B S)) as (l & t' & T & E & BI); [apply (call_keeps _ _ _ _ _ _ B S WA); discriminate|].
    eexists _, t'. split; [|split].
    + eapply tu_step; [apply (ts_select honest o pid (mktool y (PBlock c) false) c eq_refl A (or_introl W))|]. 
      eapply tu_step; [apply (ts_ready honest o pid (mktool y (PReady c) false) c 0 y' eq_refl S)|exact T].
    + apply in_or_app. right. apply in_or_app. right. exact E.
    + intros e I. apply in_app_or in I. destruct I as [[<-|[]]|I]; [exact Logic.I|]. apply in_app_or in I. destruct I as [[<-|[]]|I]; [exact Logic.I|apply BI, I].
Qed.
