(** * Some writer gets on (for C93) *)
From Verif Require Import Effects Final Pending Trace StepInv ReadCall Calls WriteCall KillBwFinal.
From Verif Require Export KillPipe.

(** a step of a writer that is awake *)
Lemma write_goes w0 w evs c e w' ev : WI w0 w evs -> c_live (cli w c) = true -> adding w c <> [] -> asleep w c = false -> step w (ARun c e) = Ok (w', ev) ->
  ends c ev \/ In (ECommit c (adding w c)) ev \/ adding w' c = adding w c \/ c_pc (cli w' c) = RunClose.
Proof.
  intros WW L NE As HS. pose proof (live_bound _ _ L) as LB. unfold adding in *. unfold asleep in As.
  destruct (c_pc (cli w c)) as [ |k iov len nb|k iov len nb|? ?|? ?| | |?|g0 s0 z0] eqn:Hpc; try contradiction; try discriminate As.
  assert (EW : forall cl v cl' rs, v <= 0 -> end_write cl k iov v = Ok (cl', rs) -> (exists y rs', rs = y :: rs') \/ c_pc cl' = RunClose).
  { intros cl v cl' rs Hv E. destruct k as [|iov' len'| |]; cbn [end_write] in E.
    - injection E as _ <-. left. eauto.
    - replace (v <=? 0) with true in E by (symmetry; apply Z.leb_le; lia). injection E as _ <-. left. eauto.
    - injection E as _ <-. left. eauto.
    - injection E as <- <-. right. reflexivity. }
  destruct (e_lock e) eqn:He.
  - destruct (write_crit _ _ _ _ _ _ _ _ _ _ _ WW L Hpc HS He) as (_ & _ & [(_ & _ & _ & Q)|(_ & _ & _ & hw' & cl' & rs & v & _ & -> & _)]); [|right; left; left; reflexivity].
    destruct nb.
    + destruct Q as (cl' & rs & E & -> & EC & _). destruct (EW _ 0 _ _ ltac:(lia) E) as [(y & rs' & ->)|E']; [left; apply (Fair2.ends_ret c [])|right; right; right; rewrite EC; exact E'].
    + destruct Q as (_ & _ & EC). right. right. left. rewrite EC. reflexivity.
  - cbn [step] in HS. rewrite L in HS. unfold run_client, crit_write in HS. rewrite Hpc, He in HS. cbn [negb obind] in HS. apply obind_ok in HS. destruct HS as ([cl' rs] & E & HS).
    injection HS as EW' EV. cbn [app] in EV. destruct (EW _ (-1) _ _ ltac:(lia) E) as [(y & rs' & ->)|E'].
    + left. rewrite <- EV. apply (Fair2.ends_ret c []).
    + right. right. right. rewrite <- EW', cli_setc_same by exact LB. exact E'.
Qed.

Section Run.
Variables (r : ring) (W : nat -> world) (D : nat -> deed) (V : nat -> list event) (i0 : nat).
Hypothesis FV : kforever steady r W D V.
Hypothesis NK : no_kills D i0.
Notation unread j := (ring_unread (w_ring (W j))).
Notation shrunk := (shrunk W).
Notation len i := (length (ring_unread (w_ring (W i)))).
Hypothesis DR : r_farm r = false -> forall j, (i0 <= j)%nat -> unread j <> [] -> exists k, (j <= k)%nat /\ shrunk k.
Variable c : nat.
Hypothesis F : kfair W D V c.
Hypothesis RDY : forall j, (i0 <= j)%nat -> adding (W j) c <> [] -> kfits W j (adding (W j) c) -> ready W j c.
Definition goes iov j := In (ECommit c iov) (V j) \/ ends c (V j) \/ written_by_other c (V j).

Lemma some_step iov x k : (i0 <= k)%nat -> iov <> [] -> adding (W k) c = iov -> pending c (upto V k) = Some x ->
  (exists j, (k <= j)%nat /\ goes iov j) \/ (adding (W (S k)) c = iov /\ pending c (upto V (S k)) = Some x /\ (len (S k) <= len k)%nat).
Proof.
  intros Hk NE EA Px. destruct (nk r W D V i0 FV NK k Hk) as (a & Ea & Ha & HS).
  destruct (kf_facts _ _ _ _ FV k) as (fsz & F0 & WW & HP & HB & _). pose proof (pend_live _ _ _ _ _ WW HP Px) as L.
  destruct (commit_or (V k)) as [(c' & ms & HI)|HC].
  { left. exists k. split; [lia|]. destruct (Nat.eq_dec c' c) as [->|N]; [left|right; right; exists c', ms; auto].
    destruct (commit_run _ _ _ _ _ _ HS HI) as (e & kk & ln & nb & _ & _ & Hpc). unfold adding in EA. rewrite Hpc in EA. congruence. }
  assert (NC : forall c' ms, ~ In (ECommit c' ms) (V k)).
  { intros c' ms HI. destruct (commit_run _ _ _ _ _ _ HS HI) as (e & kk & ln & nb & _ & L' & Hpc).
    destruct (wi_cl _ _ _ WW c' L') as [ms' C]. pose proof (ci_pc _ _ _ _ C) as P. unfold pc_ok in P. rewrite Hpc in P.
    destruct P as (_ & (NE' & _) & _). apply in_split in HI. destruct HI as (l1 & l2 & HI). rewrite HI, committed_app in HC. apply app_eq_nil in HC. destruct HC as [_ HC]. cbn in HC. apply app_eq_nil in HC. destruct HC as [HC _]. contradiction. }
  pose proof (n_len r W D V i0 FV NK k Hk NC) as LE.
  assert (CL : pending c (upto V (S k)) = Some x -> c_pc (cli (W (S k)) c) = RunClose -> exists j, (k <= j)%nat /\ goes iov j).
  { intros P' E. destruct (kl_close _ _ _ _ FV c (S k) F) as (j & Hj & Q); [congruence|exact E|]. exists j. split; [lia|right; left; exact Q]. }
  destruct (kf_in_call _ _ _ _ FV k c x Px) as [E|(P' & [(E & _)|[(_ & _ & E & _)|[(e & Ee & As)|(_ & E)]]])].
  - left. exists k. split; [lia|right; left; exact E].
  - right. split; [unfold adding in *; rewrite E; exact EA|auto].
  - right. split; [rewrite (writing_resume (W k)) by exact E; exact EA|auto].
  - rewrite Ee in Ea. injection Ea as <-. assert (NE0 : adding (W k) c <> []) by congruence.
    destruct (write_goes _ _ _ _ _ _ _ WW L NE0 As HS) as [Q|[Q|[Q|Q]]].
    + left. exists k. split; [lia|right; left; exact Q].
    + elim (NC _ _ Q).
    + right. split; [congruence|auto].
    + left. apply CL; assumption.
  - left. apply CL; assumption.
Qed.
Lemma some_goes : forall n iov i, (i0 <= i)%nat -> iov <> [] -> adding (W i) c = iov -> (len i < n)%nat -> exists j, (i <= j)%nat /\ goes iov j.
Proof.
  induction n as [|n IH]; [intros; lia|]. intros iov i Hi NE EA HL. assert (NE0 : adding (W i) c <> []) by congruence.
  destruct (kw_pend _ _ _ _ FV i c NE0) as [x Px]. pose proof (kf_live _ _ _ _ FV _ _ _ Px) as L.
  destruct (kf_facts _ _ _ _ FV i) as (fsz & F0 & WW & HP & _ & _ & EF & ED & _).
  assert (DEC : kfits W i iov \/ (r_drop (w_ring (W i)) = false /\ room (r_n (w_ring (W i))) (r_mm (w_ring (W i))) iov (unread i) = false)).
  { unfold kfits. destruct (r_drop (w_ring (W i))); [left; left; reflexivity|]. destruct (room _ _ _ _); auto. }
  destruct DEC as [FT|[D1 D2]].
  - rewrite <- EA in FT. destruct (kl_write _ _ _ _ FV c i F NE0 FT (RDY i Hi NE0 FT)) as (j & Hj & Q). rewrite EA in Q. exists j. split; [exact Hj|exact Q].
  - assert (Hf : r_farm r = false).
    { destruct (r_farm r) eqn:Hf; [|reflexivity]. destruct (i_farm _ _ (wi_ring _ _ _ WW) EF) as [_ Q]. congruence. }
    assert (NU : unread i <> []).
    { intros E. rewrite E in D2. destruct (wi_cl _ _ _ WW c L) as [ms C]. pose proof (ci_pc _ _ _ _ C) as P. unfold pc_ok in P.
      assert (I : iov_ok (r_n (w_ring (W i))) (r_mm (w_ring (W i))) iov) by (unfold adding in *; destruct (c_pc (cli (W i) c)); try contradiction; rewrite <- EA; apply P).
      destruct I as (_ & _ & I1 & I2). assert (room (r_n (w_ring (W i))) (r_mm (w_ring (W i))) iov [] = true); [|congruence].
      apply room_iff. change (nbytes []) with 0. change (zlen (@nil bytes)) with 0. lia. }
    destruct (DR Hf i Hi NU) as (k & Hk & SH).
    assert (ST : forall m, (i <= m)%nat -> adding (W m) c = iov /\ pending c (upto V m) = Some x /\ (len m <= len i)%nat ->
      (exists j, (m <= j)%nat /\ goes iov j) \/ (adding (W (S m)) c = iov /\ pending c (upto V (S m)) = Some x /\ (len (S m) <= len m)%nat)).
    { intros m Hm (Em & Pm & _). apply some_step; auto. lia. }
    destruct (until (fun m => (i <= m)%nat /\ adding (W m) c = iov /\ pending c (upto V m) = Some x /\ (len m <= len i)%nat)
      (fun m => exists j, (m <= j)%nat /\ goes iov j)) with (n := (k - i)%nat) (i := i) as [(m & Hm & j & Hj & Q)|(_ & Q)].
    + intros m (Hm & Q). destruct (ST m Hm Q) as [Q'|(Q1 & Q2 & Q3)]; [left; exact Q'|right]. split; [lia|]. split; [exact Q1|]. split; [exact Q2|]. destruct Q as (_ & _ & Q). lia.
    + auto.
    + exists j. split; [lia|exact Q].
    + replace (i + (k - i))%nat with k in Q by lia. destruct (ST k Hk Q) as [(j & Hj & Q')|(Q1 & Q2 & Q3)]; [exists j; split; [lia|exact Q']|].
      destruct Q as (_ & _ & Q). unfold Fair.shrunk in SH. destruct (IH iov (S k)) as (j & Hj & Q'); [lia|exact NE|exact Q1|lia|]. exists j. split; [lia|exact Q'].
Qed.
End Run.

Theorem k_some r W D V i0 : kforever steady r W D V -> no_kills D i0 -> forall c d, reads_on r W D V d i0 -> kfair W D V c -> pending c (upto V i0) = None ->
  forall i, (i0 <= i)%nat -> let iov := adding (W i) c in iov <> [] -> exists j, (i <= j)%nat /\ (In (ECommit c iov) (V j) \/ ends c (V j) \/ written_by_other c (V j)).
Proof.
  intros FV NK c d K F PC i Hi iov NE. apply (some_goes r W D V i0 FV NK (fun Hf => n_drain r W D V i0 FV NK d K Hf) c F (ws r W D V i0 FV NK c PC) (S (length (ring_unread (w_ring (W i))))) iov i); auto.
Qed.

(** the same without kills *)
Section NoKill.
Variables (r : ring) (W : nat -> world) (A : nat -> action) (V : nat -> list event).
Hypothesis FV : forever steady r W A V.
Notation D := (fun i => Acts (A i)).
Lemma forever_k : kforever steady r W D V.
Proof. destruct FV as [F1 F2 F3 F4]. constructor; [exact F1|intros i; split; [apply F2|apply F3]|exact F4]. Qed.
Lemma fair_k c : fair W A V c -> kfair W D V c.
Proof.
  intros [F1 F2]. split; intros i.
  - destruct (F1 i) as (j & Hj & [Q|[Q|(e & Q & Q')]]); exists j; split; auto. right. right. exists e. split; [congruence|exact Q'].
  - destruct (F2 i) as (j & Hj & [Q|[Q|Q]]); exists j; split; auto. right. right. congruence.
Qed.
Theorem f_some c d i0 : keeps_reading r W A V d i0 -> fair W A V c ->
  forall i, (i0 <= i)%nat -> let iov := adding (W i) c in iov <> [] -> exists j, (i <= j)%nat /\ (In (ECommit c iov) (V j) \/ ends c (V j) \/ written_by_other c (V j)).
Proof.
  intros K F i Hi iov NE.
  assert (NK : forall k, no_kills D k) by (intros k j _; eauto).
  apply (some_goes r W D V i0 forever_k (NK i0) (fun Hf => Fair2.drain r W A V FV d i0 K Hf) c (fair_k c F)) with (n := S (length (ring_unread (w_ring (W i))))); auto.
  intros j _. apply (ws r W D V O forever_k (NK O) c eq_refl j). lia.
Qed.
End NoKill.
