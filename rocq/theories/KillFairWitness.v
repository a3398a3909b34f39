(** * Concrete executions without end and with kills, for C79: a script, after
    which nothing more happens.  Nothing here is part of the model. *)
From Verif Require Export KillFair KillBwFinal.

Section KScript.
Variables (r : ring) (fsz : Z) (ks : list kcmd).
Definition kdeed (w : world) (i : nat) : deed :=
  match nth_error ks i with
  | Some (Do k) => Acts (act w k)
  | Some (Kill c n) => match kill_at n (section (calm (w_ks w)) (cli w c)) (shared w) with
                       | Some (line, m) => Killed c (calm (w_ks w)) line m | None => Acts (AWake 99) end
  | Some (KillOpen flags pid n) => match kill_at n (open_section (calm (w_ks w)) w flags pid) (shared w) with
                       | Some (line, m) => KilledOpening (calm (w_ks w)) flags pid line m | None => Acts (AWake 99) end
  | None => Acts (AWake 99)
  end.
Fixpoint kfw (i : nat) : world :=
  match i with O => world0 r fsz
  | S i => let u := kfw i in match nth_error ks i with Some k => match kplay1 u k with Some (w, _) => w | None => u end | None => u end end.
Definition kfd (i : nat) : deed := kdeed (kfw i) i.
Definition kfe (i : nat) : list event :=
  match nth_error ks i with Some k => match kplay1 (kfw i) k with Some (_, ev) => ev | None => [] end | None => [] end.
Definition KN := length ks.
Definition kfine_b : bool :=
  forallb (fun i => names_b (kfw i) && match nth_error ks i with Some k => match kplay1 (kfw i) k with Some _ => true | None => false end | None => false end) (seq 0 KN)
  && match wait_sid (cli (kfw KN) 99) with None => true | _ => false end && (negb (r_farm r) || (zlen (committed (upto kfe KN)) <? W64)).
Hypothesis FR : fresh r fsz.
Hypothesis FB : kfine_b = true.

Lemma knothing i : (KN <= i)%nat -> kfd i = Acts (AWake 99).
Proof. intros H. unfold kfd, kdeed. apply nth_error_None in H. rewrite H. reflexivity. Qed.
Lemma kafter i : (KN <= i)%nat -> kfw i = kfw KN /\ kfe i = [].
Proof.
  intros H. split.
  - induction H as [|i H IH]; [reflexivity|]. cbn [kfw]; cbv zeta. apply nth_error_None in H. rewrite H. exact IH.
  - unfold kfe. apply nth_error_None in H. rewrite H. reflexivity.
Qed.
Lemma kdoes i : does steady (kfw i) (kfd i) (kfw (S i)) (kfe i).
Proof.
  pose proof FB as B. unfold kfine_b in B. apply andb_true_iff in B. destruct B as [B _]. apply andb_true_iff in B. destruct B as [B BN].
  destruct (Nat.lt_ge_cases i KN) as [H|H].
  - rewrite forallb_forall in B. specialize (B i). rewrite in_seq in B. specialize (B ltac:(lia)). apply andb_true_iff in B. destruct B as [NB B2].
    unfold kfd, kdeed, kfe. cbn [kfw]; cbv zeta. destruct (nth_error ks i) as [k|]; [|discriminate]. set (w := kfw i) in *. clearbody w.
    destruct (kplay1 w k) as [[w1 ev1]|] eqn:E; [|discriminate]. clear B2. destruct k as [k|c n|flags pid n]; cbn [kplay1] in E.
    + destruct (ok_b w k) eqn:Ok; [|discriminate]. destruct (step w (act w k)) as [x| | |] eqn:Es; try discriminate. injection E as ->.
      cbn [does]. split; [apply act_steady; assumption|exact Es].
    + destruct (c_live (cli w c)) eqn:Hl; [|discriminate]. destruct (kill_at _ _ _) as [[line m]|] eqn:Ek; [|discriminate].
      destruct (untorn w c m line) eqn:U; [|discriminate]. injection E as <- <-. apply kill_dies in Ek.
      cbn [does]. split; [exact (act_steady w (Run c) NB eq_refl)|]. auto.
    + destruct (ok_b w (Open flags pid)) eqn:Ok; [|discriminate]. destruct (kill_at _ _ _) as [[line m]|] eqn:Ek; [|discriminate].
      injection E as <- <-. apply kill_dies in Ek. cbn [does]. split; [exact (act_steady w (Open flags pid) NB Ok)|]. auto.
  - rewrite (knothing i H). destruct (kafter i H) as [E1 E2]. destruct (kafter (S i) ltac:(lia)) as [E3 _]. rewrite E1, E2, E3. cbn [does].
    split; [apply steady_wake|]. cbn [step]. destruct (wait_sid (cli (kfw KN) 99)); [discriminate|reflexivity].
Qed.
Lemma kafter_upto i : (KN <= i)%nat -> upto kfe i = upto kfe KN.
Proof.
  induction 1 as [|i H IH]; [reflexivity|]. cbn [upto]. rewrite IH. destruct (kafter i H) as [_ ->]. rewrite app_nil_r. reflexivity.
Qed.
Lemma kscript_forever : kforever steady r kfw kfd kfe.
Proof.
  constructor.
  - exists fsz. split; [exact FR|reflexivity].
  - exact kdoes.
  - intros i Hf. pose proof FB as B. unfold kfine_b in B. apply andb_true_iff in B. destruct B as [_ B]. rewrite Hf in B. cbn [negb orb] in B. apply Z.ltb_lt in B.
    destruct (Nat.lt_ge_cases i KN) as [H|H]; [|rewrite (kafter_upto i H); exact B].
    destruct (upto_app kfe i KN ltac:(lia)) as (l & E). rewrite E, committed_app, zlen_app in B. pose proof (zlen_nonneg (committed l)). lia.
Qed.
(** no wake-up is queued for [c] at the end, and [c] is not waiting for the lock *)
Definition kresting c : bool :=
  (asleep (kfw KN) c || match pending c (upto kfe KN) with None => true | _ => false end)
  && (negb (asleep (kfw KN) c) || match wait_sid (cli (kfw KN) c) with Some (s, _) => negb (0 <? k_pend (sk (w_ks (kfw KN)) s)) | None => true end).
Lemma kscript_fair c : kresting c = true -> kfair kfw kfd kfe c.
Proof.
  intros H. unfold kresting in H. apply andb_true_iff in H. destruct H as [H1 H2]. split; intros i; exists (Nat.max i KN); (split; [lia|]).
  - destruct (kafter (Nat.max i KN) ltac:(lia)) as [-> _]. rewrite (kafter_upto (Nat.max i KN)) by lia. apply orb_true_iff in H1. destruct H1 as [H1|H1]; [right; left; exact H1|left]. destruct (pending c (upto kfe KN)); [discriminate|reflexivity].
  - destruct (kafter (Nat.max i KN) ltac:(lia)) as [-> _]. apply orb_true_iff in H2. destruct H2 as [H2|H2]; [left; apply negb_true_iff; exact H2|right; left].
    intros s p E. rewrite E in H2. apply negb_true_iff in H2. unfold readable. apply Z.ltb_ge in H2. lia.
Qed.
End KScript.

(** A reader (client 1) is asleep on the empty ring; a writer (client 2) is
    killed after storing its message and before waking anyone; another (client
    0) writes, which wakes the reader, and it reads both. *)
Definition d79r := map Do ([Open WR 7; Open RD 8] ++ read 1 10 5 ++ [Open WR 9; Call 2 (CWrite [[1;2]])]) ++ [Kill 2 16]
  ++ map Do (write 0 [[3]] ++ [Recv 1; Run 1]).
Notation WR79 := (kfw plain_ring plain_size d79r).
Notation DR79 := (kfd plain_ring plain_size d79r).
Notation VR79 := (kfe plain_ring plain_size d79r).
Lemma d79r_forever : kforever steady plain_ring WR79 DR79 VR79.
Proof. apply kscript_forever; [exact plain_fresh|vm_compute; reflexivity]. Qed.
Lemma d79r_fair c : c = O \/ c = 1%nat -> kfair WR79 DR79 VR79 c.
Proof. intros [->| ->]; apply kscript_fair; vm_compute; reflexivity. Qed.

(** A writer (client 0) is asleep, the ring being full; a reader (client 1) is
    killed after taking the message and before waking anyone; another writer
    fills part of the ring and another reader (client 2) reads that, which wakes
    the first writer. *)
Definition d79w := map Do ([Open WR 7; Open RD 8; Open RD 9; Open WR 10] ++ write 0 [[1;2;3;4;5;6;7]] ++ write 0 [[1;2;3;4]] ++ [Call 1 (CRead (zeros 10) 1)]) ++ [Kill 1 7]
  ++ map Do (write 3 [[5]] ++ read 2 10 5 ++ [Recv 0; Run 0]).
Notation WW79 := (kfw plain_ring plain_size d79w).
Notation DW79 := (kfd plain_ring plain_size d79w).
Notation VW79 := (kfe plain_ring plain_size d79w).
Lemma d79w_forever : kforever steady plain_ring WW79 DW79 VW79.
Proof. apply kscript_forever; [exact plain_fresh|vm_compute; reflexivity]. Qed.
Lemma d79w_fair c : c = O \/ c = 2%nat -> kfair WW79 DW79 VW79 c.
Proof. intros [->| ->]; apply kscript_fair; vm_compute; reflexivity. Qed.

(** sufficient tests for [~ orphaned] and [~ robbed] *)
Fixpoint orph_b (l : list event) : bool :=
  match l with
  | [] => false
  | x :: t => match x, t with ECommit _ _, ECrash _ :: e2 => match committed e2 with [] => true | _ => false end | _, _ => false end || orph_b t
  end.
Lemma orph_sound l : orph_b l = false -> ~ orphaned l.
Proof.
  intros H (e1 & c & ms & e2 & -> & E). induction e1 as [|x e1 IH]; cbn [app orph_b] in H.
  - rewrite E in H. discriminate.
  - apply orb_false_iff in H. destruct H as [_ H]. exact (IH H).
Qed.
Fixpoint rob_b (l : list event) : bool :=
  match l with
  | [] => false
  | x :: t => match x with ECrash _ => forallb (fun y => match y with ERet _ (RetRead v _ _) => v <=? 0 | _ => true end) t | _ => false end || rob_b t
  end.
Lemma rob_sound l : rob_b l = false -> ~ robbed l.
Proof.
  intros H (e1 & c & buf & niov & e2 & -> & _ & E). induction e1 as [|x e1 IH]; cbn [app rob_b] in H; apply orb_false_iff in H; destruct H as [H1 H2]; [|exact (IH H2)].
  assert (T : forallb (fun y => match y with ERet _ (RetRead v _ _) => v <=? 0 | _ => true end) e2 = true); [|congruence].
  apply forallb_forall. intros y Hy. destruct y; auto. destruct x; auto. apply Z.leb_le. eapply E. exact Hy.
Qed.

(** Deadlock: a writer (client 0) is asleep, the ring being full; a reader
    (client 1) is killed after taking everything and before waking anyone; the
    other reader (client 2) then goes to sleep on the empty ring. *)
Definition d79x := map Do ([Open WR 7; Open RD 8; Open RD 9] ++ write 0 [[1;2;3;4;5;6;7]] ++ write 0 [[1;2;3;4]] ++ [Call 1 (CRead (zeros 10) 1)]) ++ [Kill 1 7]
  ++ map Do (read 2 10 5 ++ [Recv 2; Run 2]).
Notation WX79 := (kfw plain_ring plain_size d79x).
Notation DX79 := (kfd plain_ring plain_size d79x).
Notation VX79 := (kfe plain_ring plain_size d79x).
Lemma d79x_forever : kforever steady plain_ring WX79 DX79 VX79.
Proof. apply kscript_forever; [exact plain_fresh|vm_compute; reflexivity]. Qed.
Lemma d79x_fair c : kfair WX79 DX79 VX79 c.
Proof. apply kscript_fair. destruct c as [|[|[|[|c]]]]; vm_compute; reflexivity. Qed.
Lemma d79x_still j : (KN d79x <= j)%nat -> VX79 j = [].
Proof. intros H. apply (kafter plain_ring plain_size d79x j H). Qed.

(** Orphan: a reader (client 1) is asleep on the empty ring; a writer (client 2)
    is killed after storing its message and before waking anyone. *)
Definition d79y := map Do ([Open WR 7; Open RD 8] ++ read 1 10 5 ++ [Open WR 9; Call 2 (CWrite [[1;2]])]) ++ [Kill 2 16].
Notation WY79 := (kfw plain_ring plain_size d79y).
Notation DY79 := (kfd plain_ring plain_size d79y).
Notation VY79 := (kfe plain_ring plain_size d79y).
Lemma d79y_forever : kforever steady plain_ring WY79 DY79 VY79.
Proof. apply kscript_forever; [exact plain_fresh|vm_compute; reflexivity]. Qed.
Lemma d79y_fair c : kfair WY79 DY79 VY79 c.
Proof. apply kscript_fair. destruct c as [|[|[|[|c]]]]; vm_compute; reflexivity. Qed.
Lemma d79y_still j : (KN d79y <= j)%nat -> VY79 j = [].
Proof. intros H. apply (kafter plain_ring plain_size d79y j H). Qed.

Lemma k79_writer_no : exists r W D V, kforever steady r W D V /\ (forall c, kfair W D V c) /\ exists c i, let iov := adding (W i) c in iov <> []
  /\ room (r_n (w_ring (W i))) (r_mm (w_ring (W i))) iov (ring_unread (w_ring (W i))) = true
  /\ (exists c' buf niov, c' <> c /\ pending c' (upto V i) = Some (CRead buf niov)) /\ (forall j, (i <= j)%nat -> V j = []).
Proof.
  exists plain_ring, WX79, DX79, VX79. split; [exact d79x_forever|]. split; [exact d79x_fair|]. exists O, (KN d79x). cbv zeta.
  split; [vm_compute; discriminate|]. split; [vm_compute; reflexivity|]. split; [|exact d79x_still].
  exists 2%nat, (zeros 10), 5. split; [discriminate|vm_compute; reflexivity].
Qed.
Lemma k79_reader_no : exists r W D V, kforever steady r W D V /\ (forall c, kfair W D V c) /\ exists c i buf niov,
  pending c (upto V i) = Some (CRead buf niov) /\ available (w_ring (W i)) (c_q (cli (W i) c)) <> [] /\ (forall j, (i <= j)%nat -> V j = []).
Proof.
  exists plain_ring, WY79, DY79, VY79. split; [exact d79y_forever|]. split; [exact d79y_fair|]. exists 1%nat, (KN d79y), (zeros 10), 5.
  split; [vm_compute; reflexivity|]. split; [vm_compute; discriminate|exact d79y_still].
Qed.
