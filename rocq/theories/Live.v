(** * Who sleeps, on what, and why not everybody sleeps. *)
From Verif Require Export Buf BwFinal PollFacts.

Lemma f_blocked r w evs c : reach contract r w evs -> asleep w c = true ->
  let ms := cache_msgs (c_cache (cli w c)) in
  c_live (cli w c) = true /\
  ((exists buf niov, pending c evs = Some (CRead buf niov) /\ blocked_msgs w c = [])
   \/ (exists iov, pending c evs = Some (CWrite iov) /\ blocked_msgs w c = match ms with [] => iov | _ => ms end /\ blocked_msgs w c <> [])
   \/ (exists x, pending c evs = Some x /\ (x = CClose \/ exists wait, x = CFlush wait) /\ blocked_msgs w c = ms /\ ms <> [])).
Proof.
  intros R A. destruct (reach_inv _ _ _ _ id_contract R) as (fsz & F & X & B & W & HP & HB & _). cbv zeta.
  destruct (asleep_sid _ _ _ _ R A) as [Hl _]. split; [exact Hl|].
  destruct (wi_cl _ _ _ W c Hl) as [ms C]. pose proof (ci_pc _ _ _ _ C) as P. unfold pc_ok in P. rewrite (CI_msgs _ _ _ _ C).
  specialize (HP c). unfold asleep in A. unfold blocked_msgs.
  destruct (c_pc (cli w c)) as [ |k i l nb|k i l nb|? ?|b n| | |? |? ? ?] eqn:Hpc; cbn [pc_for] in HP; try discriminate.
  - destruct P as (_ & Hi & -> & Hk & _). assert (NE : i <> []) by apply Hi. destruct k; cbn [kont_ok] in Hk.
    + right. left. exists i. destruct HP as [-> _]. subst ms. auto.
    + right. left. exists iov. destruct HP as [-> _]. destruct Hk as (-> & _). split; [reflexivity|]. split; [destruct ms; [contradiction|reflexivity]|exact NE].
    + right. right. destruct HP as (wait & -> & _). exists (CFlush wait). subst ms. eauto 6.
    + right. right. destruct HP as [-> _]. exists CClose. subst ms. auto.
  - left. exists b, n. auto.
Qed.

Lemma f_no_deadlock r w evs c1 c2 buf niov x : reach steady r w evs ->
  pending c1 evs = Some (CRead buf niov) -> asleep w c1 = true ->
  pending c2 evs = Some x -> (forall b n, x <> CRead b n) -> asleep w c2 = true ->
  exists c w1, (c = c1 \/ c = c2) /\ step w (AWake c) = Ok (w1, []) /\ asleep w1 c = false.
Proof.
  intros R P1 A1 P2 NR A2. pose proof (reach_sub _ _ _ _ _ steady_contract R) as RC.
  destruct (reach_inv _ _ _ _ id_contract RC) as (fsz & F & X & B & W & HP & HB & _).
  destruct (f_blocked _ _ _ _ RC A2) as [L2 K]. cbv zeta in K.
  assert (NE : blocked_msgs w c2 <> []).
  { destruct K as [(b & n & E & _)|[(iov & _ & _ & E)|(y & _ & _ & E & E')]]; [rewrite P2 in E; injection E as E; elim (NR b n E)|exact E|rewrite E; exact E']. }
  clear K. assert (D : r_drop (w_ring w) = false).
  { pose proof (exec_sleepW r w evs c2 RC) as SW. unfold sleepW in SW. unfold blocked_msgs in NE.
    destruct (c_pc (cli w c2)); try contradiction. apply SW. }
  destruct (list_eq_dec (list_eq_dec Z.eq_dec) (available (w_ring w) (c_q (cli w c1))) []) as [E|E].
  - assert (EU : ring_unread (w_ring w) = []).
    { unfold available in E. destruct (r_farm (w_ring w)) eqn:Hf; [|exact E].
      pose proof (i_farm _ _ (wi_ring _ _ _ W) Hf) as [_ Q]. congruence. }
    assert (I : iov_ok (r_n (w_ring w)) (r_mm (w_ring w)) (blocked_msgs w c2)).
    { destruct (wi_cl _ _ _ W c2 L2) as [ms C]. pose proof (ci_pc _ _ _ _ C) as P. unfold pc_ok in P. unfold blocked_msgs in *.
      destruct (c_pc (cli w c2)); try contradiction. apply P. }
    destruct I as (_ & _ & I2 & I3).
    destruct (f_writer_wakes _ _ _ c2 R NE) as (w1 & S1 & S2 & _); rewrite ?EU; try (change (nbytes []) with 0; change (zlen (@nil bytes)) with 0; lia).
    exists c2, w1. auto.
  - destruct (f_reader_wakes _ _ _ _ _ _ R P1 A1 E) as (w1 & S1 & S2 & _). exists c1, w1. auto.
Qed.
