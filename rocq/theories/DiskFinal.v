(** * Facts about Disk.v in terms of events (C84) *)
From Verif Require Import Final Fair CrashFinal.
From Verif Require Export DiskFacts7.

Theorem d_write_ev r w evs u c e x w' ev ms : dreach faultless r w evs u -> has (r_gflags r) SHR_SYNC = true -> was_opened evs -> r_drop r = false ->
  step w (ARun c e) = Ok (w', ev) -> In (ECommit c ms) ev -> fails_in w u (ARun c e) x ->
  exists extra, committed evs ++ extra = delivered evs ++ ring_unread (im_ring x) /\ (extra = [] \/ length extra = length ms).
Proof.
  intros D SY O ND S I F. destruct (commit_run _ _ _ _ _ _ S I) as (e1 & k & len & nb & E & _ & Ep). injection E as <-.
  destruct (d_write _ _ _ _ _ _ _ _ _ _ _ D SY O ND Ep F) as (extra & E & K). exists extra. split; [|exact K].
  rewrite (f_fifo r w evs (faultless_reach _ _ _ (dreach_reach _ _ _ _ _ D)) ND), E, <- app_assoc. reflexivity.
Qed.
Theorem d_write_page_ev r w evs u c e x w' ev ms : dreach faultless r w evs u -> has (r_gflags r) SHR_SYNC = true -> was_opened evs -> r_drop r = false ->
  SIZEOF_CTRL + r_n r + r_pad_len r + r_mv_len r + r_app_len r <= PAGE ->
  step w (ARun c e) = Ok (w', ev) -> In (ECommit c ms) ev -> fails_in w u (ARun c e) x ->
  exists extra, committed evs ++ extra = delivered evs ++ ring_unread (im_ring x) /\ (extra = [] \/ extra = ms).
Proof.
  intros D SY O ND FS S I F. destruct (commit_run _ _ _ _ _ _ S I) as (e1 & k & len & nb & E & _ & Ep). injection E as <-.
  rewrite (f_fifo r w evs (faultless_reach _ _ _ (dreach_reach _ _ _ _ _ D)) ND).
  destruct (d_write_page _ _ _ _ _ _ _ _ _ _ _ D SY O ND FS Ep F) as [E|E]; rewrite E; [exists []|exists ms].
  - rewrite app_nil_r. auto.
  - rewrite <- app_assoc. auto.
Qed.
(** what [d_nothing_lost] says of what shr_open checks *)
Theorem d_valid r w evs u x : dreach faultless r w evs u -> has (r_gflags r) SHR_SYNC = true -> was_opened evs -> survives u x -> validate_ring (w_fsz w) true (im_ring x) = 0.
Proof. intros D SY O S. rewrite (d_nothing_lost _ _ _ _ _ D SY O S). exact (f_valid _ _ _ (faultless_reach _ _ _ (dreach_reach _ _ _ _ _ D))). Qed.
Theorem d_works r w evs u x : dreach faultless r w evs u -> has (r_gflags r) SHR_SYNC = true -> was_opened evs -> survives u x -> works_as_queue (im_ring x).
Proof.
  intros D SY O S. rewrite (d_nothing_lost _ _ _ _ _ D SY O S). destruct (reach_inv _ _ _ _ id_contract (faultless_reach _ _ _ (dreach_reach _ _ _ _ _ D))) as (fsz & _ & _ & _ & W & _ & SB & EF & _).
  apply (works_inv (w_ring w) (committed evs) (wi_ring _ _ _ W)). exact SB.
Qed.
