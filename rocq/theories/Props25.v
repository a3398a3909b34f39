(** * The theorems, twenty-fifth part: the power fails inside a call (C84).
    Statements only; every proof is [exact] of a lemma. *)
From Verif Require Import DiskWitness.

(** ** C84: a ring with SHR_SYNC after a power failure inside a call *)

(** What is called here is anything but a call that stores messages or
    application data: shr_open, shr_read, shr_stat, shr_close, waiting.  The
    power failure leaves no more damage than killing the process (C46, C53)
    does: the ring on the disk is what killing it somewhere would have left in
    memory, or what it would have left had the call gone on. *)
Theorem C84_control_partial : forall r w evs u a x, dreach faultless r w evs u -> has (r_gflags r) SHR_SYNC = true -> was_opened evs -> contract w a ->
  match a with ARun c _ => only_control (cli w c) | _ => True end -> fails_in w u a x -> like_kill w a (im_ring x).
Proof. exact d_control. Qed.
Print Assumptions C84_control_partial.
(** If the file is no longer than a page that is so for every call. *)
Theorem C84_one_page_partial : forall r w evs u a x, dreach faultless r w evs u -> has (r_gflags r) SHR_SYNC = true -> was_opened evs -> contract w a ->
  SIZEOF_CTRL + r_n r + r_pad_len r + r_mv_len r + r_app_len r <= PAGE -> fails_in w u a x -> like_kill w a (im_ring x).
Proof. exact d_one_page. Qed.
Print Assumptions C84_one_page_partial.
(** In particular a write is then on the disk as a whole or not at all, and
    nothing that was there before is lost ... *)
Theorem C84_write_page_partial : forall r w evs u c e x w' ev ms, dreach faultless r w evs u -> has (r_gflags r) SHR_SYNC = true -> was_opened evs -> r_drop r = false ->
  SIZEOF_CTRL + r_n r + r_pad_len r + r_mv_len r + r_app_len r <= PAGE ->
  step w (ARun c e) = Ok (w', ev) -> In (ECommit c ms) ev -> fails_in w u (ARun c e) x ->
  exists extra, committed evs ++ extra = delivered evs ++ ring_unread (im_ring x) /\ (extra = [] \/ extra = ms).
Proof. exact d_write_page_ev. Qed.
Print Assumptions C84_write_page_partial.
(** ... while in a longer file the messages before it are safe, but in their
    place as many others may follow them as it was writing. *)
Theorem C84_write_partial : forall r w evs u c e x w' ev ms, dreach faultless r w evs u -> has (r_gflags r) SHR_SYNC = true -> was_opened evs -> r_drop r = false ->
  step w (ARun c e) = Ok (w', ev) -> In (ECommit c ms) ev -> fails_in w u (ARun c e) x ->
  exists extra, committed evs ++ extra = delivered evs ++ ring_unread (im_ring x) /\ (extra = [] \/ length extra = length ms).
Proof. exact d_write_ev. Qed.
Print Assumptions C84_write_partial.

(** Two pages: everything written had been read; the power fails in a write,
    and a message delivered long ago is in the ring again. *)
Definition s84 : list dcmd := map D ([Open WR 7; Open RD 8] ++ write 0 [[1;2;3]] ++ read 1 9 5 ++ write 0 [[4;5]] ++ read 1 9 5 ++ [Call 0 (CWrite [[6;7;8;9]])]).
Theorem C84_refuted : exists r w evs u c x e, (dreach faultless r w evs u /\ fails_in w u (ARun c e) x)
  /\ has (r_gflags r) SHR_SYNC = true /\ was_opened evs /\ r_drop r = false
  /\ delivered evs = [[1;2;3];[4;5]] /\ ring_unread (w_ring w) = [] /\ pending c evs = Some (CWrite [[6;7;8;9]])
  /\ ring_unread (im_ring x) = [[1;2;3]].
Proof.
  do 7 eexists. split; [apply (power_fails false big_ring big_size s84 0%nat 30 big_fresh); vm_compute; reflexivity|].
  split; [vm_compute; reflexivity|]. split; [exists WR, 0%nat; vm_compute; tauto|]. vm_compute. repeat split; reflexivity.
Qed.
Print Assumptions C84_refuted.
(** With SHR_DROP the messages before are not safe either: here the power fails
    while a write drops a message, and this message, which was written with
    success, is on the disk with 38 bytes of the new one in its middle. *)
Definition s84d : list dcmd := map D ([Open WR 7; Open RD 8] ++ write 0 [repeat 1 2200] ++ read 1 2400 5 ++ write 0 [repeat 2 200] ++ [Call 0 (CWrite [repeat 3 2350])]).
Theorem C84_drop_refuted : exists r w evs u c x e, (dreach faultless r w evs u /\ fails_in w u (ARun c e) x)
  /\ has (r_gflags r) SHR_SYNC = true /\ was_opened evs
  /\ committed evs = [repeat 1 2200; repeat 2 200] /\ pending c evs = Some (CWrite [repeat 3 2350])
  /\ ring_unread (im_ring x) = [repeat 2 112 ++ repeat 3 38 ++ repeat 2 50].
Proof.
  do 7 eexists. split; [apply (power_fails true bigd_ring bigd_size s84d 0%nat 2380 bigd_fresh); vm_compute; reflexivity|].
  split; [vm_compute; reflexivity|]. split; [exists WR, 0%nat; vm_compute; tauto|]. vm_compute. repeat split; reflexivity.
Qed.
Print Assumptions C84_drop_refuted.

(** [C84_write_partial] and [C84_write_page_partial]: the write of [C84_refuted]
    stores its message, and likewise one on a ring of one page. *)
Example C84_write_case : let w := dw true big0 s84 in exists w', step w (ARun 0 (calm (w_ks w))) = Ok (w', [ECommit 0 [[6;7;8;9]]; ERet 0 (RetWrite [[6;7;8;9]] 4)]).
Proof. vm_compute. eexists. reflexivity. Qed.
Definition s84p : list dcmd := map D ([Open WR 7; Open RD 8] ++ write 0 [[1;2;3]] ++ [Call 0 (CWrite [[4;5];[6]])]).
Example C84_page_case : let w := dw true sync0 s84p in let u := du true sync0 s84p in let a := ARun 0 (calm (w_ks w)) in
  dreach faultless sync_ring w (de true sync0 s84p) u /\ was_opened (de true sync0 s84p) /\ r_drop sync_ring = false
  /\ SIZEOF_CTRL + r_n sync_ring + r_pad_len sync_ring + r_mv_len sync_ring + r_app_len sync_ring <= PAGE
  /\ (exists w', step w a = Ok (w', [ECommit 0 [[4;5];[6]]; ERet 0 (RetWrite [[4;5];[6]] 3)]))
  /\ (exists x, fails_in w u a x /\ ring_unread (im_ring x) = [[1;2;3]]) /\ (exists x, fails_in w u a x /\ ring_unread (im_ring x) = [[1;2;3];[4;5];[6]]).
Proof.
  cbv zeta. split; [apply (dreach_script true); [exact sync_fresh|vm_compute; reflexivity]|]. split; [exists WR, 0%nat; vm_compute; tauto|]. split; [vm_compute; reflexivity|]. split; [vm_compute; discriminate|].
  split; [vm_compute; eexists; reflexivity|].
  split; [exists (first_of (noted (dw true sync0 s84p) (du true sync0 s84p) 0 30))|exists (last_of (noted (dw true sync0 s84p) (du true sync0 s84p) 0 30))];
    (split; [|vm_compute; reflexivity]); (apply (fails_script _ _ 0%nat 30); [vm_compute; reflexivity|]).
  all: assert (H : exists a l, noted (dw true sync0 s84p) (du true sync0 s84p) 0 30 = Some (a :: l)) by (vm_compute; eauto); destruct H as (a & l & ->); apply survives_in; unfold first_of, last_of.
  - apply last_in. discriminate.
  - left. reflexivity.
Qed.
(** [C84_control_partial]: the power fails in a read, and the message is there
    again, or gone. *)
Definition s84r : list dcmd := map D ([Open WR 7; Open RD 8] ++ write 0 [[1;2;3]] ++ [Call 1 (CRead (zeros 9) 5)]).
Example C84_control_case : let w := dw true big0 s84r in let u := du true big0 s84r in let a := ARun 1 (calm (w_ks w)) in
  dreach faultless big_ring w (de true big0 s84r) u /\ was_opened (de true big0 s84r) /\ only_control (cli w 1)
  /\ (exists x, fails_in w u a x /\ ring_unread (im_ring x) = [[1;2;3]]) /\ (exists x, fails_in w u a x /\ ring_unread (im_ring x) = []).
Proof.
  cbv zeta. split; [apply (dreach_script true big_ring big_size); [exact big_fresh|vm_compute; reflexivity]|]. split; [exists WR, 0%nat; vm_compute; tauto|]. split; [vm_compute; exact Logic.I|].
  split; [exists (first_of (noted (dw true big0 s84r) (du true big0 s84r) 1 15))|exists (last_of (noted (dw true big0 s84r) (du true big0 s84r) 1 15))];
    (split; [|vm_compute; reflexivity]); (apply (fails_script _ _ 1%nat 15); [vm_compute; reflexivity|]).
  all: assert (H : exists a l, noted (dw true big0 s84r) (du true big0 s84r) 1 15 = Some (a :: l)) by (vm_compute; eauto); destruct H as (a & l & ->); apply survives_in; unfold first_of, last_of.
  - apply last_in. discriminate.
  - left. reflexivity.
Qed.
