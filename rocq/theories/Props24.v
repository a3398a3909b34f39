(** * The theorems, twenty-fourth part: power failures, and rings with SHR_SYNC
    (C83).  Statements only; every proof is [exact] of a lemma. *)
From Verif Require Import DiskWitness.

(** ** C83: what a ring with SHR_SYNC keeps when the power fails between calls *)

(** The disk model restricts nothing: every execution is one of those
    considered here. *)
Theorem C83_every_execution : forall (P : world -> action -> Prop) r w evs, (forall w a, P w a -> contract w a) -> reach P r w evs -> exists u, dreach P r w evs u.
Proof. exact d_exists. Qed.
Print Assumptions C83_every_execution.

(** While msync works: whatever may be on the disk when the power fails while
    no call is inside a critical section, it is the ring as the processes saw
    it; shr_open accepts it, and it works as a queue. *)
Theorem C83_nothing_lost : forall r w evs u x, dreach faultless r w evs u -> has (r_gflags r) SHR_SYNC = true -> was_opened evs ->
  survives u x -> im_ring x = w_ring w.
Proof. exact d_nothing_lost. Qed.
Print Assumptions C83_nothing_lost.
Theorem C83_valid : forall r w evs u x, dreach faultless r w evs u -> has (r_gflags r) SHR_SYNC = true -> was_opened evs ->
  survives u x -> validate_ring (w_fsz w) true (im_ring x) = 0.
Proof. exact d_valid. Qed.
Print Assumptions C83_valid.
Theorem C83_works : forall r w evs u x, dreach faultless r w evs u -> has (r_gflags r) SHR_SYNC = true -> was_opened evs ->
  survives u x -> works_as_queue (im_ring x).
Proof. exact d_works. Qed.
Print Assumptions C83_works.
(** So without SHR_DROP what is unread on the disk is what was written less
    what was read. *)
Theorem C83_fifo : forall r w evs u x, dreach faultless r w evs u -> has (r_gflags r) SHR_SYNC = true -> was_opened evs ->
  survives u x -> r_drop r = false -> committed evs = delivered evs ++ ring_unread (im_ring x).
Proof. exact d_fifo. Qed.
Print Assumptions C83_fifo.

(** Whatever failed before, msync included: a call that stored something and
    reports success has it on the disk ... *)
Theorem C83_success : forall r w evs u c e w' ev m u' x y, dreach contract r w evs u -> has (r_gflags r) SHR_SYNC = true ->
  step w (ARun c e) = Ok (w', ev) -> seq_bound r (evs ++ ev) -> exec_all (dprog w (ARun c e)) (shared w, u) = Ok ((m, u'), tt) ->
  In (ERet c x) ev -> safe_result ev x -> survives u' y -> im_ring y = w_ring w'.
Proof. exact d_success. Qed.
Print Assumptions C83_success.
(** ... and so has a successful shr_open ... *)
Theorem C83_open : forall r w evs u e flags pid w' ev m u' c y, dreach contract r w evs u -> contract w (AOpen e flags pid) -> has (r_gflags r) SHR_SYNC = true ->
  step w (AOpen e flags pid) = Ok (w', ev) -> seq_bound r (evs ++ ev) -> exec_all (dprog w (AOpen e flags pid)) (shared w, u) = Ok ((m, u'), tt) ->
  In (EOpen flags (Some c)) ev -> survives u' y -> im_ring y = w_ring w'.
Proof. exact d_open. Qed.
Print Assumptions C83_open.
(** ... but shr_read and shr_readv only if the msync of that call worked (they
    ignore its result, src/shr.c l.852). *)
Theorem C83_read_partial : forall r w evs u c e w' ev m u' y v b io, dreach contract r w evs u -> has (r_gflags r) SHR_SYNC = true ->
  step w (ARun c e) = Ok (w', ev) -> seq_bound r (evs ++ ev) -> exec_all (dprog w (ARun c e)) (shared w, u) = Ok ((m, u'), tt) ->
  In (ERet c (RetRead v b io)) ev -> 0 < v -> e_msync e = true -> survives u' y -> im_ring y = w_ring w'.
Proof. exact d_read. Qed.
Print Assumptions C83_read_partial.

(** A message written with success, read with success while msync fails, and
    unread again after the power failure. *)
Definition s83 : list dcmd := map D ([Open WR 7; Open RD 8] ++ write 0 [[1;2]] ++ [Call 1 (CRead (zeros 9) 5)]).
Theorem C83_read_refuted : exists r w evs u x, dreach contract r w evs u /\ has (r_gflags r) SHR_SYNC = true
  /\ In (ERet 0 (RetWrite [[1;2]] 2)) evs /\ In (ERet 1 (RetRead 2 [1;2;0;0;0;0;0;0;0] [(0, 2)])) evs /\ delivered evs = [[1;2]]
  /\ survives u x /\ ring_unread (im_ring x) = [[1;2]].
Proof.
  exists sync_ring, (dw false sync0 (s83 ++ [NoSync 1])), (de false sync0 (s83 ++ [NoSync 1])), (du false sync0 (s83 ++ [NoSync 1])), (first_of (du false sync0 (s83 ++ [NoSync 1]))).
  split; [apply (dreach_script false); [exact sync_fresh|vm_compute; reflexivity]|]. split; [reflexivity|].
  split; [vm_compute; tauto|]. split; [vm_compute; tauto|]. split; [vm_compute; reflexivity|]. split; [|vm_compute; reflexivity].
  assert (H : exists a l, du false sync0 (s83 ++ [NoSync 1]) = Some (a :: l)) by (vm_compute; eauto). destruct H as (a & l & ->).
  apply survives_in. unfold first_of. apply last_in. discriminate.
Qed.
Print Assumptions C83_read_refuted.

(** two writes and a read; what is on the disk is determined *)
Definition s83f : list dcmd := map D ([Open WR 7; Open RD 8] ++ write 0 [[1;2];[3]] ++ read 1 2 5 ++ write 0 [[4;5]]).
Example C83_case : dreach faultless sync_ring (dw true sync0 s83f) (de true sync0 s83f) (du true sync0 s83f)
  /\ has (r_gflags sync_ring) SHR_SYNC = true /\ was_opened (de true sync0 s83f) /\ (exists x, survives (du true sync0 s83f) x) /\ r_drop sync_ring = false
  /\ committed (de true sync0 s83f) = [[1;2];[3];[4;5]] /\ delivered (de true sync0 s83f) = [[1;2]] /\ ring_unread (w_ring (dw true sync0 s83f)) = [[3];[4;5]].
Proof.
  split; [apply (dreach_script true); [exact sync_fresh|vm_compute; reflexivity]|]. split; [reflexivity|]. split; [exists WR, 0%nat; vm_compute; tauto|]. split.
  - assert (H : exists a l, du true sync0 s83f = Some (a :: l)) by (vm_compute; eauto). destruct H as (a & l & ->). exists a. apply survives_in. left. reflexivity.
  - vm_compute. repeat split; reflexivity.
Qed.
(** the write in it, as a step to which [C83_success] applies: the store before
    it was not known to be on the disk (an earlier msync failed) *)
Definition s83s : list dcmd := s83 ++ [NoSync 1] ++ map D [Call 0 (CWrite [[4;5]])].
Example C83_success_case : let w := dw false sync0 s83s in let u := du false sync0 s83s in let a := ARun 0 (calm (w_ks w)) in
  dreach contract sync_ring w (de false sync0 s83s) u /\ (exists x y, survives u x /\ survives u y /\ ring_unread (im_ring x) = [[1;2]] /\ ring_unread (im_ring y) = [])
  /\ exists w' m u', step w a = Ok (w', [ECommit 0 [[4;5]]; ERet 0 (RetWrite [[4;5]] 2)]) /\ exec_all (dprog w a) (shared w, u) = Ok ((m, u'), tt)
     /\ safe_result [ECommit 0 [[4;5]]; ERet 0 (RetWrite [[4;5]] 2)] (RetWrite [[4;5]] 2) /\ exists x, u' = Some [x] /\ ring_unread (im_ring x) = [[4;5]].
Proof.
  cbv zeta. split; [apply (dreach_script false); [exact sync_fresh|vm_compute; reflexivity]|]. split.
  - exists (first_of (du false sync0 s83s)), (last_of (du false sync0 s83s)). split; [|split; [|vm_compute; split; reflexivity]].
    all: assert (H : exists a l, du false sync0 s83s = Some (a :: l)) by (vm_compute; eauto); destruct H as (a & l & ->); apply survives_in; unfold first_of, last_of.
    + apply last_in. discriminate.
    + left. reflexivity.
  - vm_compute. do 3 eexists. do 2 (split; [reflexivity|]). split; [split; [reflexivity|discriminate]|]. eexists. split; reflexivity.
Qed.
