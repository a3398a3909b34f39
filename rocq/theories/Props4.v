(** * The theorems, fourth part: ring files (C28). *)
From Verif Require Import Witness3.

(** ** C28 *)
(** An existing file and SHR_KEEPEXIST: 0, and nothing changes, whatever the
    state of the file system. *)
Theorem C28_keepexist : forall s a,
  0 < ia_data a -> ia_flags a < SHR_OPEN_FENCE ->
  has (ia_flags a) SHR_KEEPEXIST = true -> lookup (fs_dir s) (ia_path a) <> None ->
  exists s', frun s (calls_init s a [true]) = Ok (s', [FRet (List.length (fs_ini s)) 0])
    /\ fs_dir s' = fs_dir s /\ fs_ino s' = fs_ino s /\ fs_fds s' = fs_fds s.
Proof. exact f_keepexist. Qed.
Print Assumptions C28_keepexist.

(** Otherwise, if the system calls succeed, shr_init returns 0 ... *)
Theorem C28_recreate : forall s a, args_ok a ->
  0 < ia_data a -> ia_flags a < SHR_OPEN_FENCE ->
  has (ia_flags a) SHR_KEEPEXIST = false \/ lookup (fs_dir s) (ia_path a) = None ->
  exists k s', frun s (calls_init s a (repeat true k)) = Ok (s', [FRet (List.length (fs_ini s)) 0]).
Proof. exact f_recreate. Qed.
Print Assumptions C28_recreate.

(** ... and whichever of them fail, no existing file changes, no other name
    changes, and if the result is 0 (and the file was not kept) the name stands
    for a new file with a fresh ring, not locked, that nobody has used. *)
Theorem C28_result : forall s a oks s' evs rc,
  args_ok a -> frun s (calls_init s a oks) = Ok (s', evs) -> In (FRet (List.length (fs_ini s)) rc) evs ->
  let N := List.length (fs_ino s) in
  (forall i, (i < N)%nat -> ino s' i = ino s i)
  /\ (forall q, q <> ia_path a -> lookup (fs_dir s') q = lookup (fs_dir s) q)
  /\ ((rc = 0 /\ has (ia_flags a) SHR_KEEPEXIST = true /\ lookup (fs_dir s) (ia_path a) <> None
         /\ fs_dir s' = fs_dir s /\ fs_ino s' = fs_ino s)
      \/ (rc = 0 /\ lookup (fs_dir s') (ia_path a) = Some N /\ in_lock (ino s' N) = None
         /\ exists l, lay a = Ok (Some l) /\ in_size (ino s' N) = l_sz l
            /\ ring_at s' N = Some (world0 (ring_of_layout l (ia_flags a) (ia_app a)) (l_sz l))
            /\ fresh (ring_of_layout l (ia_flags a) (ia_app a)) (l_sz l))
      \/ (rc = -1 /\ (lookup (fs_dir s') (ia_path a) = lookup (fs_dir s) (ia_path a) \/ lookup (fs_dir s') (ia_path a) = None
            \/ (lookup (fs_dir s') (ia_path a) = Some N /\ ring_at s' N = None)))).
Proof. exact f_alone. Qed.
Print Assumptions C28_result.

(** Any number of processes creating, opening, removing and using rings, in
    any interleaving, with any failures and deaths: the history of each ring
    file is a history of Sys.v from a fresh ring, so every theorem about those
    applies to it, whatever happens to its name. *)
Theorem C28_each_ring : forall s evs i w, fexec s evs -> ring_at s i = Some w ->
  exists r fsz, fresh r fsz /\ exec contract (world0 r fsz) w (events_of i evs).
Proof. exact f_each_ring. Qed.
Print Assumptions C28_each_ring.
(** Nothing but the actions of its own users changes a ring. *)
Theorem C28_undisturbed : forall s evs x s' ev i w, fexec s evs -> ring_at s i = Some w -> (forall a, x <> FAct i a) ->
  fstep s x = Ok (s', ev) -> ring_at s' i = Some w /\ events_of i ev = [].
Proof. exact f_undisturbed. Qed.
Print Assumptions C28_undisturbed.

(** a history: ring file 0 is created and used, then the name is given to a new
    ring (file 1) by another process; the old users go on *)
Definition a28 : iargs := mkia "ring" 10 SHR_MAXMSGS_2 [] 3.
Definition make28 (p : nat) : list fcmd := Init a28 :: repeat (Sys p true) 7.
Definition use28 : list fcmd := [Look "ring"; On 0 (Open WR 7); On 0 (Call 0 (CWrite [[1;2]])); On 0 (Run 0)].
Definition h28 : fs * list fevent := Eval vm_compute in
  match fplay fs0 (make28 0 ++ use28 ++ make28 1 ++ [On 0 (Call 0 (CWrite [[3]])); On 0 (Run 0); Look "ring"; On 1 (Open RDN 8)]) with
  | Some x => x | None => (fs0, []) end.
Example C28_case : fexec (fst h28) (snd h28)
  /\ lookup (fs_dir (fst h28)) "ring" = Some 1%nat
  /\ In (FRet 1 0) (snd h28)
  /\ (exists w, ring_at (fst h28) 0 = Some w /\ ring_unread (w_ring w) = [[1;2];[3]])
  /\ (exists w, ring_at (fst h28) 1 = Some w /\ ring_unread (w_ring w) = [] /\ List.length (w_cl w) = 1%nat).
Proof.
  split; [apply (fplay0 (make28 0 ++ use28 ++ make28 1 ++ [On 0 (Call 0 (CWrite [[3]])); On 0 (Run 0); Look "ring"; On 1 (Open RDN 8)])); vm_compute; reflexivity|].
  split; [reflexivity|]. split; [vm_compute; tauto|].
  split; eexists; (split; [vm_compute; reflexivity|]); vm_compute; auto.
Qed.
Example C28_case_args : args_ok a28 /\ 0 < ia_data a28 /\ ia_flags a28 < SHR_OPEN_FENCE
  /\ has (Z.lor SHR_KEEPEXIST SHR_MAXMSGS_2) SHR_KEEPEXIST = true /\ lookup (fs_dir (fst h28)) "ring" <> None
  /\ exists s' evs, frun (fst h28) (calls_init (fst h28) a28 [true; true; true; true; false; true; true]) = Ok (s', evs)
     /\ In (FRet 2 (-1)) evs.
Proof.
  split; [apply args_sound; reflexivity|]. split; [reflexivity|]. split; [reflexivity|]. split; [reflexivity|]. split; [discriminate|].
  eexists; eexists; (split; [vm_compute; reflexivity|]). vm_compute. auto.
Qed.

(** What a caller might expect beyond C28, and does not get. *)

(** shr_init without SHR_KEEPEXIST that fails (here: ftruncate, no space)
    has already removed the existing ring: no ring is left under the name. *)
Theorem C28_failure_keeps_ring_refuted : exists s evs a oks s' evs' w,
  fexec s evs /\ lookup (fs_dir s) (ia_path a) = Some 0%nat /\ ring_at s 0 = Some w /\ ring_unread (w_ring w) = [[1;2]]
  /\ args_ok a /\ frun s (calls_init s a oks) = Ok (s', evs') /\ In (FRet 1 (-1)) evs'
  /\ lookup (fs_dir s') (ia_path a) = None.
Proof.
  destruct (fplay fs0 (make28 0 ++ use28)) as [[s evs]|] eqn:E; [|vm_compute in E; discriminate].
  exists s, evs, a28, [true; true; true; true; false; true; true]. pose proof (fplay0 _ _ _ E) as X.
  vm_compute in E. injection E as <- <-.
  eexists; eexists; eexists. split; [exact X|]. split; [reflexivity|]. split; [reflexivity|]. split; [vm_compute; reflexivity|].
  split; [apply args_sound; reflexivity|]. split; [vm_compute; reflexivity|]. split; [vm_compute; auto|reflexivity].
Qed.
Print Assumptions C28_failure_keeps_ring_refuted.

(** Two processes create the same ring at the same time: the second one is told
    0 and has its ring under the name; the first one fails late and removes
    the name, though its own file was no longer under it. *)
Definition race28 : list fcmd :=
  Init a28 :: repeat (Sys 0 true) 3 ++ Init a28 :: repeat (Sys 1 true) 7 ++ [Sys 0 true; Sys 0 false; Sys 0 true; Sys 0 true].
Theorem C28_success_lasts_refuted : exists s evs, fexec s evs /\ In (FRet 1 0) evs /\ In (FRet 0 (-1)) evs
  /\ lookup (fs_dir s) "ring" = None.
Proof.
  destruct (fplay fs0 race28) as [[s evs]|] eqn:E; [|vm_compute in E; discriminate].
  exists s, evs. pose proof (fplay0 _ _ _ E) as X. vm_compute in E. injection E as <- <-. split; [exact X|]. vm_compute. auto.
Qed.
Print Assumptions C28_success_lasts_refuted.

(** SHR_KEEPEXIST returns 0 for any existing file, also for one whose creator
    died before it was complete: shr_open then fails. *)
Definition k28 : iargs := mkia "ring" 10 SHR_KEEPEXIST [] 0.
Definition dead28 : list fcmd := Init k28 :: repeat (Sys 0 true) 4 ++ [Kill 0; Init k28; Sys 1 true; Look "ring"; On 0 (Open RDN 8)].
Theorem C28_keepexist_usable_refuted : exists s evs pre, fexec s evs /\ evs = pre ++ [FRet 1 0; FNoRing].
Proof.
  destruct (fplay fs0 dead28) as [[s evs]|] eqn:E; [|vm_compute in E; discriminate].
  exists s, evs, []. pose proof (fplay0 _ _ _ E) as X. vm_compute in E. injection E as <- <-. split; [exact X|]. reflexivity.
Qed.
Print Assumptions C28_keepexist_usable_refuted.

(** Two processes create the same ring with SHR_KEEPEXIST at the same time: one
    of them is told -1 although the ring exists. *)
Definition both28 : list fcmd := [Init k28; Init k28; Sys 0 true; Sys 1 true; Sys 0 true; Sys 1 true] ++ repeat (Sys 0 true) 4.
Theorem C28_keepexist_race_refuted : exists s evs w, fexec s evs /\ In (FRet 0 0) evs /\ In (FRet 1 (-1)) evs
  /\ lookup (fs_dir s) "ring" = Some 0%nat /\ ring_at s 0 = Some w.
Proof.
  destruct (fplay fs0 both28) as [[s evs]|] eqn:E; [|vm_compute in E; discriminate].
  exists s, evs. pose proof (fplay0 _ _ _ E) as X. vm_compute in E. injection E as <- <-. eexists. split; [exact X|]. vm_compute. auto.
Qed.
Print Assumptions C28_keepexist_race_refuted.
