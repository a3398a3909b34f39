(** * The theorems, twenty-ninth part: readers with an event loop, and readers
      of FARM rings, in executions without end (C90, C91). *)
From Verif Require Import FairFarm.

(** ** C90 *)
(** While one reader reads whenever its selectable descriptor is readable, every
    call of the only writer ends. *)
Theorem C90_calls_end : forall r W A V, forever steady r W A V -> forall c d i0, event_loop r W A V d i0 -> fair W A V c ->
  (forall j, (i0 <= j)%nat -> ~ written_by_other c (V j)) ->
  forall x i, (forall buf niov, x <> CRead buf niov) -> (i0 <= i)%nat -> pending c (upto V i) = Some x ->
  exists j, (i <= j)%nat /\ ends c (V j).
Proof. exact el_calls_end. Qed.
Print Assumptions C90_calls_end.

(** While one reader reads whenever its selectable descriptor is readable, every
    message added to a ring without DROP is handed to a reader, in the order
    in which they were added: no readiness notification is lost. *)
Theorem C90_delivered : forall r W A V, forever steady r W A V -> forall d i0, r_drop r = false -> event_loop r W A V d i0 ->
  forall i, (i0 <= i)%nat -> exists j more, (i <= j)%nat /\ delivered (upto V j) = committed (upto V i) ++ more.
Proof. exact el_delivered. Qed.
Print Assumptions C90_delivered.
(** After step 6 the writer is asleep in a call that ends in step 10. *)
Example C90_case :
  let W := fw plain_ring plain_size d90 in let A := fa plain_ring plain_size d90 in let V := fe plain_ring plain_size d90 in
  forever steady plain_ring W A V /\ fair W A V 0 /\ event_loop plain_ring W A V 1 2 /\ r_drop plain_ring = false
  /\ (forall j, (2 <= j)%nat -> ~ written_by_other 0 (V j))
  /\ pending 0 (upto V 6%nat) = Some (CWrite [[1;2;3;4]]) /\ asleep (W 6%nat) 0 = true /\ (exists x, In (ERet 0 x) (V 9%nat))
  /\ A 6%nat = ACall 1 (CRead (zeros 10) 1) /\ pending 1 (upto V 8%nat) = None
  /\ committed (upto V 12%nat) = [[1;2;3;4;5;6;7];[1;2;3;4]] /\ delivered (upto V 12%nat) = [[1;2;3;4;5;6;7];[1;2;3;4]].
Proof.
  cbv zeta. split; [exact d90_forever|]. split; [apply d90_fair; auto|]. split; [exact d90_loop|]. split; [reflexivity|]. split; [exact d90_alone|].
  do 2 (split; [vm_compute; reflexivity|]). split; [eexists; vm_compute; right; left; reflexivity|].
  do 3 (split; [vm_compute; reflexivity|]). vm_compute. reflexivity.
Qed.

(** ** C91 *)
(** A reader of a FARM ring that keeps reading: whatever was in the ring when
    it was opened (from index [eldest pre] of the write history on), or was
    written since, has after a while been handed to it or been counted as lost to
    it by shr_farm_stat; and if nothing was lost, it has been handed all that,
    in the order of writing. *)
Theorem C91_farm : forall r W A V, forever steady r W A V -> r_farm r = true -> forall d i0, keeps_reading r W A V d i0 ->
  forall i, (i0 <= i)%nat -> exists j pre flags post w1, (i <= j)%nat
    /\ upto V j = pre ++ EOpen flags (Some d) :: post /\ reach contract r w1 pre
    /\ zlen (committed (upto V i)) <= eldest pre (w_ring w1) + zlen (delivered_to d (upto V j)) + (lost_reported d (upto V j) + c_md (cli (W j) d))
    /\ (lost_reported d (upto V j) + c_md (cli (W j) d) = 0 ->
        exists more, delivered_to d (upto V j) = skipn (Z.to_nat (eldest pre (w_ring w1))) (committed (upto V i)) ++ more).
Proof. exact f_farm_past. Qed.
Print Assumptions C91_farm.
(** the same for a reader with an event loop *)
Theorem C91_event_loop : forall r W A V, forever steady r W A V -> r_farm r = true -> forall d i0, event_loop r W A V d i0 ->
  forall i, (i0 <= i)%nat -> exists j pre flags post w1, (i <= j)%nat
    /\ upto V j = pre ++ EOpen flags (Some d) :: post /\ reach contract r w1 pre
    /\ zlen (committed (upto V i)) <= eldest pre (w_ring w1) + zlen (delivered_to d (upto V j)) + (lost_reported d (upto V j) + c_md (cli (W j) d))
    /\ (lost_reported d (upto V j) + c_md (cli (W j) d) = 0 ->
        exists more, delivered_to d (upto V j) = skipn (Z.to_nat (eldest pre (w_ring w1))) (committed (upto V i)) ++ more).
Proof. exact f_farm_loop. Qed.
Print Assumptions C91_event_loop.
Example C91_case :
  let W := fw farm_ring farm_size d91 in let A := fa farm_ring farm_size d91 in let V := fe farm_ring farm_size d91 in
  forever steady farm_ring W A V /\ r_farm farm_ring = true /\ event_loop farm_ring W A V 1 2 /\ keeps_reading farm_ring W A V 1 2
  /\ committed (upto V 12%nat) = [[1;1;1];[2;2;2];[3;3;3]] /\ delivered_to 1 (upto V 12%nat) = [[1;1;1];[2;2;2]]
  /\ delivered_to 1 (upto V 14%nat) = [[1;1;1];[2;2;2];[3;3;3]] /\ lost_reported 1 (upto V 14%nat) + c_md (cli (W 14%nat) 1) = 0.
Proof.
  cbv zeta. split; [exact d91_forever|]. split; [reflexivity|]. split; [exact d91_loop|]. split; [apply el_reads; [exact d91_forever|exact d91_loop]|].
  do 3 (split; [vm_compute; reflexivity|]). vm_compute. reflexivity.
Qed.
