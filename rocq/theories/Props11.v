(** * The theorems, eleventh part: sleeping (C20, C51). *)
From Verif Require Import Live Witness2.

(** ** C20: what a sleeping client is waiting for, in terms of its calls *)
Theorem C20_blocked : forall r w evs c, reach contract r w evs -> asleep w c = true ->
  let ms := cache_msgs (c_cache (cli w c)) in
  c_live (cli w c) = true /\
  ((exists buf niov, pending c evs = Some (CRead buf niov) /\ blocked_msgs w c = [])
   \/ (exists iov, pending c evs = Some (CWrite iov) /\ blocked_msgs w c = match ms with [] => iov | _ => ms end /\ blocked_msgs w c <> [])
   \/ (exists x, pending c evs = Some x /\ (x = CClose \/ exists wait, x = CFlush wait) /\ blocked_msgs w c = ms /\ ms <> [])).
Proof. exact f_blocked. Qed.
Print Assumptions C20_blocked.

(** ** C51 *)
(** Of a sleeping reader and a sleeping writer, one has a wake-up waiting. *)
Theorem C51_no_deadlock : forall r w evs c1 c2 buf niov x, reach steady r w evs ->
  pending c1 evs = Some (CRead buf niov) -> asleep w c1 = true ->
  pending c2 evs = Some x -> (forall b n, x <> CRead b n) -> asleep w c2 = true ->
  exists c w1, (c = c1 \/ c = c2) /\ step w (AWake c) = Ok (w1, []) /\ asleep w1 c = false.
Proof. exact f_no_deadlock. Qed.
Print Assumptions C51_no_deadlock.
Definition d51 := map Do ([Open WR 7; Open RD 8] ++ read 1 9 1 ++ write 0 [[1;2;3;4;5;6;7]] ++ write 0 [[1;2;3;4]]).
Example C51_case : let w := sw2 true plain0 d51 in let evs := se2 true plain0 d51 in reach steady plain_ring w evs
  /\ pending 1 evs = Some (CRead (zeros 9) 1) /\ asleep w 1 = true
  /\ pending 0 evs = Some (CWrite [[1;2;3;4]]) /\ asleep w 0 = true /\ blocked_msgs w 0 = [[1;2;3;4]]
  /\ (exists w1, step w (AWake 1) = Ok (w1, []) /\ asleep w1 1 = false) /\ step w (AWake 0) = Ok (w, []).
Proof.
  cbv zeta. split; [apply reach_steady2; [exact plain_fresh|vm_compute; reflexivity]|].
  repeat (split; [vm_compute; reflexivity|]). split; [eexists; split; vm_compute; reflexivity|vm_compute; reflexivity].
Qed.
