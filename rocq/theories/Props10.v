(** * The theorems, tenth part: what zero means, what else shr_stat tells, and
    the cache of a buffered writer call by call (C05, C09, C14, C50). *)
From Verif Require Import Buf.

(** ** C05, C09: a call that may wait never returns 0 *)
Theorem C05_zero_write : forall r w evs a w' ev c iov, reach contract r w evs -> contract w a -> step w a = Ok (w', ev) ->
  In (ERet c (RetWrite iov 0)) ev -> nonblocking w c = true /\ r_drop r = false.
Proof. exact f_zero_write. Qed.
Print Assumptions C05_zero_write.
Theorem C09_zero_read : forall r w evs a w' ev c buf iov, reach contract r w evs -> contract w a -> step w a = Ok (w', ev) ->
  In (ERet c (RetRead 0 buf iov)) ev -> nonblocking w c = true /\ available (w_ring w) (c_q (cli w c)) = [] /\ iov = [].
Proof. exact f_zero_read. Qed.
Print Assumptions C09_zero_read.
Definition s50z := [Open WRN 7; Open RDN 8] ++ read 1 9 1 ++ write 0 [[1;2;3;4;5;6;7]] ++ [Call 0 (CWrite [[1;2;3;4]])].
Example C05_zero_case : let w := sw plain0 s50z in reach contract plain_ring w (se plain0 s50z)
  /\ (exists w', step w (ARun 0 (calm (w_ks w))) = Ok (w', [ERet 0 (RetWrite [[1;2;3;4]] 0)]))
  /\ In (ERet 1 (RetRead 0 (zeros 9) [])) (se plain0 s50z).
Proof.
  cbv zeta. split; [apply reach_contract; [exact plain_fresh|vm_compute; reflexivity]|].
  split; [eexists; vm_compute; reflexivity|]. vm_compute. auto.
Qed.

(** ** C14: the rest of struct shr_stat *)
Theorem C14_stat_flags : forall r w evs a w' ev c b v so, reach contract r w evs -> contract w a -> step w a = Ok (w', ev) ->
  In (ERet c (RetStat b v (Some so))) ev ->
  so_flags so = r_gflags r
  /\ so_cn so = (if has (c_flags (cli w c)) SHR_WRONLY && buffering w c then cap_bytes (r_n r) else 0).
Proof. exact f_stat_dims. Qed.
Print Assumptions C14_stat_flags.
Example C14_flags_case : let s := [Open WRB 7; Call 0 (CStat None)] in let w := sw plain0 s in reach contract plain_ring w (se plain0 s)
  /\ exists w' so, step w (ARun 0 (calm (w_ks w))) = Ok (w', [ERet 0 (RetStat false 0 (Some so))]) /\ so_cn so = 10 /\ so_flags so = r_gflags plain_ring.
Proof.
  cbv zeta. split; [apply reach_contract; [exact plain_fresh|vm_compute; reflexivity]|].
  eexists _, _. split; [vm_compute; reflexivity|]. split; vm_compute; reflexivity.
Qed.

(** ** C50 *)
(** A write that fits what is left of the cache goes there, without touching
    the ring; one that does not leaves the cache as it is and goes for the ring. *)
Theorem C50_start : forall r w evs c iov w' ev, reach contract r w evs -> contract w (ACall c (CWrite iov)) ->
  idle w evs c -> buffering w c = true -> ~ refused (r_n r) (r_mm r) iov -> step w (ACall c (CWrite iov)) = Ok (w', ev) ->
  let ms := cache_msgs (c_cache (cli w c)) in let ms' := cache_msgs (c_cache (cli w' c)) in
  w_ring w' = w_ring w /\
  ((in_cache (r_n r) (r_mm r) iov ms /\ ev = [ECall c (CWrite iov); ERet c (RetWrite iov (nbytes iov))] /\ ms' = ms ++ iov)
   \/ (~ in_cache (r_n r) (r_mm r) iov ms /\ ev = [ECall c (CWrite iov)] /\ ms' = ms /\ asleep w' c = false)).
Proof. exact f_buffer_start. Qed.
Print Assumptions C50_start.
(** Then, under the lock: first the messages in the cache go to the ring, if
    there are any; only then, and only if that worked, the new ones go to the
    cache if they fit an empty cache, else (in a further pass) to the ring. *)
Theorem C50_pass : forall r w evs c e iov w' ev, reach contract r w evs ->
  pending c evs = Some (CWrite iov) -> buffering w c = true -> asleep w c = false ->
  step w (ARun c e) = Ok (w', ev) -> e_lock e = true ->
  let ms := cache_msgs (c_cache (cli w c)) in let ms' := cache_msgs (c_cache (cli w' c)) in
  let u := ring_unread (w_ring w) in let first := match ms with [] => iov | _ => ms end in
  (r_drop r = false /\ ~ (nbytes u + nbytes first <= r_n r /\ zlen u + zlen first <= r_mm r)
    /\ w_ring w' = w_ring w /\ ms' = ms
    /\ (if nonblocking w c then ev = [ERet c (RetWrite iov 0)] else ev = [] /\ asleep w' c = true))
  \/ ((r_drop r = true \/ (nbytes u + nbytes first <= r_n r /\ zlen u + zlen first <= r_mm r))
    /\ least_drop (r_n r) (r_mm r) first u (ring_unread (w_ring w'))
    /\ ((ms = [] /\ ms' = [] /\ exists v, ev = [ECommit c iov; ERet c (RetWrite iov v)] /\ (v = nbytes iov \/ v = -1)
           /\ (faultless w (ARun c e) -> v = nbytes iov))
        \/ (ms <> [] /\ ms' = ms /\ ev = [ECommit c ms; ERet c (RetWrite iov (-1))] /\ ~ faultless w (ARun c e))
        \/ (ms <> [] /\ in_cache (r_n r) (r_mm r) iov [] /\ ms' = iov /\ ev = [ECommit c ms; ERet c (RetWrite iov (nbytes iov))])
        \/ (ms <> [] /\ ~ in_cache (r_n r) (r_mm r) iov [] /\ ms' = [] /\ ev = [ECommit c ms]
             /\ asleep w' c = false /\ pending c (evs ++ ev) = Some (CWrite iov)))).
Proof. exact f_buffer_pass. Qed.
Print Assumptions C50_pass.
(** the third write overflows the cache of 10 bytes: the first two go to the ring, the third to the cache *)
Definition s50 := [Open WRB 7; Call 0 (CWrite [[1;1;1]]); Call 0 (CWrite [[2;2;2;2]]); Call 0 (CWrite [[3;3;3;3]])].
Example C50_case : let w := sw plain0 s50 in let evs := se plain0 s50 in reach contract plain_ring w evs
  /\ pending 0 evs = Some (CWrite [[3;3;3;3]]) /\ buffering w 0 = true /\ asleep w 0 = false
  /\ cache_msgs (c_cache (cli w 0)) = [[1;1;1];[2;2;2;2]] /\ in_cache 10 3 [[2;2;2;2]] [[1;1;1]] /\ ~ in_cache 10 3 [[3;3;3;3]] [[1;1;1];[2;2;2;2]]
  /\ exists w', step w (ARun 0 (calm (w_ks w))) = Ok (w', [ECommit 0 [[1;1;1];[2;2;2;2]]; ERet 0 (RetWrite [[3;3;3;3]] 4)])
       /\ cache_msgs (c_cache (cli w' 0)) = [[3;3;3;3]].
Proof.
  cbv zeta. split; [apply reach_contract; [exact plain_fresh|vm_compute; reflexivity]|].
  repeat (split; [vm_compute; reflexivity|]). split; [split; vm_compute; discriminate|].
  split; [intros [H _]; vm_compute in H; apply H; reflexivity|]. eexists. split; vm_compute; reflexivity.
Qed.
