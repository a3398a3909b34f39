(** * Properties proved about the model: application data and statistics when
    processes are killed (C71, C72), and what others may rely on afterwards.
    Statements only; every proof is [exact] of a lemma. *)
From Verif Require Import CountSpec KillFinal KillCount Witness.

(** ** C71: application data *)

(** Whatever is killed where (the places of C32 and C46 excepted), the
    application data are what the sets made of them, one after the other
    ([app_runs], CountSpec.v): a set that returned 0 happened entirely, one that
    returned -1 entirely or not at all, and one whose process was killed may
    have replaced a beginning.  Nothing else changes them. *)
Theorem C71_history : forall r w evs, kreach contract r w evs -> app_runs (r_app r) evs (r_app (w_ring w)).
Proof. exact k_app. Qed.
Print Assumptions C71_history.
(** Unless a process is killed while setting them, they are those of the last
    set that returned 0. *)
Theorem C71_partial : forall r w evs, kreach faultless r w evs -> no_setter_killed evs -> r_app (w_ring w) = app_now (r_app r) evs.
Proof. exact k_app_exact. Qed.
Print Assumptions C71_partial.
(** What shr_appdata does and returns is as without kills (C30). *)
Theorem C71_call : forall r w evs c e g s z w' ev, kreach contract r w evs -> pending c evs = Some (CApp g s z) ->
  step w (ARun c e) = Ok (w', ev) ->
  let app := r_app (w_ring w) in let app' := r_app (w_ring w') in
  exists v out z', ev = [ERet c (RetApp v out z')] /\ (v = 0 \/ v = -1)
  /\ ring_unread (w_ring w') = ring_unread (w_ring w) /\ ring_retained (w_ring w') = ring_retained (w_ring w)
  /\ match g, s with
     | GAlloc, None | GBuf _, None => app' = app /\ (v = 0 -> out = Some app /\ z' = zlen app)
     | GNull, Some s | GBuf _, Some s =>
         (zlen s <> zlen app -> v = -1 /\ app' = app)
         /\ (v = 0 -> app' = s /\ (g = GNull \/ out = Some app))
         /\ (v = -1 -> e_msync e = true -> app' = app)
     | _, _ => app' = app
     end
  /\ (e_lock e = true -> e_alloc e = true -> e_msync e = true -> app <> [] ->
      match g, s with
      | GBuf b, None => zlen b = zlen app
      | GBuf b, Some s => zlen b = zlen app /\ zlen s = zlen app
      | GNull, Some s => zlen s = zlen app
      | _, _ => True
      end -> v = 0).
Proof. exact k_app_call. Qed.
Print Assumptions C71_call.

(** Client 0 sets the data; client 2 is killed in shr_write, having stored its
    message; client 1 gets what client 0 set. *)
Definition s71 := [Do (Open WR 7); Do (Open RDN 8); Do (Open WR 9); Do (Call 0 (CApp GNull (Some [1;2;3;4]) 4)); Do (Run 0);
  Do (Call 2 (CWrite [[2;3]])); Kill 2 20; Do (Call 1 (CApp GAlloc None 0))].
Example C71_case : let w := kw plain0 s71 in let evs := ke plain0 s71 in kreach faultless plain_ring w evs /\ no_setter_killed evs
  /\ pending 1 evs = Some (CApp GAlloc None 0) /\ app_now (r_app plain_ring) evs = [1;2;3;4] /\ In (ECrash 2) evs
  /\ exists w', step w (ARun 1 (calm (w_ks w))) = Ok (w', [ERet 1 (RetApp 0 (Some [1;2;3;4]) 4)]).
Proof.
  cbv zeta. split; [apply kreach_faultless; [exact plain_fresh|vm_compute; reflexivity]|]. split.
  - intros e1 c e2 g s z E. replace (ke plain0 s71) with ([EOpen WR (Some 0%nat); EOpen RDN (Some 1%nat); EOpen WR (Some 2%nat);
      ECall 0 (CApp GNull (Some [1;2;3;4]) 4); ERet 0 (RetApp 0 None 4); ECall 2 (CWrite [[2;3]]); ECommit 2 [[2;3]]; ECrash 2; ECall 1 (CApp GAlloc None 0)]) in E
      by (vm_compute; reflexivity).
    do 9 (destruct e1 as [|? e1]; [try discriminate E; injection E as <- _; discriminate|injection E as <- E]). destruct e1; discriminate E.
  - repeat (split; [vm_compute; reflexivity|]). split; [vm_compute; tauto|]. eexists. vm_compute. reflexivity.
Qed.

(** A process killed in the middle of setting them leaves neither the old nor
    the new, and that is what the others get. *)
Definition s71r := [Do (Open WR 7); Do (Open RDN 8); Do (Call 0 (CApp GNull (Some [1;2;3;4]) 4)); Do (Run 0);
  Do (Call 0 (CApp GNull (Some [9;8;7;6]) 4)); Kill 0 3; Do (Call 1 (CApp GAlloc None 0)); Do (Run 1)].
Theorem C71_refuted : exists r w evs, kreach faultless r w evs
  /\ evs = [EOpen WR (Some 0%nat); EOpen RDN (Some 1%nat); ECall 0 (CApp GNull (Some [1;2;3;4]) 4); ERet 0 (RetApp 0 None 4);
       ECall 0 (CApp GNull (Some [9;8;7;6]) 4); ECrash 0; ECall 1 (CApp GAlloc None 0); ERet 1 (RetApp 0 (Some [9;8;3;4]) 4)].
Proof.
  exists plain_ring, (kw plain0 s71r), (ke plain0 s71r). split; [apply kreach_faultless; [exact plain_fresh|vm_compute; reflexivity]|].
  vm_compute. reflexivity.
Qed.
Print Assumptions C71_refuted.

(** ** C72: statistics *)

(** When the statistics have been reset since the last death of a process in a
    call, they count as without kills (C13). *)
Theorem C72_counters_partial : forall r w evs, kreach contract r w evs -> mended evs ->
  let s := r_stat (w_ring w) in let P := since_reset evs in
  st_mr s = u64 (zlen (delivered P)) /\ st_br s = u64 (nbytes (delivered P))
  /\ (exists D, 0 <= D /\ st_md s = u64 D
       /\ unread_at_reset evs + zlen (committed P) = (if r_farm r then 0 else zlen (delivered P)) + D + zlen (ring_unread (w_ring w)))
  /\ (exists D, 0 <= D /\ st_bd s = u64 D
       /\ bytes_at_reset evs + nbytes (committed P) = (if r_farm r then 0 else nbytes (delivered P)) + D + nbytes (ring_unread (w_ring w))).
Proof. exact k_count. Qed.
Print Assumptions C72_counters_partial.
Theorem C72_written_partial : forall r w evs, kreach reliable r w evs -> mended evs ->
  st_mw (r_stat (w_ring w)) = u64 (zlen (committed (since_reset evs))) /\ st_bw (r_stat (w_ring w)) = u64 (nbytes (committed (since_reset evs))).
Proof. exact k_wcount. Qed.
Print Assumptions C72_written_partial.
(** In any case the messages and bytes written are those written since the
    reset, less some of those whose writer died directly after. *)
Theorem C72_written_bound : forall r w evs, kreach reliable r w evs -> no_reset_cut evs -> exists lm lb,
  0 <= lm <= zlen (cut_writes (since_reset evs)) /\ 0 <= lb <= nbytes (cut_writes (since_reset evs))
  /\ st_mw (r_stat (w_ring w)) = u64 (zlen (committed (since_reset evs)) - lm) /\ st_bw (r_stat (w_ring w)) = u64 (nbytes (committed (since_reset evs)) - lb).
Proof. exact k_written. Qed.
Print Assumptions C72_written_bound.
(** What shr_stat reports of the ring itself is exact (C14). *)
Theorem C72_stat : forall r w evs c e o w' ev, kreach contract r w evs -> pending c evs = Some (CStat o) ->
  step w (ARun c e) = Ok (w', ev) -> e_lock e = true ->
  exists v so, ev = [ERet c (RetStat (match o with Some _ => true | None => false end) v (Some so))]
    /\ (e_msync e = true -> v = 0)
    /\ so_mu so = zlen (ring_unread (w_ring w)) /\ so_bu so = nbytes (ring_unread (w_ring w))
    /\ so_mu so <= so_mm so /\ so_bu so <= so_bn so /\ so_mm so = r_mm r /\ so_bn so = r_n r
    /\ so_stat so = r_stat (w_ring w)
    /\ r_stat (w_ring w') = match o with Some t => mkstat t 0 0 0 0 0 0 | None => r_stat (w_ring w) end
    /\ ring_unread (w_ring w') = ring_unread (w_ring w) /\ ring_retained (w_ring w') = ring_retained (w_ring w)
    /\ r_app (w_ring w') = r_app (w_ring w).
Proof. exact k_stat. Qed.
Print Assumptions C72_stat.

(** Client 0 is killed with its message in the ring but not counted; client 1
    resets the statistics; client 2 writes. *)
Definition s72r := [Do (Open WR 7); Do (Open RDN 8); Do (Open WR 9)] ++ map Do (write 0 [[1]]) ++ [Do (Call 0 (CWrite [[2;3]])); Kill 0 20].
Definition s72 := s72r ++ [Do (Call 1 (CStat (Some (5,6)))); Do (Run 1)] ++ map Do (write 2 [[4;5;6]]) ++ map Do (read 1 9 1) ++ [Do (Call 1 (CStat None))].
Example C72_case : let w := kw plain0 s72 in let evs := ke plain0 s72 in kreach reliable plain_ring w evs /\ mended evs
  /\ In (ECrash 0) evs /\ r_stat (w_ring w) = mkstat (5,6) 3 1 1 1 0 0 /\ ring_unread (w_ring w) = [[2;3];[4;5;6]] /\ unread_at_reset evs = 2
  /\ pending 1 evs = Some (CStat None)
  /\ exists w' so, step w (ARun 1 (calm (w_ks w))) = Ok (w', [ERet 1 (RetStat false 0 (Some so))]) /\ so_mu so = 2.
Proof.
  cbv zeta. split; [apply (kreach_mono faultless); [intros w a H; apply H|]; apply kreach_faultless; [exact plain_fresh|vm_compute; reflexivity]|]. split.
  - intros e1 c e2 E _. assert (K : exists so x, ke plain0 s72 = [EOpen WR (Some 0%nat); EOpen RDN (Some 1%nat); EOpen WR (Some 2%nat);
      ECall 0 (CWrite [[1]]); ECommit 0 [[1]]; ERet 0 (RetWrite [[1]] 1); ECall 0 (CWrite [[2;3]]); ECommit 0 [[2;3]]; ECrash 0; ECall 1 (CStat (Some (5,6))); ERet 1 (RetStat true 0 so);
      ECall 2 (CWrite [[4;5;6]]); ECommit 2 [[4;5;6]]; ERet 2 (RetWrite [[4;5;6]] 3); ECall 1 (CRead (zeros 9) 1); x; ECall 1 (CStat None)] /\ match x with ERet _ _ => True | _ => False end).
    { eexists _, _. split; [vm_compute; reflexivity|exact Logic.I]. }
    destruct K as (so & x & K & Hx). rewrite K in E. clear K.
    do 17 (destruct e1 as [|? e1]; [try discriminate E; try (injection E as <- <-; eexists; split; [right; left; reflexivity|reflexivity]); injection E as -> _; contradiction Hx|injection E as <- E]).
    destruct e1; discriminate E.
  - split; [vm_compute; tauto|]. repeat (split; [vm_compute; reflexivity|]). eexists _, _. split; vm_compute; reflexivity.
Qed.
(** Without the reset the messages written (one), read (none), dropped (none)
    and unread (two) do not agree; C13's equation needs [mended]. *)
Theorem C72_refuted : exists r w evs, kreach faultless r w evs /\ r_drop r = false /\ r_farm r = false /\ since_reset evs = evs
  /\ committed evs = [[1];[2;3]] /\ ring_unread (w_ring w) = [[1];[2;3]] /\ delivered evs = [] /\ r_stat (w_ring w) = mkstat (0,0) 1 0 1 0 0 0.
Proof.
  exists plain_ring, (kw plain0 s72r), (ke plain0 s72r). split; [apply kreach_faultless; [exact plain_fresh|vm_compute; reflexivity]|].
  vm_compute. repeat split; reflexivity.
Qed.
Print Assumptions C72_refuted.
