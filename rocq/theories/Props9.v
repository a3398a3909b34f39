(** * The theorems, ninth part: a creator that is killed (C47). *)
From Verif Require Import CreateFacts CrashFinal.

(** ** C47 *)
(** [create l flags ad], from the empty file, is what shr_init does to the new
    file store by store; [dies_at .. line c]: killed just before the statement on
    [line], it leaves [c]; [accepts c]: shr_open's validation passes.

    If it is not killed, the file is the one all other theorems start from. *)
Theorem C47_done : forall l flags ad, l_app l = (if has flags SHR_APPDATA_1 then zlen ad else 0) ->
  exec_all (create l flags ad) (created l) = Ok (mkcf (l_sz l) MAGIC (ring_of_layout l flags ad), tt).
Proof. exact c_done. Qed.
Print Assumptions C47_done.
(** Killed before the data size is stored (l.282), the file is refused. *)
Theorem C47_refused : forall data_sz flags ad maxarg l line c, init_layout data_sz flags (zlen ad) maxarg = Ok (Some l) ->
  dies_at (create l flags ad) (created l) line c -> line <= 282 -> validate_ring (f_sz c) (magic_ok c) (f_ring c) <> 0.
Proof. exact c_refused. Qed.
Print Assumptions C47_refused.
(** Killed later, it is accepted, and is a new, empty ring (to which all other
    theorems apply) with the size and the number of slots asked for; but the
    flags whose line was not reached are missing, and so is the application data
    from some place on. *)
Theorem C47_accepted_partial : forall data_sz flags ad maxarg l line c, 0 <= data_sz -> 0 <= flags -> 0 <= maxarg ->
  SIZEOF_CTRL + data_sz + SIZEOF_PTR + SIZEOF_MSG * l_mm l + zlen ad <= SSIZE_MAX ->
  init_layout data_sz flags (zlen ad) maxarg = Ok (Some l) ->
  dies_at (create l flags ad) (created l) line c -> validate_ring (f_sz c) (magic_ok c) (f_ring c) = 0 ->
  282 < line <= 292
  /\ fresh (f_ring c) (f_sz c)
  /\ exists flags' ad', f_sz c = l_sz l /\ f_ring c = ring_of_layout l flags' ad'
     /\ has flags' SHR_SYNC = has flags SHR_SYNC && (284 <? line)
     /\ has flags' SHR_DROP = has flags SHR_DROP && (285 <? line)
     /\ has flags' SHR_FARM = has flags SHR_FARM && (286 <? line)
     /\ has flags' SHR_MLOCK = has flags SHR_MLOCK && (287 <? line)
     /\ has flags' SHR_APPDATA_1 = has flags SHR_APPDATA_1
     /\ (exists d t, ad = d ++ t /\ ad' = d ++ repeat 0 (length t))
     /\ (line = 292 -> f_ring c = ring_of_layout l flags ad).
Proof. exact c_accepted. Qed.
Print Assumptions C47_accepted_partial.

Definition flags47 := SHR_MAXMSGS_2 + SHR_FARM + SHR_APPDATA_1.
Definition l47 : layout := Eval vm_compute in match init_layout 10 flags47 2 3 with Ok (Some l) => l | _ => mklay 0 0 0 0 0 0 end.
Definition left47 (k : nat) : Z * cfile := match kill_at k (create l47 flags47 [7;8]) (created l47) with Some x => x | None => (0, created l47) end.
(** A farm ring that is none any more, accepted: the claim is false ... *)
Theorem C47_refuted : exists c, init_layout 10 flags47 2 3 = Ok (Some l47) /\ dies_at (create l47 flags47 [7;8]) (created l47) 286 c
  /\ validate_ring (f_sz c) (magic_ok c) (f_ring c) = 0 /\ has flags47 SHR_FARM = true /\ r_farm (f_ring c) = false /\ r_drop (f_ring c) = false.
Proof.
  exists (snd (left47 19)). split; [vm_compute; reflexivity|]. split; [apply (kill_dies 19); vm_compute; reflexivity|]. repeat split; vm_compute; reflexivity.
Qed.
Print Assumptions C47_refuted.
(** ... and one with half of its application data. *)
Theorem C47_appdata_refuted : exists c, dies_at (create l47 flags47 [7;8]) (created l47) 289 c
  /\ validate_ring (f_sz c) (magic_ok c) (f_ring c) = 0 /\ r_farm (f_ring c) = true /\ r_app (f_ring c) = [7; 0].
Proof.
  exists (snd (left47 22)). split; [apply (kill_dies 22); vm_compute; reflexivity|]. repeat split; vm_compute; reflexivity.
Qed.
Print Assumptions C47_appdata_refuted.
Example C47_case : let x := left47 14 in dies_at (create l47 flags47 [7;8]) (created l47) 281 (snd x) /\ f_magic (snd x) = MAGIC
  /\ validate_ring (f_sz (snd x)) (magic_ok (snd x)) (f_ring (snd x)) = -6.
Proof. cbv zeta. split; [apply (kill_dies 14); vm_compute; reflexivity|]. split; vm_compute; reflexivity. Qed.
