(** * Reboot: the ring across power failures.  Model only, no proofs.

    When the power fails every process is gone, with its sockets; afterwards
    new processes open what is on the disk.  The file is then in memory as it
    is on the disk, so the contents it has had since it was last written are
    those alone. *)
From Verif Require Export DiskSpec KillSpec.

(** All processes and sockets are gone, and the file is [x].  The numbers of
    the dead clients are not used again. *)
Definition off (w : world) (x : image) : world :=
  mkw (im_ring x) (w_fsz w) (im_w2r x) (im_r2w x) [] (map (fun cl => cl <| c_live := false |> <| c_pc := Idle |>) (w_cl w)).
(** the deaths of the processes alive in [w] *)
Definition gone (w : world) : list event := map ECrash (filter (fun c => c_live (cli w c)) (seq 0 (length (w_cl w)))).

(** Executions as [dexec], with power failures once somebody has opened the
    ring (until then there was no msync, and nothing is known of the disk).
    The power fails between sections or, if [mid], also inside them, as far as
    the ring on the disk is as it was in memory before some statement of the
    section or after the last: C84 says when that is always so.  [untorn], of
    Kill.v, leaves out what C54 is about.  The sockets' names are the kernel's
    to choose: after a power failure they may be those of before. *)
Inductive rexec (mid : bool) (P : world -> action -> Prop) (w0 : world) : world -> list event -> store -> Prop :=
| rx_nil : rexec mid P w0 w0 [] None
| rx_step w evs u a w' ev m u' : rexec mid P w0 w evs u -> P w a -> step w a = Ok (w', ev) ->
    exec_all (dprog w a) (shared w, u) = Ok ((m, u'), tt) -> rexec mid P w0 w' (evs ++ ev) u'
| rx_power w evs u x : rexec mid P w0 w evs u -> was_opened evs -> survives u x -> rexec mid P w0 (off w x) (evs ++ gone w) (Some [x])
| rx_power_in w evs u c e x line m : mid = true -> rexec mid P w0 w evs u -> was_opened evs -> P w (ARun c e) -> c_live (cli w c) = true ->
    fails_in w u (ARun c e) x -> dies_at (section e (cli w c)) (shared w) line m -> untorn w c m line = true -> im_ring x = sh_ring m ->
    rexec mid P w0 (off (killed w c m) x) (evs ++ kill_events w c line ++ gone (killed w c m)) (Some [x])
| rx_power_open w evs u e flags pid x line m : mid = true -> rexec mid P w0 w evs u -> was_opened evs -> P w (AOpen e flags pid) ->
    fails_in w u (AOpen e flags pid) x -> dies_at (open_section e w flags pid) (shared w) line m -> im_ring x = sh_ring m ->
    rexec mid P w0 (off w x) (evs ++ gone w) (Some [x])
| rx_power_end w evs u a x w' ev : mid = true -> rexec mid P w0 w evs u -> was_opened evs -> P w a ->
    fails_in w u a x -> step w a = Ok (w', ev) -> im_ring x = w_ring w' ->
    rexec mid P w0 (off w' x) (evs ++ ev ++ gone w') (Some [x]).
Definition rreach (mid : bool) (P : world -> action -> Prop) (r : ring) (w : world) (evs : list event) (u : store) : Prop :=
  exists fsz, fresh r fsz /\ rexec mid P (world0 r fsz) w evs u /\ seq_bound r evs.
