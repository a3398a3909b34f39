(** * RelaySpec: pub, sub and tee on the rings that they use (C88, C89).
    Definitions only.  Tool.v and Tool2.v say what these processes of shr-tool
    do, given the results of the calls they make; Sys.v what the calls of the
    handles of a ring do.  Here the results are those of the ring, as in
    PipeSpec.v. *)
From Verif Require Export PipeSpec ToolSpec2.
Local Open Scope Z_scope.
Local Open Scope list_scope.

(** The results of the shr_reads that have returned to client [c] (None: an
    error), and its writes that have returned, with their results. *)
Definition reads_of (c : nat) (evs : list event) : list (option bytes) := gets (returned c evs).
Definition writes_of (c : nat) (evs : list event) : list (list bytes * Z) :=
  flat_map (fun e => match e with ERet c' (RetWrite iov v) => if is c c' then [(iov, v)] else [] | _ => [] end) evs.
(** shr_read is called with a buffer of one element (src/shr.c l.848-852) *)
Definition reads_one (c : nat) (evs : list event) : Prop := forall buf niov, In (ECall c (CRead buf niov)) evs -> niov = 1.

(** ** the publisher *)
(** what it has got from shr_read in the rounds [t] of its loop *)
Definition pub_gets (t : list pitem) : list (option bytes) :=
  flat_map (fun i => match pi_ev i with PRing got _ => [got] | _ => [] end) t.
(** A publisher (util/shr-tool.c l.1204, 655-740), with prefixes if [p], has the
    ring open as client [a].  It has completed the rounds [t] of its loop and is
    in state [s]; [hand]: what shr_read has returned in the round it is in. *)
Record publishing (a : nat) (p : bool) (evs : list event) (t : list pitem) (s : pst) (hand : list (option bytes)) : Prop := mkpublishing {
  pb_run : pub_run p t s;
  pb_open : In (EOpen (Z.lor SHR_RDONLY SHR_NONBLOCK) (Some a)) evs;
  pb_reads : reads_of a evs = pub_gets t ++ hand;
  pb_hand : zlen hand <= 1;
  pb_one : reads_one a evs }.

(** ** the subscriber *)
(** Where it is: waiting for data with an unfinished frame in its buffer;
    in shr_writev; it has exited. *)
Inductive substate := SubWaits (buf : bytes) | SubWrites (iov : list bytes) | SubExits.
(** The loop of the subscriber ([subscribe] in Tool.v), in which the results of
    shr_writev are [vs], one after the other: the calls made, with their
    results, and where it is when no result is left, or nothing to read. *)
Fixpoint sub_calls (vs : list Z) (buf stream : bytes) (ks : list Z) : outcome (list (list bytes * Z) * substate) :=
  match ks with
  | [] => Ok ([], SubWaits buf)
  | k :: ks =>
      if zlen stream =? 0 then Ok ([], SubWaits buf) else
      do r <- do_subscriber (fun _ => true) buf stream k;       (* l.448-531, but for the result of shr_writev *)
      match r with
      | None => Ok ([], SubExits)                                (* l.469 *)
      | Some (None, buf', stream') => sub_calls vs buf' stream' ks
      | Some (Some ms, buf', stream') =>
          match vs with
          | [] => Ok ([], SubWrites ms)
          | v :: vs =>
              if v <? 0 then Ok ([(ms, v)], SubExits)            (* l.483-486 *)
              else do (l, st) <- sub_calls vs buf' stream' ks; Ok ((ms, v) :: l, st)
          end
      end
  end.
(** A subscriber has the ring open as client [b] (l.1215).  [x] has arrived on
    its connection, and its read() calls return pieces of [ks] bytes at most. *)
Record subscribing (b : nat) (evs : list event) (x : bytes) (ks : list Z) (st : substate) : Prop := mksubscribing {
  sb_run : sub_calls (map snd (writes_of b evs)) [] x ks = Ok (writes_of b evs, st);
  sb_open : In (EOpen SHR_WRONLY (Some b)) evs;
  sb_now : forall iov, pending b evs = Some (CWrite iov) -> st = SubWrites iov }.
(** It waits with no complete frame left: each read() has returned at least a
    byte, and [ks] is not shorter than [x]. *)
Definition caught_up (x : bytes) (ks : list Z) (st : substate) : Prop := (exists buf, st = SubWaits buf) /\ zlen x <= zlen ks.

(** ** tee *)
(** the results of its calls *)
Definition tee_gets (t : list (tcall * tres)) : list (option bytes) :=
  flat_map (fun p => match p with (TRead, TGot nr m) => [if nr <? 0 then None else Some m] | _ => [] end) t.
Definition tee_writes1 (t : list (tcall * tres)) : list (list bytes * Z) :=
  flat_map (fun p => match p with (TWrite1 m, TPut rc) => [([m], rc)] | _ => [] end) t.
Definition tee_writes2 (t : list (tcall * tres)) : list (list bytes * Z) :=
  flat_map (fun p => match p with (TWrite2 m, TPut rc) => [([m], rc)] | _ => [] end) t.
(** tee has a ring open as client [a], and the two others as [b1] and [b2]
    (l.1204-1210); [t]: the calls that have returned, [s]: the state after them. *)
Record teeing (a b1 b2 : nat) (evs evs1 evs2 : list event) (t : list (tcall * tres)) (s : tstate) : Prop := mkteeing {
  te_run : tee_run t s;
  te_open : In (EOpen (Z.lor SHR_RDONLY SHR_NONBLOCK) (Some a)) evs;
  te_open1 : In (EOpen SHR_WRONLY (Some b1)) evs1;
  te_open2 : In (EOpen SHR_WRONLY (Some b2)) evs2;
  te_reads : reads_of a evs = tee_gets t;
  te_count : forall nr m, In (TRead, TGot nr m) t -> 0 <= nr -> zlen m = nr;
  te_one : reads_one a evs;
  te_writes1 : writes_of b1 evs1 = tee_writes1 t;
  te_writes2 : writes_of b2 evs2 = tee_writes2 t }.
