(** * PipeSpec: processes of shr-tool that use a ring (C86, C87).
    Definitions only.  Main.v says which calls of the library a process of
    shr-tool can make, and what it does with the results, whatever they are;
    Sys.v what the calls of the handles of a ring do.  Here the two are put
    together: the results are those of the ring. *)
From Verif Require Export MainSpec Spec.
Local Open Scope Z_scope.
Local Open Scope list_scope.

(** The calls of shr_write and shr_read among the events of a process of
    shr-tool ... *)
Definition ring_calls (t : list ev) : list ev :=
  filter (fun e => match e with XPut _ _ | XGet _ => true | _ => false end) t.
(** ... and among the events of the ring those that have returned to client
    [c]: shr_write is shr_writev of one element, shr_read fills the buffer up to
    the count that it returns (src/shr.c l.1004-1008, l.848-852). *)
Definition returned (c : nat) (evs : list event) : list ev :=
  flat_map (fun e => match e with
    | ERet c' (RetWrite iov v) => if is c c' then [XPut (concat iov) v] else []
    | ERet c' (RetRead v buf _) => if is c c' then [XGet (if v <? 0 then None else Some (firstn (Z.to_nat v) buf))] else []
    | _ => [] end) evs.

(** A process of shr-tool that runs program [p] has opened the ring as client
    [c].  So far, while the ring saw the events [evs], the process has done [t];
    [next] is what it does from there on until it ends with [x] (or, [Running],
    until we stop looking). *)
Record attached (c : nat) (p : prog) (evs : list event) (t next : list ev) (x : ending) : Prop := mkattached {
  at_runs : runs p (t ++ next) x;
  at_open : exists ring flags, In (XOpen ring flags true) t /\ In (EOpen flags (Some c)) evs;
  at_calls : ring_calls t = returned c evs;
  at_one_w : forall iov, In (ECall c (CWrite iov)) evs -> exists m, iov = [m];
  at_one_r : forall buf niov, In (ECall c (CRead buf niov)) evs -> niov = 1;
  (* the call it is in is the next event *)
  at_next : forall x, pending c evs = Some x ->
    match x with
    | CWrite iov => exists m rc rest, next = XPut m rc :: rest /\ iov = [m]
    | CRead _ _ => exists got rest, next = XGet got :: rest
    | _ => True
    end }.
(** the process has ended with exit status [rc] *)
Definition ended (next : list ev) (x : ending) (rc : Z) : Prop := next = [] /\ x = Exited rc.
(** the process waits in epoll_wait (util/shr-tool.c l.1290) *)
Definition in_epoll (next : list ev) : Prop := exists p rest, next = XPoll p :: rest.

(** lines as in C49 *)
Definition line_ok (l : bytes) : Prop := ~ In 10 l /\ ~ In 0 l /\ zlen l <= 998.
Definition prefix_of {A} (a b : list A) : Prop := exists c, b = a ++ c.
(** some elements left out *)
Inductive sublist {A} : list A -> list A -> Prop :=
| sub_nil : sublist [] []
| sub_take x a b : sublist a b -> sublist (x :: a) (x :: b)
| sub_skip x a b : sublist a b -> sublist a (x :: b).
(** the lines whose shr_write has returned a count *)
Definition acknowledged (t : list ev) : list bytes :=
  flat_map (fun e => match e with XPut m rc => if rc <? 0 then [] else [m] | _ => [] end) t.
(** [c] is the only client that has written; the only one that has read *)
Definition sole_writer (c : nat) (evs : list event) : Prop := forall c' ms, In (ECommit c' ms) evs -> c' = c.
Definition sole_reader (c : nat) (evs : list event) : Prop := forall c' v buf iov, In (ERet c' (RetRead v buf iov)) evs -> c' = c.
