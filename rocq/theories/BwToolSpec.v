(** * BwToolSpec: what users of lib/bw-tool.c rely on (C94).  Definitions only. *)
From Verif Require Export BwTool.

(** the events of lib/bw.c among those of an execution *)
Definition bws (evs : list tev) : list bev := flat_map (fun e => match e with Mine v | Other v => [v] | _ => [] end) evs.
(** by [v] a wake-up may have been sent: a bw_wake that returned 0, or in which
    its process was killed *)
Definition wakes (v : bev) : Prop :=
  match v with BRet _ BcWake 0 | BDied _ (Some (_, BcWake)) => True | _ => False end.
(** since the tool opened the handle for waiting, another process sent one *)
Definition woken (evs : list tev) : Prop :=
  exists c e1 e2 v, evs = e1 ++ Mine (BOpened c true true) :: e2 /\ In (Other v) e2 /\ wakes v.
(** the tool calls bw_close *)
Definition closes (evs : list tev) : Prop := exists c v, In (Mine (BRet c BcClose v)) evs.
(** the tool runs on by itself: a sequence of steps *)
Inductive truns (P : bsys -> env -> Prop) (o : topts) (pid : Z) (t : tool) : list tev -> tool -> Prop :=
| tu_none : truns P o pid t [] t
| tu_step l t1 m t2 : tstep P o pid t l t1 -> truns P o pid t1 m t2 -> truns P o pid t (l ++ m) t2.
Definition by_itself (l : list tev) : Prop := forall e, In e l -> match e with Other _ | Signal => False | _ => True end.
