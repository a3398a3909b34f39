(** * CountSpec: vocabulary for C71 and C72: application data and statistics
    when processes are killed. *)
From Verif Require Export Spec Kill.

(** What event [e], the history so far being [evs], does to the application
    data: [a] before, [a'] after.  shr_appdata that returns 0 has set them; one
    that returns -1 has not, unless only its msync failed; a process killed
    while setting them leaves a beginning of the new ones followed by the rest
    of the old. *)
Definition app_next (evs : list event) (e : event) (a a' : bytes) : Prop :=
  match e with
  | ERet c (RetApp v _ _) =>
      match pending c evs with
      | Some (CApp GNull (Some s) _) | Some (CApp (GBuf _) (Some s) _) =>
          if v =? 0 then a' = s else a' = a \/ zlen s = zlen a /\ a' = s
      | _ => a' = a
      end
  | ECrash c =>
      match pending c evs with
      | Some (CApp GNull (Some s) _) | Some (CApp (GBuf _) (Some s) _) =>
          a' = a \/ zlen s = zlen a /\ exists k, a' = firstn k s ++ skipn k a
      | _ => a' = a
      end
  | _ => a' = a
  end.
Inductive app_runs (a0 : bytes) : list event -> bytes -> Prop :=
| ar_nil : app_runs a0 [] a0
| ar_snoc evs e a a' : app_runs a0 evs a -> app_next evs e a a' -> app_runs a0 (evs ++ [e]) a'.

(** No process was killed while setting the application data. *)
Definition no_setter_killed (evs : list event) : Prop := forall e1 c e2 g s z,
  evs = e1 ++ ECrash c :: e2 -> pending c e1 <> Some (CApp g (Some s) z).

(** Whenever a process died in a call, the statistics were reset later. *)
Definition mended (evs : list event) : Prop := forall e1 c e2,
  evs = e1 ++ ECrash c :: e2 -> pending c e1 <> None -> exists x, In x e2 /\ is_reset x = true.
(** The same for those that died resetting the statistics. *)
Definition no_reset_cut (evs : list event) : Prop := forall e1 c t e2,
  evs = e1 ++ ECrash c :: e2 -> pending c e1 = Some (CStat (Some t)) -> exists x, In x e2 /\ is_reset x = true.

(** The messages of writers that died directly after putting them in the ring. *)
Fixpoint cut_writes (evs : list event) : list bytes :=
  match evs with
  | [] => []
  | ECommit c ms :: t => (match t with ECrash c' :: _ => if Nat.eqb c c' then ms else [] | _ => [] end) ++ cut_writes t
  | _ :: t => cut_writes t
  end.
