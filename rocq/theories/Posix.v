(** * Posix: one process with several handles on a ring.  Model only.

    src/shr.c l.109-145 locks the ring with fcntl(F_SETLKW) and F_SETLK.  Such
    locks belong to the process, not to the descriptor or the thread:
    - locking succeeds if no *other* process holds the lock;
    - unlocking through any descriptor gives up the process's lock;
    - so does closing any descriptor of the file (shr_close, l.1178).
    Lock.v identifies handle and process; here [proc h] is the process of
    handle [h], and every handle may be used by a thread of its own.  Killing
    whole processes is left to Lock.v. *)
From Verif Require Export Lock.

Section Posix.
Context {S L : Type}.
Variable sect : nat -> L -> prog S L.
Variable priv : nat -> L -> L -> Prop.
Variable proc : nat -> nat.

(** As [fine] in Lock.v, except that [holder] is a process.  [FKill h None]:
    handle [h] is closed. *)
Inductive pfine : conf (S := S) (L := L) -> fev -> conf (S := S) (L := L) -> Prop :=
| p_priv k h l l' : pr k h = POut l -> priv h l l' ->
    pfine k (FPriv h) (mkconf (shared k) (holder k) (upd (pr k) h (POut l')))
| p_lock k h l : pr k h = POut l -> holder k = None \/ holder k = Some (proc h) ->
    pfine k (FLock h) (mkconf (shared k) (Some (proc h)) (upd (pr k) h (PIn l (sect h l))))
| p_stmt k h l line f s' p' : pr k h = PIn l (At line f) -> f (shared k) = Ok (s', p') ->
    pfine k (FStmt h line) (mkconf s' (holder k) (upd (pr k) h (PIn l p')))
| p_unlock k h l l' : pr k h = PIn l (Ret l') ->
    pfine k (FUnlock h) (mkconf (shared k) (let_go (proc h) (holder k)) (upd (pr k) h (POut l')))
| p_close k h l : pr k h = POut l ->
    pfine k (FKill h None) (mkconf (shared k) (let_go (proc h) (holder k)) (upd (pr k) h PDead)).

(** No thread of a process takes the lock or closes a handle while another
    handle of the process is in use: so it is in single-threaded programs, and in
    those that call the library under a mutex of their own. *)
Definition one_at_a_time (k : conf (S := S) (L := L)) (e : fev) : Prop :=
  match e with
  | FLock h | FKill h _ => forall h' l p, proc h' = proc h -> h' <> h -> pr k h' <> PIn l p
  | _ => True
  end.
(** [pfines true]: executions of such programs; [pfines false]: of any *)
Inductive pfines (single : bool) (k : conf) : list fev -> conf -> Prop :=
| pf_nil : pfines single k [] k
| pf_snoc t k1 x k2 : pfines single k t k1 -> pfine k1 x k2 -> (single = true -> one_at_a_time k1 x) -> pfines single k (t ++ [x]) k2.
End Posix.
