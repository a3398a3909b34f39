(** * Lock: processes interleaved store by store under the ring's file lock.
    Model only.

    src/shr.c l.109-135: lock() waits in fcntl(F_SETLKW) until no other process
    holds the (exclusive) lock on the file; unlock() gives it up; the kernel
    does so when the process dies.  Every access of the library to the ring is
    between the two (l.318-347, 591-615, 800-855, 926-1012, 1046-1082,
    1123-1125, 1163-1166); what the API functions look at outside (s->n, s->mm,
    s->flags, s->c, ...) is in the process's own memory.  (POSIX locks belong to
    processes: two threads of one process, or one process with two handles on
    the same ring, are not modelled by this file.) *)
From Verif Require Export CrashSpec.

Section Lock.
(** [S]: what the processes share; [L]: the private memory of one *)
Context {S L : Type}.
(** the critical section process [c] enters next, and what it may do between
    critical sections *)
Variable sect : nat -> L -> prog S L.
Variable priv : nat -> L -> L -> Prop.

(** not in a critical section; inside (lock() returned when its memory was
    [l], unlock() not yet called; [p]: what it is still going to do); dead *)
Inductive pstate := POut (l : L) | PIn (l : L) (p : prog S L) | PDead.
Record conf := mkconf { shared : S; holder : option nat; pr : nat -> pstate }.
Definition upd {A} (f : nat -> A) (c : nat) (x : A) : nat -> A := fun c' => if Nat.eqb c' c then x else f c'.
Definition let_go (c : nat) (h : option nat) : option nat :=
  match h with Some c' => if Nat.eqb c' c then None else h | None => None end.

Inductive fev := FPriv (c : nat) | FLock (c : nat) | FStmt (c : nat) (line : Z) | FUnlock (c : nat) | FKill (c : nat) (line : option Z).

(** One statement of one process.  Only lock() looks at the lock. *)
Inductive fine : conf -> fev -> conf -> Prop :=
| f_priv k c l l' : pr k c = POut l -> priv c l l' ->
    fine k (FPriv c) (mkconf (shared k) (holder k) (upd (pr k) c (POut l')))
| f_lock k c l : pr k c = POut l -> holder k = None ->
    fine k (FLock c) (mkconf (shared k) (Some c) (upd (pr k) c (PIn l (sect c l))))
| f_stmt k c l line f s' p' : pr k c = PIn l (At line f) -> f (shared k) = Ok (s', p') ->
    fine k (FStmt c line) (mkconf s' (holder k) (upd (pr k) c (PIn l p')))
| f_unlock k c l l' : pr k c = PIn l (Ret l') ->
    fine k (FUnlock c) (mkconf (shared k) (let_go c (holder k)) (upd (pr k) c (POut l')))
| f_kill_out k c l : pr k c = POut l ->
    fine k (FKill c None) (mkconf (shared k) (let_go c (holder k)) (upd (pr k) c PDead))
| f_kill_in k c l line f : pr k c = PIn l (At line f) ->
    fine k (FKill c (Some line)) (mkconf (shared k) (let_go c (holder k)) (upd (pr k) c PDead)).
Inductive fines (k : conf) : list fev -> conf -> Prop :=
| fs_nil : fines k [] k
| fs_snoc t k1 x k2 : fines k t k1 -> fine k1 x k2 -> fines k (t ++ [x]) k2.

(** ** Specification: one critical section after the other

    A process is alive with its private memory, or dead.  [SSect c]: [c]'s
    critical section from beginning to end; [SKill c (Some line)]: [c] is killed
    in it just before [line]. *)
Inductive sev := SPriv (c : nat) | SSect (c : nat) | SKill (c : nat) (line : option Z).
Inductive serial : S * (nat -> option L) -> sev -> S * (nat -> option L) -> Prop :=
| s_priv s m c l l' : m c = Some l -> priv c l l' -> serial (s, m) (SPriv c) (s, upd m c (Some l'))
| s_sect s m c l s' l' : m c = Some l -> exec_all (sect c l) s = Ok (s', l') ->
    serial (s, m) (SSect c) (s', upd m c (Some l'))
| s_kill_out s m c l : m c = Some l -> serial (s, m) (SKill c None) (s, upd m c None)
| s_kill_in s m c l line s' : m c = Some l -> dies_at (sect c l) s line s' ->
    serial (s, m) (SKill c (Some line)) (s', upd m c None).
Inductive serials (x : S * (nat -> option L)) : list sev -> S * (nat -> option L) -> Prop :=
| ss_nil : serials x [] x
| ss_snoc t x1 e x2 : serials x t x1 -> serial x1 e x2 -> serials x (t ++ [e]) x2.

(** the serial execution of a fine-grained one: a critical section takes place
    when its lock is given up *)
Definition in_order (e : fev) : list sev :=
  match e with
  | FPriv c => [SPriv c] | FLock _ => [] | FStmt _ _ => [] | FUnlock c => [SSect c] | FKill c line => [SKill c line]
  end.
(** everybody outside *)
Definition outside (s : S) (m : nat -> option L) : conf :=
  mkconf s None (fun c => match m c with Some l => POut l | None => PDead end).
End Lock.

(** ** The processes using a ring: each time it is outside, a process decides
    (depending on anything) what to write or read next; what it did and the
    results accumulate in its memory. *)
Definition user := (list (qop * qres) * option qop)%type.
Fixpoint pmap {S A B} (g : A -> B) (p : prog S A) : prog S B :=
  match p with
  | Ret x => Ret (g x)
  | At line f => At line (fun s =>
      match f s with Ok sp => let '(s', p') := sp in Ok (s', pmap g p') | Abort => Abort | UB => UB | Stuck => Stuck end)
  end.
(** the result of a critical section as in CrashSpec.v *)
Definition wres (b : bool) : qres := if b then WOk else WFull.
Definition rres (x : Z * Z * option (rloc * option seg)) : qres :=
  match x with
  | (q, md, None) => RNone q md
  | (q, md, Some (x, _)) => RGot (map (fun p => sub (fst p) (snd p) (rl_buf x)) (rev (rl_iov x))) q md
  end.
(** [mm] is s->mm *)
Definition usect (mm : Z) (c : nat) (u : user) : prog ring user :=
  let '(done, todo) := u in
  match todo with
  | None => At 0 (fun _ => Stuck) (* nobody takes the lock without a purpose *)
  | Some (QWrite iov) => pmap (fun b => (done ++ [(QWrite iov, wres b)], None)) (write_p mm iov (nbytes iov) true)
  | Some (QRead q md buf niov) => pmap (fun x => (done ++ [(QRead q md buf niov, rres x)], None)) (read_p q md buf niov)
  end.
Definition upriv (c : nat) (u u' : user) : Prop := exists op, u' = (fst u, Some op).
(** at first nobody has done anything *)
Definition nobody : nat -> option user := fun _ => Some ([], None).
(** what process [c] did, out of everything done *)
Definition own (c : nat) (all : list (nat * (qop * qres))) : list (qop * qres) :=
  map snd (filter (fun x => Nat.eqb (fst x) c) all).
Definition did (all : list (nat * (qop * qres))) : list qop := map (fun x => fst (snd x)) all.
Definition saw (all : list (nat * (qop * qres))) : list qres := map (fun x => snd (snd x)) all.
(** who gave up the lock, in order *)
Fixpoint unlocks (t : list fev) : list nat :=
  match t with [] => [] | FUnlock c :: t => c :: unlocks t | _ :: t => unlocks t end.
Definition no_kill (t : list fev) : bool := forallb (fun e => match e with FKill _ _ => false | _ => true end) t.
