(** * Base: machine words, outcomes, byte sequences indexed by Z.

    Nothing here is specific to shr; it is the vocabulary in which the C
    functions are transcribed. *)
From Coq Require Export ZArith List Lia Bool.
Export ListNotations.
#[global] Open Scope Z_scope.

(** size_t is 64 bits wide (README.md l.13: "usually an 8-byte quantity").
    Unsigned arithmetic wraps; [u64] is that wrap. *)
Notation W64 := 18446744073709551616 (only parsing).
Notation SSIZE_MAX := 9223372036854775807 (only parsing).
Definition u64 (x : Z) : Z := x mod W64.

(** What executing a piece of C can come to.  [Abort]: an [assert] failed.
    [UB]: an access outside the region it belongs to, or a division by zero.
    [Stuck]: a loop exceeded the number of iterations the model grants it. *)
Inductive outcome (A : Type) : Type :=
| Ok (a : A)
| Abort
| UB
| Stuck.
Arguments Ok {A} a.
Arguments Abort {A}.
Arguments UB {A}.
Arguments Stuck {A}.

Definition obind {A B} (m : outcome A) (k : A -> outcome B) : outcome B :=
  match m with Ok a => k a | Abort => Abort | UB => UB | Stuck => Stuck end.
Notation "'do' X <- m ; k" := (obind m (fun X => k))
  (at level 200, X pattern, m at level 100, k at level 200, right associativity).
(** [assert(b);] *)
Notation "'assert!' b ; k" := (if b then k else Abort)
  (at level 200, b at level 100, k at level 200, right associativity).

Notation byte := Z (only parsing).
Notation bytes := (list Z) (only parsing).

Definition zlen {A} (l : list A) : Z := Z.of_nat (length l).

Definition znth {A} (d : A) (l : list A) (k : Z) : A := nth (Z.to_nat k) l d.

(** array access with bounds check *)
Definition zget {A} (l : list A) (k : Z) : outcome A :=
  if (0 <=? k) then
    match nth_error l (Z.to_nat k) with Some x => Ok x | None => UB end
  else UB.

Fixpoint set_nat {A} (l : list A) (k : nat) (v : A) : list A :=
  match l, k with
  | [], _ => []
  | _ :: t, O => v :: t
  | x :: t, S k' => x :: set_nat t k' v
  end.
Definition zupd {A} (l : list A) (k : Z) (v : A) : list A := set_nat l (Z.to_nat k) v.
(** array store with bounds check *)
Definition zset {A} (l : list A) (k : Z) (v : A) : outcome (list A) :=
  if (0 <=? k) && (k <? zlen l) then Ok (zupd l k v) else UB.

(** bytes [p, p+n) of [l] *)
Definition sub {A} (p n : Z) (l : list A) : list A :=
  firstn (Z.to_nat n) (skipn (Z.to_nat p) l).
(** [l] with the bytes from offset [p] on overwritten by [src] *)
Definition blit {A} (p : Z) (src l : list A) : list A :=
  firstn (Z.to_nat p) l ++ src ++ skipn (Z.to_nat p + length src) l.

(** the load half of a memcpy, with bounds check *)
Definition rd_mem (p n : Z) (l : bytes) : outcome bytes :=
  if (0 <=? p) && (0 <=? n) && (p + n <=? zlen l) then Ok (sub p n l) else UB.
(** the store half of a memcpy, with bounds check *)
Definition wr_mem (p : Z) (src l : bytes) : outcome bytes :=
  if (0 <=? p) && (p + zlen src <=? zlen l) then Ok (blit p src l) else UB.

(** [a % b] on size_t *)
Definition umod (a b : Z) : outcome Z := if b =? 0 then UB else Ok (a mod b).

(** bit tests on flag words: C's [if (flags & BIT)] *)
Definition has (flags bit : Z) : bool := negb (Z.land flags bit =? 0).
