(** * ToolSpec2: vocabulary for C60-C66 *)
From Verif Require Export Tool2 ToolSpec Spec.

(** *** C60 *)
Definition is_byte (c : Z) : Prop := 0 <= c < 256.
(** the characters of the digits 0 to f *)
Definition hexchars : bytes := [48;49;50;51;52;53;54;55;56;57;97;98;99;100;101;102].
(** the value of a number written with [ds] in base 16 *)
Definition from_hex (ds : bytes) (n : Z) : Prop :=
  exists xs, Forall (fun x => 0 <= x < 16) xs /\ ds = map (znth 0 hexchars) xs /\ n = fold_left (fun a x => 16 * a + x) xs 0.

(** *** C62: what the publisher read from the ring, read while serving client
    [c], and sent to it *)
Definition read_all (t : list pitem) : list bytes :=
  flat_map (fun i => match pi_ev i with PRing (Some m) _ => if zlen m =? 0 then [] else [m] | _ => [] end) t.
Definition is_conn (c : nat) (i : pitem) : bool := match pi_conn i with Some d => Nat.eqb c d | None => false end.
Definition read_for (c : nat) (t : list pitem) : list bytes := read_all (filter (is_conn c) t).
Definition sent_to (c : nat) (t : list pitem) : bytes := flat_map pi_out (filter (is_conn c) t).
(** messages as they are on the wire *)
Definition wire (prefix : bool) (ms : list bytes) : bytes := if prefix then frames ms else concat ms.
(** the write()s of a round: the prefix is written whole, or an error is
    returned; enough results for the loop to come to an end *)
Definition writes_ok (prefix : bool) (e : pev) : Prop :=
  match e with
  | PRing (Some m) acc => exists k acc', acc = (if prefix then k :: acc' else acc') /\ (k < 0 \/ 4 <= k)
      /\ (Forall (fun k => 1 <= k) acc' /\ zlen m <= zlen acc' \/ exists a b, acc' = a ++ -1 :: b /\ Forall (fun k => 1 <= k) a)
  | _ => True
  end.
(** no failed call and no signal but the timer's *)
Definition untroubled (e : pev) : Prop :=
  match e with PAccept ok => ok = true | PClient nr => 0 <= nr | PRing got _ => got <> None | PSignal alarm => alarm = true end.

(** *** C64-C66: what the options of create ask for *)
Definition letter (os : list copt) (x : Z) : bool :=
  existsb (fun o => match o with OptM a => existsb (Z.eqb x) a | _ => false end) os.
Definition has_N (os : list copt) : bool := existsb (fun o => match o with OptN _ => true | _ => false end) os.
Definition has_A (os : list copt) : bool := existsb (fun o => match o with OptA _ => true | _ => false end) os.
(** each option at most once (if repeated, the last counts; -m adds up) *)
Definition at_most_once (os : list copt) : Prop :=
  (forall a b, In (OptS a) os -> In (OptS b) os -> a = b) /\ (forall a b, In (OptN a) os -> In (OptN b) os -> a = b)
  /\ (forall a b, In (OptA a) os -> In (OptA b) os -> a = b).

(** *** the read command: the messages among the results of shr_read *)
Definition messages (rs : list (option bytes)) : list bytes :=
  flat_map (fun r => match r with Some m => if zlen m =? 0 then [] else [m] | None => [] end) rs.
(** with option -N max: the first [max], all if 0 *)
Definition first_max (max : Z) (ms : list bytes) : list bytes := if max =? 0 then ms else firstn (Z.to_nat max) ms.
