(** * ToolSpec: vocabulary for C37, C38, C42-C45, C48 *)
From Verif Require Export Tool UxSpec.

(** the frame of a message on the wire, and of several *)
Definition frame (m : bytes) : bytes := le32 (zlen m) ++ m.
Definition frames (ms : list bytes) : bytes := flat_map frame ms.

(** messages whose frame fits the subscriber's buffer *)
Definition fits (m : bytes) : Prop := 0 < zlen m <= BUFLEN - 4.

(** hexadecimal spelling, in either case *)
Inductive spells : bytes -> bytes -> Prop :=
| sp_nil : spells [] []
| sp_cons x y a b bs s : In (a, x) [(48,0);(49,1);(50,2);(51,3);(52,4);(53,5);(54,6);(55,7);(56,8);(57,9);
                                    (97,10);(98,11);(99,12);(100,13);(101,14);(102,15);
                                    (65,10);(66,11);(67,12);(68,13);(69,14);(70,15)] ->
    In (b, y) [(48,0);(49,1);(50,2);(51,3);(52,4);(53,5);(54,6);(55,7);(56,8);(57,9);
               (97,10);(98,11);(99,12);(100,13);(101,14);(102,15);
               (65,10);(66,11);(67,12);(68,13);(69,14);(70,15)] ->
    spells bs s -> spells ((16 * x + y) :: bs) (a :: b :: s).

(** size suffixes: letter and power of 1024 *)
Definition unit_power : list (Z * Z) := [(107,1);(75,1);(109,2);(77,2);(103,3);(71,3);(116,4);(84,4)].

(** what a run of tee did, call by call: messages read, messages put into the
    first and the second output ring *)
Definition tee_read (t : list (tcall * tres)) : list bytes :=
  flat_map (fun p => match p with (TRead, TGot nr m) => if nr >? 0 then [m] else [] | _ => [] end) t.
Definition tee_put1 (t : list (tcall * tres)) : list bytes :=
  flat_map (fun p => match p with (TWrite1 m, TPut rc) => if rc >? 0 then [m] else [] | _ => [] end) t.
Definition tee_put2 (t : list (tcall * tres)) : list bytes :=
  flat_map (fun p => match p with (TWrite2 m, TPut rc) => if rc >? 0 then [m] else [] | _ => [] end) t.

(** stdin consisting of these lines *)
Definition text (ls : list bytes) : bytes := flat_map (fun l => l ++ [10]) ls.
