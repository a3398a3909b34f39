(** * Conformance: scenarios of the project's own tests run in the model.
    Generated by tools/conformance.py from /repo/tests.  These are tests of the
    model against the outputs its authors recorded, not claims. *)
From Verif Require Import Witness.

(** what the test programs print *)
Inductive obs :=
| OGot (m : bytes) | ONoData | OErr                          (* shr_read *)
| OPut (n : Z)                                               (* shr_write *)
| OStat (bw br mw mr md bd bn bu mu : Z)                     (* shr_stat *)
| ODrops (n : Z).                                            (* shr_farm_stat *)
Definition obs_of (e : event) : list obs :=
  match e with
  | ERet _ (RetRead v buf _) => [if v =? 0 then ONoData else if v <? 0 then OErr else OGot (firstn (Z.to_nat v) buf)]
  | ERet _ (RetWrite _ v) => [OPut v]
  | ERet _ (RetStat _ _ (Some so)) =>
      let s := so_stat so in
      [OStat (st_bw s) (st_br s) (st_mw s) (st_mr s) (st_md s) (st_bd s) (so_bn so) (so_bu so) (so_mu so)]
  | ERet _ (RetFarm _ d) => [ODrops d]
  | _ => []
  end.
Definition ring_for (sz flags max : Z) : world := world0 (new_ring sz flags max []) (new_size sz flags max []).
Definition observe (w : world) (s : list cmd) : option (list obs) :=
  match play w s with Some (_, evs) => Some (flat_map obs_of evs) | None => None end.

(** tests/test36.c, tests/test36.ans *)
Definition script36 : list cmd := [Open WR 7; Open RDN 8; Call 0 (CWrite [[97;97;97]]); Run 0; Call 0 (CWrite [[98]]); Run 0; Call 0 (CWrite [[99;99;99]]); Run 0; Call 0 (CWrite [[100;100;100;100]]); Run 0; Call 0 (CWrite [[101;101;101;101]]); Run 0; Call 0 (CWrite [[102;102;102;102]]); Run 0; Call 0 (CWrite [[103;103;103;103]]); Run 0; Call 0 (CWrite [[104;104;104;104]]); Run 0; Call 0 (CWrite [[105;105;105;105]]); Run 0; Call 0 (CWrite [[106;106]]); Run 0; Call 1 (CStat None); Run 1; Call 0 (CWrite [[107;107;107;107]]); Run 0; Call 1 (CStat None); Run 1; Call 1 (CRead (zeros 37) 1); Run 1; Call 1 (CRead (zeros 37) 1); Run 1; Call 0 CClose; Run 0; Call 1 CClose; Run 1].
Definition answer36 : list obs := [OPut 3; OPut 1; OPut 3; OPut 4; OPut 4; OPut 4; OPut 4; OPut 4; OPut 4; OPut 2; OStat 33 0 10 0 0 0 34 33 10; OPut 4; OStat 37 0 11 0 1 3 34 34 10; OGot [98]; OGot [99;99;99]].
Example test36 : observe (ring_for 34 (Z.lor SHR_DROP SHR_MAXMSGS_2) 100) script36 = Some answer36.
Proof. vm_compute. reflexivity. Qed.

(** tests/test45.c, tests/test45.ans *)
Definition script45 : list cmd := [Open WR 7; Open RDN 8; Call 0 (CWrite [[97;97;97]]); Run 0; Call 0 (CWrite [[98]]); Run 0; Call 0 (CWrite [[99;99;99]]); Run 0; Call 0 (CWrite [[100;100;100;100]]); Run 0; Call 0 (CWrite [[101;101;101;101]]); Run 0; Call 0 (CWrite [[102;102;102;102]]); Run 0; Call 0 (CWrite [[103;103;103;103]]); Run 0; Call 0 (CWrite [[104;104;104;104]]); Run 0; Call 0 (CWrite [[105;105;105;105]]); Run 0; Call 0 (CWrite [[106;106]]); Run 0; Call 1 (CStat None); Run 1; Call 0 (CWrite [[107;107;107;107]]); Run 0; Call 1 (CStat None); Run 1; Call 1 (CRead (zeros 37) 1); Run 1; Call 1 (CRead (zeros 37) 1); Run 1; Open RDN 9; Call 2 (CRead (zeros 37) 1); Run 2; Call 2 (CRead (zeros 37) 1); Run 2; Call 0 (CWrite [[108;108;108;108]]); Run 0; Call 0 (CWrite [[109;109;109;109]]); Run 0; Call 0 (CWrite [[110;110;110;110]]); Run 0; Call 0 (CWrite [[111;111;111;111]]); Run 0; Call 0 (CWrite [[112;112;112;112]]); Run 0; Call 0 (CWrite [[113;113;113;113]]); Run 0; Call 0 (CWrite [[114;114;114;114]]); Run 0; Call 0 (CWrite [[115;115;115;115]]); Run 0; Call 0 (CWrite [[116;116;116;116]]); Run 0; Call 0 (CWrite [[117;117;117;117]]); Run 0; Call 1 (CRead (zeros 37) 1); Run 1; Call 2 (CRead (zeros 37) 1); Run 2; Call 2 (CRead (zeros 37) 1); Run 2; Call 2 (CRead (zeros 37) 1); Run 2; Call 2 (CRead (zeros 37) 1); Run 2; Call 2 (CRead (zeros 37) 1); Run 2; Call 2 (CRead (zeros 37) 1); Run 2; Call 2 (CRead (zeros 37) 1); Run 2; Call 2 (CRead (zeros 37) 1); Run 2; Call 2 (CRead (zeros 37) 1); Run 2; Call 0 CClose; Run 0; Call 2 CClose; Run 2; Call 1 CClose; Run 1].
Definition answer45 : list obs := [OPut 3; OPut 1; OPut 3; OPut 4; OPut 4; OPut 4; OPut 4; OPut 4; OPut 4; OPut 2; OStat 33 0 10 0 0 0 34 33 10; OPut 4; OStat 37 0 11 0 1 3 34 34 10; OGot [98]; OGot [99;99;99]; OGot [98]; OGot [99;99;99]; OPut 4; OPut 4; OPut 4; OPut 4; OPut 4; OPut 4; OPut 4; OPut 4; OPut 4; OPut 4; OGot [110;110;110;110]; OGot [110;110;110;110]; OGot [111;111;111;111]; OGot [112;112;112;112]; OGot [113;113;113;113]; OGot [114;114;114;114]; OGot [115;115;115;115]; OGot [116;116;116;116]; OGot [117;117;117;117]; ONoData].
Example test45 : observe (ring_for 34 (Z.lor SHR_FARM SHR_MAXMSGS_2) 100) script45 = Some answer45.
Proof. vm_compute. reflexivity. Qed.

(** tests/test46.c, tests/test46.ans *)
Definition script46 : list cmd := [Open WR 7; Open RDN 8; Call 0 (CWrite [[97;97;97;97;97]]); Run 0; Call 0 (CWrite [[98;98;98]]); Run 0; Call 0 (CWrite [[99]]); Run 0; Call 0 (CWrite [[100;100;100]]); Run 0; Call 0 (CWrite [[101]]); Run 0; Call 0 (CWrite [[102;102;102;102;102]]); Run 0; Call 0 (CWrite [[103]]); Run 0; Call 0 (CWrite [[104]]); Run 0; Call 1 (CStat None); Run 1; Call 1 (CRead (zeros 37) 1); Run 1; Call 0 (CWrite [[105;105;105;105;105]]); Run 0; Call 1 (CRead (zeros 37) 1); Run 1; Call 1 (CRead (zeros 37) 1); Run 1; Open RDN 9; Call 2 (CStat None); Run 2; Call 2 (CRead (zeros 37) 1); Run 2; Call 2 (CRead (zeros 37) 1); Run 2; Call 0 (CWrite [[106;106;106;106;106]]); Run 0; Call 1 (CRead (zeros 37) 1); Run 1; Call 2 (CRead (zeros 37) 1); Run 2; Call 0 CClose; Run 0; Call 2 CClose; Run 2; Call 1 CClose; Run 1].
Definition answer46 : list obs := [OPut 5; OPut 3; OPut 1; OPut 3; OPut 1; OPut 5; OPut 1; OPut 1; OStat 20 0 8 0 0 0 20 20 8; OGot [97;97;97;97;97]; OPut 5; OGot [98;98;98]; OGot [99]; OStat 25 9 9 3 0 0 20 16 6; OGot [100;100;100]; OGot [101]; OPut 5; OGot [102;102;102;102;102]; OGot [103]].
Example test46 : observe (ring_for 20 (Z.lor SHR_DROP SHR_MAXMSGS_2) 100) script46 = Some answer46.
Proof. vm_compute. reflexivity. Qed.

(** tests/test47.c, tests/test47.ans *)
Definition script47 : list cmd := [Open WR 7; Open RDN 8; Call 0 (CWrite [[97;97;97;97;97]]); Run 0; Call 0 (CWrite [[98;98;98]]); Run 0; Call 0 (CWrite [[99]]); Run 0; Call 0 (CWrite [[100;100;100]]); Run 0; Call 0 (CWrite [[101]]); Run 0; Call 0 (CWrite [[102;102;102;102;102]]); Run 0; Call 0 (CWrite [[103]]); Run 0; Call 0 (CWrite [[104]]); Run 0; Call 1 (CStat None); Run 1; Call 1 (CRead (zeros 37) 1); Run 1; Call 0 (CWrite [[105;105;105;105;105]]); Run 0; Call 1 (CRead (zeros 37) 1); Run 1; Call 1 (CRead (zeros 37) 1); Run 1; Open RDN 9; Call 2 (CStat None); Run 2; Call 2 (CRead (zeros 37) 1); Run 2; Call 2 (CRead (zeros 37) 1); Run 2; Call 0 (CWrite [[106;106;106;106;106]]); Run 0; Call 1 (CRead (zeros 37) 1); Run 1; Call 2 (CRead (zeros 37) 1); Run 2; Call 1 (CRead (zeros 37) 1); Run 1; Call 0 (CWrite [[107;107;107;107;107]]); Run 0; Call 1 (CRead (zeros 37) 1); Run 1; Call 2 (CRead (zeros 37) 1); Run 2; Call 1 (CRead (zeros 37) 1); Run 1; Call 1 (CRead (zeros 37) 1); Run 1; Call 1 (CRead (zeros 37) 1); Run 1; Call 0 (CWrite [[108;108;108;108;108]]); Run 0; Call 1 (CRead (zeros 37) 1); Run 1; Call 2 (CRead (zeros 37) 1); Run 2; Call 0 CClose; Run 0; Call 2 CClose; Run 2; Call 1 CClose; Run 1].
Definition answer47 : list obs := [OPut 5; OPut 3; OPut 1; OPut 3; OPut 1; OPut 5; OPut 1; OPut 1; OStat 20 0 8 0 0 0 20 20 8; OGot [97;97;97;97;97]; OPut 5; OGot [98;98;98]; OGot [99]; OStat 25 9 9 3 1 5 20 20 8; OGot [98;98;98]; OGot [99]; OPut 5; OGot [101]; OGot [101]; OGot [102;102;102;102;102]; OPut 5; OGot [103]; OGot [103]; OGot [104]; OGot [105;105;105;105;105]; OGot [106;106;106;106;106]; OPut 5; OGot [107;107;107;107;107]; OGot [105;105;105;105;105]].
Example test47 : observe (ring_for 20 (Z.lor SHR_FARM SHR_MAXMSGS_2) 100) script47 = Some answer47.
Proof. vm_compute. reflexivity. Qed.

(** tests/test48.c, tests/test48.ans *)
Definition script48 : list cmd := [Open WR 7; Open RDN 8; Call 0 (CWrite [[97;97;97;97;97]]); Run 0; Call 0 (CWrite [[98;98;98]]); Run 0; Call 0 (CWrite [[99]]); Run 0; Call 0 (CWrite [[100;100;100]]); Run 0; Call 0 (CWrite [[101]]); Run 0; Call 0 (CWrite [[102;102;102;102;102]]); Run 0; Call 0 (CWrite [[103]]); Run 0; Call 0 (CWrite [[104]]); Run 0; Call 1 (CStat None); Run 1; Call 1 (CRead (zeros 37) 1); Run 1; Call 0 (CWrite [[105;105;105;105;105]]); Run 0; Call 1 (CRead (zeros 37) 1); Run 1; Call 1 (CRead (zeros 37) 1); Run 1; Open RDN 9; Call 2 (CStat None); Run 2; Call 2 (CRead (zeros 37) 1); Run 2; Call 2 (CRead (zeros 37) 1); Run 2; Call 0 (CWrite [[106;106;106;106;106]]); Run 0; Call 1 (CRead (zeros 37) 1); Run 1; Call 2 (CRead (zeros 37) 1); Run 2; Call 0 (CWrite [[107;107;107]]); Run 0; Call 1 (CRead (zeros 37) 1); Run 1; Call 2 (CRead (zeros 37) 1); Run 2; Call 0 (CWrite [[108;108]]); Run 0; Call 0 (CWrite [[109]]); Run 0; Call 1 (CRead (zeros 37) 1); Run 1; Call 2 (CRead (zeros 37) 1); Run 2; Call 0 CClose; Run 0; Call 2 CClose; Run 2; Call 1 CClose; Run 1].
Definition answer48 : list obs := [OPut 5; OPut 3; OPut 1; OPut 3; OPut 1; OPut 5; OPut 1; OPut 1; OStat 20 0 8 0 7 19 20 1 1; OGot [104]; OPut 5; OGot [105;105;105;105;105]; ONoData; OStat 25 6 9 2 8 20 20 5 1; OGot [105;105;105;105;105]; ONoData; OPut 5; OGot [106;106;106;106;106]; OGot [106;106;106;106;106]; OPut 3; OGot [107;107;107]; OGot [107;107;107]; OPut 2; OPut 1; OGot [109]; OGot [109]].
Example test48 : observe (ring_for 20 (Z.lor SHR_FARM SHR_MAXMSGS_2) 1) script48 = Some answer48.
Proof. vm_compute. reflexivity. Qed.

(** tests/test49.c, tests/test49.ans *)
Definition script49 : list cmd := [Open WR 7; Open RDN 8; Call 0 (CWrite [[97;97;97;97;97]]); Run 0; Call 0 (CWrite [[98;98;98]]); Run 0; Call 0 (CWrite [[99]]); Run 0; Call 0 (CWrite [[100;100;100]]); Run 0; Call 0 (CWrite [[101]]); Run 0; Call 0 (CWrite [[102;102;102;102;102]]); Run 0; Call 0 (CWrite [[103]]); Run 0; Call 0 (CWrite [[104]]); Run 0; Call 1 (CStat None); Run 1; Call 1 (CRead (zeros 37) 1); Run 1; Call 0 (CWrite [[105;105;105;105;105]]); Run 0; Call 1 (CRead (zeros 37) 1); Run 1; Call 1 (CRead (zeros 37) 1); Run 1; Open RDN 9; Call 2 (CStat None); Run 2; Call 2 (CRead (zeros 37) 1); Run 2; Call 2 (CRead (zeros 37) 1); Run 2; Call 0 (CWrite [[106;106;106;106;106]]); Run 0; Call 1 (CRead (zeros 37) 1); Run 1; Call 2 (CRead (zeros 37) 1); Run 2; Call 0 (CWrite [[107;107;107]]); Run 0; Call 1 (CRead (zeros 37) 1); Run 1; Call 2 (CRead (zeros 37) 1); Run 2; Call 0 (CWrite [[108;108]]); Run 0; Call 0 (CWrite [[109]]); Run 0; Call 1 (CRead (zeros 37) 1); Run 1; Call 2 (CRead (zeros 37) 1); Run 2; Call 1 (CRead (zeros 37) 1); Run 1; Call 2 (CRead (zeros 37) 1); Run 2; Call 2 CClose; Run 2; Open RDN 9; Call 3 (CRead (zeros 37) 1); Run 3; Call 1 (CRead (zeros 37) 1); Run 1; Call 0 (CWrite [[110;110]]); Run 0; Call 3 (CRead (zeros 37) 1); Run 3; Call 1 (CRead (zeros 37) 1); Run 1; Call 3 (CRead (zeros 37) 1); Run 3; Call 1 (CRead (zeros 37) 1); Run 1; Call 3 (CRead (zeros 37) 1); Run 3; Call 0 CClose; Run 0; Call 3 CClose; Run 3; Call 1 CClose; Run 1].
Definition answer49 : list obs := [OPut 5; OPut 3; OPut 1; OPut 3; OPut 1; OPut 5; OPut 1; OPut 1; OStat 20 0 8 0 6 18 20 2 2; OGot [103]; OPut 5; OGot [104]; OGot [105;105;105;105;105]; OStat 25 7 9 3 7 19 20 6 2; OGot [104]; OGot [105;105;105;105;105]; OPut 5; OGot [106;106;106;106;106]; OGot [106;106;106;106;106]; OPut 3; OGot [107;107;107]; OGot [107;107;107]; OPut 2; OPut 1; OGot [108;108]; OGot [108;108]; OGot [109]; OGot [109]; OGot [108;108]; ONoData; OPut 2; OGot [109]; OGot [110;110]; OGot [110;110]; ONoData; ONoData].
Example test49 : observe (ring_for 20 (Z.lor SHR_FARM SHR_MAXMSGS_2) 2) script49 = Some answer49.
Proof. vm_compute. reflexivity. Qed.

(** tests/test50.c, tests/test50.ans *)
Definition script50 : list cmd := [Open WR 7; Open RDN 8; Call 0 (CWrite [[97;97;97;97;97]]); Run 0; Call 0 (CWrite [[98;98;98]]); Run 0; Call 0 (CWrite [[99]]); Run 0; Call 0 (CWrite [[100;100;100]]); Run 0; Call 0 (CWrite [[101]]); Run 0; Call 0 (CWrite [[102;102;102;102;102]]); Run 0; Call 0 (CWrite [[103]]); Run 0; Call 0 (CWrite [[104]]); Run 0; Call 1 (CStat None); Run 1; Call 1 (CRead (zeros 37) 1); Run 1; Call 0 (CWrite [[105;105;105;105;105]]); Run 0; Call 1 (CRead (zeros 37) 1); Run 1; Call 1 (CRead (zeros 37) 1); Run 1; Open RDN 9; Call 2 (CStat None); Run 2; Call 2 (CRead (zeros 37) 1); Run 2; Call 2 (CRead (zeros 37) 1); Run 2; Call 2 (CRead (zeros 37) 1); Run 2; Call 0 (CWrite [[106;106;106;106;106]]); Run 0; Call 1 (CRead (zeros 37) 1); Run 1; Call 2 (CRead (zeros 37) 1); Run 2; Call 0 (CWrite [[107;107;107]]); Run 0; Call 1 (CRead (zeros 37) 1); Run 1; Call 2 (CRead (zeros 37) 1); Run 2; Call 0 (CWrite [[108;108]]); Run 0; Call 0 (CWrite [[109]]); Run 0; Call 1 (CRead (zeros 37) 1); Run 1; Call 2 (CRead (zeros 37) 1); Run 2; Call 1 (CRead (zeros 37) 1); Run 1; Call 2 (CRead (zeros 37) 1); Run 2; Call 2 CClose; Run 2; Open RDN 9; Call 3 (CRead (zeros 37) 1); Run 3; Call 1 (CRead (zeros 37) 1); Run 1; Call 0 (CWrite [[110;110]]); Run 0; Call 3 (CRead (zeros 37) 1); Run 3; Call 1 (CRead (zeros 37) 1); Run 1; Call 3 (CRead (zeros 37) 1); Run 3; Call 1 (CRead (zeros 37) 1); Run 1; Call 3 (CRead (zeros 37) 1); Run 3; Call 0 CClose; Run 0; Call 3 CClose; Run 3; Call 1 CClose; Run 1].
Definition answer50 : list obs := [OPut 5; OPut 3; OPut 1; OPut 3; OPut 1; OPut 5; OPut 1; OPut 1; OStat 20 0 8 0 5 13 20 7 3; OGot [102;102;102;102;102]; OPut 5; OGot [103]; OGot [104]; OStat 25 7 9 3 6 18 20 7 3; OGot [103]; OGot [104]; OGot [105;105;105;105;105]; OPut 5; OGot [105;105;105;105;105]; OGot [106;106;106;106;106]; OPut 3; OGot [106;106;106;106;106]; OGot [107;107;107]; OPut 2; OPut 1; OGot [107;107;107]; OGot [108;108]; OGot [108;108]; OGot [109]; OGot [107;107;107]; OGot [109]; OPut 2; OGot [108;108]; OGot [110;110]; OGot [109]; ONoData; OGot [110;110]].
Example test50 : observe (ring_for 20 (Z.lor SHR_FARM SHR_MAXMSGS_2) 3) script50 = Some answer50.
Proof. vm_compute. reflexivity. Qed.

(** tests/test51.c, tests/test51.ans *)
Definition script51 : list cmd := [Open WR 7; Open RDN 8; Open RDN 9; Call 0 (CWrite [[97;98;99;100;101;102;103;104;105;106;107;108;109;110;111;112;113;114;115;116]]); Run 0; Call 0 (CWrite [[98;99;100;101;102;103;104;105;106;107;108;109;110;111;112;113;114;115;116;117]]); Run 0; Call 0 (CWrite [[99;100;101;102;103;104;105;106;107;108;109;110;111;112;113;114;115;116;117;118]]); Run 0; Call 0 (CStat None); Run 0; Call 1 (CRead (zeros 37) 1); Run 1; Call 0 (CWrite [[100;101;102;103;104;105;106;107;108;109;110;111;112;113;114;115;116;117;118;119]]); Run 0; Call 0 (CWrite [[101]]); Run 0; Call 0 (CStat None); Run 0; Call 1 (CRead (zeros 37) 1); Run 1; Call 0 (CWrite [[102;103;104;105;106;107;108;109;110;111;112;113;114;115;116;117;118;119;120;121]]); Run 0; Call 1 (CRead (zeros 37) 1); Run 1; Call 0 (CWrite [[103]]); Run 0; Call 1 (CRead (zeros 37) 1); Run 1; Call 0 CClose; Run 0; Call 2 CClose; Run 2; Call 1 CClose; Run 1].
Definition answer51 : list obs := [OPut 20; OPut 20; OPut 20; OStat 60 0 3 0 2 40 20 20 1; OGot [99;100;101;102;103;104;105;106;107;108;109;110;111;112;113;114;115;116;117;118]; OPut 20; OPut 1; OStat 81 20 5 1 3 60 20 1 1; OGot [101]; OPut 20; OGot [102;103;104;105;106;107;108;109;110;111;112;113;114;115;116;117;118;119;120;121]; OPut 1; OGot [103]].
Example test51 : observe (ring_for 20 (Z.lor SHR_DROP SHR_MAXMSGS_2) 3) script51 = Some answer51.
Proof. vm_compute. reflexivity. Qed.

(** tests/test72.c, tests/test72.ans *)
Definition script72 : list cmd := [Open WR 7; Open RDN 8; Open RDN 9; Call 0 (CWrite [[97;98;99;100;101;102;103;104;105;106;107;108;109;110;111;112;113;114;115;116]]); Run 0; Call 0 (CWrite [[98;99;100;101;102;103;104;105;106;107;108;109;110;111;112;113;114;115;116;117]]); Run 0; Call 0 (CWrite [[99;100;101;102;103;104;105;106;107;108;109;110;111;112;113;114;115;116;117;118]]); Run 0; Call 0 (CStat None); Run 0; Call 1 (CRead (zeros 37) 1); Run 1; Call 0 (CWrite [[100;101;102;103;104;105;106;107;108;109;110;111;112;113;114;115;116;117;118;119]]); Run 0; Call 0 (CWrite [[101]]); Run 0; Call 0 (CStat None); Run 0; Call 1 (CRead (zeros 37) 1); Run 1; Call 0 (CWrite [[102;103;104;105;106;107;108;109;110;111;112;113;114;115;116;117;118;119;120;121]]); Run 0; Call 1 (CRead (zeros 37) 1); Run 1; Call 0 (CWrite [[103]]); Run 0; Call 1 (CRead (zeros 37) 1); Run 1; Call 0 (CWrite [[104]]); Run 0; Call 2 (CRead (zeros 37) 1); Run 2; Call 0 (CWrite [[105;106;107;108;109;110;111;112;113;114;115;116;117;118;119;120;121;122;123;124]]); Run 0; Call 2 (CRead (zeros 37) 1); Run 2; Call 0 CClose; Run 0; Call 2 CClose; Run 2; Call 1 CClose; Run 1].
Definition answer72 : list obs := [OPut 20; OPut 20; OPut 20; OStat 60 0 3 0 2 40 20 20 1; OGot [99;100;101;102;103;104;105;106;107;108;109;110;111;112;113;114;115;116;117;118]; OPut 20; OPut 1; OStat 81 20 5 1 4 80 20 1 1; OGot [101]; OPut 20; OGot [102;103;104;105;106;107;108;109;110;111;112;113;114;115;116;117;118;119;120;121]; OPut 1; OGot [103]; OPut 1; OGot [103]; OPut 20; OGot [105;106;107;108;109;110;111;112;113;114;115;116;117;118;119;120;121;122;123;124]].
Example test72 : observe (ring_for 20 (Z.lor SHR_FARM SHR_MAXMSGS_2) 3) script72 = Some answer72.
Proof. vm_compute. reflexivity. Qed.

(** tests/test80.c, tests/test80.ans *)
Definition script80 : list cmd := [Open WR 7; Open RDN 8; Call 0 (CWrite [[97;97;97;97]]); Run 0; Call 0 (CWrite [[98]]); Run 0; Call 0 (CWrite [[99;99;99]]); Run 0; Call 0 (CWrite [[100;100;100;100]]); Run 0; Call 0 (CWrite [[101;101;101;101]]); Run 0; Call 0 (CWrite [[102;102;102;102]]); Run 0; Call 0 (CWrite [[103;103;103;103]]); Run 0; Call 0 (CWrite [[104;104;104;104]]); Run 0; Call 0 (CWrite [[105;105;105;105]]); Run 0; Call 0 (CWrite [[106;106]]); Run 0; Call 1 (CStat None); Run 1; Call 0 (CWrite [[107;107;107;107]]); Run 0; Call 1 (CStat None); Run 1; Call 1 (CRead (zeros 37) 1); Run 1; Call 0 CClose; Run 0; Call 1 CClose; Run 1].
Definition answer80 : list obs := [OPut 4; OPut 1; OPut 3; OPut 4; OPut 4; OPut 4; OPut 4; OPut 4; OPut 4; OPut 2; OStat 34 0 10 0 0 0 34 34 10; OPut 4; OStat 38 0 11 0 1 4 34 34 10; OGot [98]].
Example test80 : observe (ring_for 34 (Z.lor SHR_DROP SHR_MAXMSGS_2) 10) script80 = Some answer80.
Proof. vm_compute. reflexivity. Qed.

(** tests/test81.c, tests/test81.ans *)
Definition script81 : list cmd := [Open WR 7; Open RDN 8; Call 0 (CWrite [[97;97;97]]); Run 0; Call 0 (CWrite [[98]]); Run 0; Call 0 (CWrite [[99;99;99]]); Run 0; Call 0 (CWrite [[100;100;100;100]]); Run 0; Call 0 (CWrite [[101;101;101;101]]); Run 0; Call 0 (CWrite [[102;102;102;102]]); Run 0; Call 0 (CWrite [[103;103;103;103]]); Run 0; Call 0 (CWrite [[104;104;104;104]]); Run 0; Call 0 (CWrite [[105;105;105;105]]); Run 0; Call 0 (CWrite [[106;106]]); Run 0; Call 0 (CWrite [[107]]); Run 0; Call 1 (CStat None); Run 1; Call 0 (CWrite [[108;108;108;108]]); Run 0; Call 1 (CStat None); Run 1; Call 1 (CRead (zeros 37) 1); Run 1; Call 0 CClose; Run 0; Call 1 CClose; Run 1].
Definition answer81 : list obs := [OPut 3; OPut 1; OPut 3; OPut 4; OPut 4; OPut 4; OPut 4; OPut 4; OPut 4; OPut 2; OPut 1; OStat 34 0 11 0 0 0 34 34 11; OPut 4; OStat 38 0 12 0 2 4 34 34 10; OGot [99;99;99]].
Example test81 : observe (ring_for 34 (Z.lor SHR_DROP SHR_MAXMSGS_2) 100) script81 = Some answer81.
Proof. vm_compute. reflexivity. Qed.
