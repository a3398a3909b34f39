(** * A concrete execution for C93.  Nothing here is part of the model. *)
From Verif Require Export KillSome KillPipeWitness FairWitness.

(** A writer (client 2) sleeps on the full ring; it is woken, but another writer
    (client 0) has filled the ring again, and it goes back to sleep; after the
    next read its message is added. *)
Definition d93 := map Do ([Open WR 7; Open RD 8; Open WR 9] ++ read 1 10 1 ++ write 0 [[1;2;3;4;5;6;7]] ++ write 2 [[1;2;3;4]]
  ++ [Recv 1; Run 1] ++ write 0 [[8;8;8;8;8;8;8;8]] ++ [Recv 2; Run 2] ++ read 1 10 1 ++ [Recv 2; Run 2] ++ read 1 10 1 ++ read 1 10 1).
Notation W93 := (fw plain_ring plain_size d93).
Notation A93 := (fa plain_ring plain_size d93).
Notation V93 := (fe plain_ring plain_size d93).
Lemma d93_forever : forever steady plain_ring W93 A93 V93.
Proof. apply script_forever; [exact plain_fresh|vm_compute; reflexivity]. Qed.
Lemma d93_fair : fair W93 A93 V93 2.
Proof. apply script_fair; vm_compute; reflexivity. Qed.
Lemma d93_reads : keeps_reading plain_ring W93 A93 V93 1 2.
Proof. apply script_keeps_reading; [vm_compute; reflexivity|vm_compute; lia|vm_compute; reflexivity|vm_compute; reflexivity]. Qed.
