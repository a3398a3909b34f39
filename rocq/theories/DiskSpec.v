(** * DiskSpec: vocabulary for C83, C84.  Definitions only. *)
From Verif Require Export Disk.

Definition PAGE : Z := 4096.
Definition omap {A B} (f : A -> B) (o : outcome A) : outcome B := do x <- o; Ok (f x).
(** [x] and [s] have the same contents on page [p] of the file.  The control
    region is the first 1784 bytes of the file, so on page 0; it is followed by
    the data, the slot table (a slot is two 8-byte numbers) and the application
    data (src/shr.c l.36-55, 1049). *)
Definition same_page (p : Z) (x s : image) : Prop :=
  let a := im_ring x in let b := im_ring s in
  (p = 0 -> im_w2r x = im_w2r s /\ im_r2w x = im_r2w s /\ r_gflags a = r_gflags b /\ r_n a = r_n b /\ r_i a = r_i b /\ r_u a = r_u b
     /\ r_m a = r_m b /\ r_mp a = r_mp b /\ r_r a = r_r b /\ r_e a = r_e b /\ r_q a = r_q b /\ r_stat a = r_stat b
     /\ r_mm a = r_mm b /\ r_mv_len a = r_mv_len b /\ r_pad_len a = r_pad_len b /\ r_app_len a = r_app_len b)
  /\ (forall k, 0 <= k -> (SIZEOF_CTRL + k) / PAGE = p -> zget (r_d a) k = zget (r_d b) k)
  /\ (forall k, 0 <= k -> (SIZEOF_CTRL + r_n b + r_pad_len b + SIZEOF_MSG * k) / PAGE = p -> omap sl_pos (zget (r_mv a) k) = omap sl_pos (zget (r_mv b) k))
  /\ (forall k, 0 <= k -> (SIZEOF_CTRL + r_n b + r_pad_len b + SIZEOF_MSG * k + 8) / PAGE = p -> omap sl_len (zget (r_mv a) k) = omap sl_len (zget (r_mv b) k))
  /\ (forall k, 0 <= k -> (SIZEOF_CTRL + r_n b + r_pad_len b + r_mv_len b + k) / PAGE = p -> zget (r_app a) k = zget (r_app b) k).
(** If the power fails now, [x] may be on the disk. *)
Definition survives (u : store) (x : image) : Prop :=
  match u with
  | None => True
  | Some l => forall p, 0 <= p -> exists s, In s l /\ same_page p x s
  end.
(** executions from a ring just made by shr_init *)
Definition dreach (P : world -> action -> Prop) (r : ring) (w : world) (evs : list event) (u : store) : Prop :=
  exists fsz, fresh r fsz /\ dexec P (world0 r fsz) w evs u /\ seq_bound r evs.
(** somebody has opened the ring *)
Definition was_opened (evs : list event) : Prop := exists flags c, In (EOpen flags (Some c)) evs.
(** The power fails while what [a] executes is under way: [x] may be on the
    disk. *)
Definition fails_in (w : world) (u : store) (a : action) (x : image) : Prop :=
  exists line m u', dies_at (dprog w a) (shared w, u) line (m, u') /\ survives u' x.
(** [x], returned in a step with events [ev], reports that what the call stored
    is safe: shr_write and shr_flush that stored messages and return a positive
    number, shr_stat and shr_appdata that return 0. *)
Definition safe_result (ev : list event) (x : ret) : Prop :=
  match x with
  | RetWrite _ v | RetFlush v => 0 < v /\ committed ev <> []
  | RetStat _ v _ => v = 0
  | RetApp v _ _ => v = 0
  | _ => False
  end.
(** [cl] is not about to store messages or application data *)
Definition only_control (cl : client) : Prop := match c_pc cl with RunW _ _ _ _ | RunApp _ (Some _) _ => False | _ => True end.
(** what [a] executes on the shared memory (Kill.v) *)
Definition kprog (w : world) (a : action) : prog shm unit :=
  match a with AOpen e flags pid => open_section e w flags pid | ARun c e => if c_live (cli w c) then section e (cli w c) else Ret tt | _ => Ret tt end.
(** [r'] is what would be in memory if the process that executes [a] had been
    killed at some statement (Kill.v), or had completed the step. *)
Definition like_kill (w : world) (a : action) (r' : ring) : Prop :=
  (exists line m, dies_at (kprog w a) (shared w) line m /\ r' = sh_ring m) \/ (exists w' ev, step w a = Ok (w', ev) /\ r' = w_ring w').
