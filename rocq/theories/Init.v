(** * Init: layout computed by shr_init, validation done by shr_open
    (src/shr.c).  Model only, no proofs. *)
From Verif Require Export Ring.

(** sizeof(shr_ctrl) on LP64 (src/shr.c l.36-55): magic 8 + gflags 4 + padding
    4 + 8 words 64 + struct shr_stat 128 (src/shr.h l.26-54) + 4 words 32 +
    2 * sizeof(bw_handle) (lib/bw.h l.25-31: 4 + 64 * 12 = 772).  d[] starts
    right there. *)
Definition SIZEOF_PTR : Z := 8.
Definition SIZEOF_MSG : Z := 16.
Definition SIZEOF_STAT : Z := 128.
Definition SIZEOF_BWH : Z := 4 + 64 * (4 + 8).
Definition SIZEOF_CTRL : Z := 8 + 4 + 4 + 8 * 8 + SIZEOF_STAT + 4 * 8 + 2 * SIZEOF_BWH.
Definition MIN_RING_SZ : Z := SIZEOF_CTRL + 1.

(** what shr_init computes from its arguments *)
Record layout := mklay { l_n : Z; l_mm : Z; l_pad : Z; l_mv : Z; l_app : Z; l_sz : Z }.

(** src/shr.c l.210-261, the computations only.  [appsize] is meaningful only
    with SHR_APPDATA_1 and [maxarg] only with SHR_MAXMSGS_2.  None: refused
    (l.210-213). *)
Definition init_layout (data_sz flags appsize maxarg : Z) : outcome (option layout) :=
  if (flags >=? SHR_OPEN_FENCE) || (data_sz =? 0) then Ok None else
  let appsize := if has flags SHR_APPDATA_1 then appsize else 0 in
  let max_msgs := if has flags SHR_MAXMSGS_2 then maxarg else 0 in
  let max_msgs := if max_msgs =? 0 then u64 (100 + data_sz / 100) else max_msgs in
  let mv_bytes := u64 (max_msgs * SIZEOF_MSG) in
  let m := data_sz mod SIZEOF_PTR in
  let pad := if m =? 0 then 0 else SIZEOF_PTR - m in
  assert! (pad <? SIZEOF_PTR);
  assert! (u64 (u64 (SIZEOF_CTRL + data_sz) + pad) mod SIZEOF_PTR =? 0);
  let sz := u64 (SIZEOF_CTRL + data_sz + pad + mv_bytes + appsize) in
  Ok (Some (mklay data_sz max_msgs pad mv_bytes appsize sz)).

(** src/shr.c l.283-287: gflags *)
Definition init_gflags (flags : Z) : Z :=
  let g := 0 in
  let g := if has flags SHR_SYNC then Z.lor g SHR_SYNC else g in
  let g := if has flags SHR_DROP then Z.lor g SHR_DROP else g in
  let g := if has flags SHR_FARM then Z.lor g (Z.lor SHR_FARM SHR_DROP) else g in
  let g := if has flags SHR_MLOCK then Z.lor g SHR_MLOCK else g in
  g.

(** src/shr.c l.275-290: the contents.  The slot table has as many slots as
    mv_len bytes hold.  [app] is the caller's appdata (length l_app). *)
Definition ring_of_layout (l : layout) (flags : Z) (app : bytes) : ring :=
  mkring (init_gflags flags) (l_n l) 0 0 0 0 0 0 0 stat0 (l_mm l) (l_mv l) (l_pad l) (l_app l)
    (repeat 0 (Z.to_nat (l_n l)))
    (repeat (mkslot 0 0) (Z.to_nat (l_mv l / SIZEOF_MSG)))
    (if has flags SHR_APPDATA_1 then app else []).

(** src/shr.c l.386-406: validate_ring.  [fsz] is st_size, [magic_ok] the
    memcmp.  exp_sz is computed in size_t and stored in a ssize_t. *)
Definition s64 (x : Z) : Z := let y := u64 x in if y >? SSIZE_MAX then y - W64 else y.
Definition validate_ring (fsz : Z) (magic_ok : bool) (r : ring) : Z :=
  if fsz <? MIN_RING_SZ then -2
  else if negb magic_ok then -3
  else if fsz <? s64 (SIZEOF_CTRL + r_n r + r_pad_len r + r_mv_len r + r_app_len r) then -4
  else if r_u r >? r_n r then -5
  else if r_i r >=? r_n r then -6
  else if r_r r >=? r_mm r then -7
  else 0.

(** src/shr.c l.476-485: validate_flags; true is success *)
Definition validate_flags (flags : Z) : bool :=
  negb (Z.lxor (Z.land flags SHR_RDONLY) (Z.land flags SHR_WRONLY) =? 0)
  && (Z.land flags (SHR_OPEN_FENCE - 1) =? 0).

(** src/shr.c l.502-505: cache dimensions for a ring of n bytes, mm slots *)
Definition cache_sz (n : Z) : Z :=
  let c := n / 10 in
  let c := if c >? 1024 * 1024 * 1024 then 1024 * 1024 * 1024 else c in
  if c <? 1024 then n else c.
Definition cache_vt (mm : Z) : Z := if 10000 <? mm then 10000 else mm.
