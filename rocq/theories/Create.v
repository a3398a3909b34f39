(** * Create: what shr_init does to the new file, store by store (src/shr.c
    l.239-290), and what it leaves if it is killed.  Model only. *)
From Verif Require Export Micro.

(** l.35: "libshr5" *)
Definition MAGIC : bytes := [108; 105; 98; 115; 104; 114; 53; 0].

(** The file: its size, the magic, and the rest as a ring.  The regions of the
    ring (data, slots, application data) are where they will be in the end;
    a fresh file reads as zeros there, as everywhere. *)
Record cfile := mkcf { f_sz : Z; f_magic : bytes; f_ring : ring }.
(** just created: open, l.239 *)
Definition created (l : layout) : cfile :=
  mkcf 0 (repeat 0 8)
    (mkring 0 0 0 0 0 0 0 0 0 stat0 0 0 0 0
       (repeat 0 (Z.to_nat (l_n l))) (repeat (mkslot 0 0) (Z.to_nat (l_mv l / SIZEOF_MSG))) (repeat 0 (Z.to_nat (l_app l)))).

Definition st (line : Z) (f : ring -> ring) (k : prog cfile unit) : prog cfile unit :=
  At line (fun c => Ok (mkcf (f_sz c) (f_magic c) (f (f_ring c)), k)).
(** memcpy, byte by byte *)
Fixpoint magic_p (i : Z) (bs : bytes) (k : prog cfile unit) : prog cfile unit :=
  match bs with
  | [] => k
  | x :: t => At 277 (fun c => do m <- zset (f_magic c) i x; Ok (mkcf (f_sz c) m (f_ring c), magic_p (i + 1) t k))
  end.
Fixpoint app_p (i : Z) (bs : bytes) (k : prog cfile unit) : prog cfile unit :=
  match bs with
  | [] => k
  | x :: t => At 289 (fun c => do a <- zset (r_app (f_ring c)) i x; Ok (mkcf (f_sz c) (f_magic c) (f_ring c <| r_app := a |>), app_p (i + 1) t k))
  end.
Definition orflag (flags bit g : Z) (r : ring) : ring := if has flags bit then r <| r_gflags := Z.lor (r_gflags r) g |> else r.
(** l.254 (lock), l.262 (ftruncate, succeeding), l.276-290.  The memset of l.276
    stores zeros over zeros. *)
Definition create (l : layout) (flags : Z) (app : bytes) : prog cfile unit :=
  At 254 (fun c => Ok (c,
  At 262 (fun c => Ok (mkcf (l_sz l) (f_magic c) (f_ring c),
  At 276 (fun c => Ok (c,
  magic_p 0 MAGIC (
  st 278 (fun r => r <| r_mm := l_mm l |>) (
  st 279 (fun r => r <| r_pad_len := l_pad l |>) (
  st 280 (fun r => r <| r_mv_len := l_mv l |>) (
  st 281 (fun r => r <| r_app_len := l_app l |>) (
  st 282 (fun r => r <| r_n := l_n l |>) (
  st 283 (fun r => r <| r_gflags := 0 |>) (
  st 284 (orflag flags SHR_SYNC SHR_SYNC) (
  st 285 (orflag flags SHR_DROP SHR_DROP) (
  st 286 (orflag flags SHR_FARM (Z.lor SHR_FARM SHR_DROP)) (
  st 287 (orflag flags SHR_MLOCK SHR_MLOCK) (
  (if has flags SHR_APPDATA_1 then app_p 0 app else fun k => k) (
  At 292 (fun c => Ok (c, Ret tt)))))))))))))))))))).

(** what shr_open's validation says of the file *)
Definition magic_ok (c : cfile) : bool := if list_eq_dec Z.eq_dec (f_magic c) MAGIC then true else false.
Definition accepts (c : cfile) : Prop := validate_ring (f_sz c) (magic_ok c) (f_ring c) = 0.
