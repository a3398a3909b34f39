(** * Facts for the second part of the theorems: creation, opening, and the
    calls whose documented behaviour does not hold in every case. *)
From Verif Require Export Final.

(** ** shr_init's layout *)

(** the number of slots asked for *)
Definition slots_wanted (data_sz flags maxarg : Z) : Z :=
  if has flags SHR_MAXMSGS_2 && negb (maxarg =? 0) then maxarg else 100 + data_sz / 100.
Definition app_wanted (flags appsize : Z) : Z := if has flags SHR_APPDATA_1 then appsize else 0.

Lemma init_some data_sz flags appsize maxarg : 0 < data_sz -> 0 <= flags < SHR_OPEN_FENCE ->
  exists l, init_layout data_sz flags appsize maxarg = Ok (Some l).
Proof.
  intros Hd Hf. unfold init_layout.
  destruct (Z.geb_spec flags SHR_OPEN_FENCE); [lia|]. destruct (Z.eqb_spec data_sz 0); [lia|]. cbn [orb].
  set (pad := if data_sz mod SIZEOF_PTR =? 0 then 0 else SIZEOF_PTR - data_sz mod SIZEOF_PTR).
  pose proof (Z.mod_pos_bound data_sz SIZEOF_PTR ltac:(reflexivity)) as Hm.
  assert (Hp : 0 <= pad < SIZEOF_PTR) by (unfold pad; destruct (Z.eqb_spec (data_sz mod SIZEOF_PTR) 0); change SIZEOF_PTR with 8 in *; lia).
  destruct (Z.ltb_spec pad SIZEOF_PTR); [|lia].
  assert (E : u64 (u64 (SIZEOF_CTRL + data_sz) + pad) mod SIZEOF_PTR = 0).
  { unfold u64. rewrite Z.add_mod_idemp_l by lia. change SIZEOF_PTR with 8 in *.
    assert (Q : forall x, (x mod W64) mod 8 = x mod 8).
    { intros x. symmetry. apply Znumtheory.Zmod_div_mod; [lia|lia|]. exists 2305843009213693952. reflexivity. }
    rewrite Q. change SIZEOF_CTRL with (223 * 8). unfold pad.
    rewrite (Z.div_mod data_sz 8) at 1 by lia. destruct (Z.eqb_spec (data_sz mod 8) 0) as [E0|E0].
    - replace (223 * 8 + (8 * (data_sz / 8) + data_sz mod 8) + 0) with ((223 + data_sz / 8) * 8) by lia. apply Z.mod_mul. lia.
    - replace (223 * 8 + (8 * (data_sz / 8) + data_sz mod 8) + (8 - data_sz mod 8)) with ((224 + data_sz / 8) * 8) by lia. apply Z.mod_mul. lia. }
  rewrite E. cbn [Z.eqb]. eauto.
Qed.
Lemma init_none data_sz flags appsize maxarg : data_sz = 0 \/ SHR_OPEN_FENCE <= flags ->
  init_layout data_sz flags appsize maxarg = Ok None.
Proof.
  intros H. unfold init_layout. destruct (Z.geb_spec flags SHR_OPEN_FENCE); [reflexivity|]. destruct (Z.eqb_spec data_sz 0); [reflexivity|lia].
Qed.

Lemma init_exact data_sz flags appsize maxarg l : 0 < data_sz -> 0 <= appsize -> 0 <= maxarg ->
  init_layout data_sz flags appsize maxarg = Ok (Some l) ->
  SIZEOF_CTRL + data_sz + SIZEOF_PTR + SIZEOF_MSG * slots_wanted data_sz flags maxarg + app_wanted flags appsize <= W64 ->
  l_n l = data_sz /\ l_mm l = slots_wanted data_sz flags maxarg /\ l_app l = app_wanted flags appsize
  /\ 0 < l_mm l /\ 0 <= l_pad l < 8 /\ (SIZEOF_CTRL + l_n l + l_pad l) mod 8 = 0
  /\ l_mv l = SIZEOF_MSG * l_mm l /\ l_sz l = SIZEOF_CTRL + l_n l + l_pad l + l_mv l + l_app l.
Proof.
  unfold init_layout, slots_wanted, app_wanted. intros Hd Ha Hm E.
  destruct (flags >=? SHR_OPEN_FENCE); [discriminate|]. cbn [orb] in E.
  destruct (Z.eqb_spec data_sz 0) as [|Hd0]; [discriminate|].
  set (mm := if (if has flags SHR_MAXMSGS_2 then maxarg else 0) =? 0 then u64 (100 + data_sz / 100)
             else (if has flags SHR_MAXMSGS_2 then maxarg else 0)) in E.
  set (pad := if data_sz mod SIZEOF_PTR =? 0 then 0 else SIZEOF_PTR - data_sz mod SIZEOF_PTR) in E.
  destruct (pad <? SIZEOF_PTR); [|discriminate].
  destruct (u64 (u64 (SIZEOF_CTRL + data_sz) + pad) mod SIZEOF_PTR =? 0) eqn:Ep; [|discriminate].
  injection E as <-. cbn [l_n l_mm l_mv l_app l_pad l_sz]. intros Hs.
  change SIZEOF_CTRL with 1784 in *. change SIZEOF_PTR with 8 in *. change SIZEOF_MSG with 16 in *.
  pose proof (Z.div_pos data_sz 100 ltac:(lia) ltac:(lia)) as Hdp.
  pose proof (Z.div_le_upper_bound data_sz 100 data_sz ltac:(lia) ltac:(lia)) as Hdl.
  set (app := if has flags SHR_APPDATA_1 then appsize else 0) in *.
  assert (Happ : 0 <= app) by (unfold app; destruct (has flags SHR_APPDATA_1); lia).
  set (mw := if has flags SHR_MAXMSGS_2 && negb (maxarg =? 0) then maxarg else 100 + data_sz / 100) in *.
  assert (Hmw : 0 < mw) by (unfold mw; destruct (has flags SHR_MAXMSGS_2), (Z.eqb_spec maxarg 0); cbn [andb negb]; lia).
  assert (Emm : mm = mw).
  { unfold mm, mw in *. destruct (has flags SHR_MAXMSGS_2); cbn [andb].
    - destruct (Z.eqb_spec maxarg 0); cbn [negb andb] in *; [|reflexivity]. apply u64_small. lia.
    - cbn [Z.eqb andb negb] in *. apply u64_small. lia. }
  rewrite Emm.
  pose proof (Z.mod_pos_bound data_sz 8 ltac:(lia)) as Hmod.
  assert (Hpad : 0 <= pad < 8) by (unfold pad; destruct (Z.eqb_spec (data_sz mod 8) 0); lia).
  rewrite (u64_small (mw * 16)) by lia.
  rewrite (u64_small (1784 + data_sz)) in Ep by lia. rewrite (u64_small (1784 + data_sz + pad)) in Ep by lia.
  apply Z.eqb_eq in Ep. rewrite (u64_small (1784 + data_sz + pad + mw * 16 + _)) by lia.
  repeat split; try lia; try assumption.
Qed.

(** the contents of a new ring *)
Lemma new_content l flags app : 0 <= l_n l -> 0 <= l_mm l -> l_mv l = SIZEOF_MSG * l_mm l ->
  let r := ring_of_layout l flags app in
  zlen (r_d r) = l_n l /\ zlen (r_mv r) = l_mm l /\ r_app r = (if has flags SHR_APPDATA_1 then app else [])
  /\ ring_unread r = [] /\ ring_retained r = []
  /\ r_farm r = has flags SHR_FARM /\ r_drop r = has flags SHR_DROP || has flags SHR_FARM
  /\ has (r_gflags r) SHR_SYNC = has flags SHR_SYNC /\ has (r_gflags r) SHR_MLOCK = has flags SHR_MLOCK
  /\ r_stat r = stat0.
Proof.
  intros H1 H2 H3. cbv zeta. destruct (init_gflags_spec flags) as (G1 & G2 & G3 & G4).
  unfold r_farm, r_drop. cbn [r_gflags ring_of_layout r_d r_mv r_app r_stat]. rewrite H3.
  rewrite Z.mul_comm, Z.div_mul by discriminate. rewrite !zlen_repeat. repeat split; try assumption; lia.
Qed.

(** ** flags *)
Lemma land_bit a k : 0 <= k -> Z.land a (2 ^ k) = if Z.testbit a k then 2 ^ k else 0.
Proof.
  intros Hk. apply Z.bits_inj'. intros n Hn. rewrite Z.land_spec, Z.pow2_bits_eqb by exact Hk.
  destruct (Z.eqb_spec k n) as [->|Hkn].
  - rewrite andb_true_r. destruct (Z.testbit a n); [rewrite Z.pow2_bits_true by exact Hn; reflexivity|rewrite Z.bits_0; reflexivity].
  - rewrite andb_false_r. destruct (Z.testbit a k); [rewrite Z.pow2_bits_false by (intros ->; auto); reflexivity|rewrite Z.bits_0; reflexivity].
Qed.
Lemma has_bit a k : 0 <= k -> has a (2 ^ k) = Z.testbit a k.
Proof.
  intros Hk. unfold has. rewrite land_bit by exact Hk. destruct (Z.testbit a k); [|reflexivity].
  pose proof (Z.pow_pos_nonneg 2 k ltac:(lia) Hk). destruct (Z.eqb_spec (2 ^ k) 0); [lia|reflexivity].
Qed.
Lemma validate_flags_iff flags : validate_flags flags = true <->
  (has flags SHR_RDONLY || has flags SHR_WRONLY = true) /\ flags mod SHR_OPEN_FENCE = 0.
Proof.
  unfold validate_flags. rewrite andb_true_iff, Z.eqb_eq, negb_true_iff, Z.eqb_neq.
  change (SHR_OPEN_FENCE - 1) with (Z.ones 12). rewrite Z.land_ones by lia. change (2 ^ 12) with SHR_OPEN_FENCE.
  change SHR_RDONLY with (2 ^ 13). change SHR_WRONLY with (2 ^ 14). rewrite !has_bit, !land_bit by lia.
  destruct (Z.testbit flags 13), (Z.testbit flags 14); cbn; intuition congruence.
Qed.

(** ** opening *)
Lemma validate_ring_facts fsz r : 0 <= r_n r -> 0 <= r_pad_len r -> 0 <= r_mv_len r -> 0 <= r_app_len r ->
  validate_ring fsz true r = 0 ->
  SIZEOF_CTRL < fsz /\ r_u r <= r_n r /\ r_i r < r_n r /\ r_r r < r_mm r
  /\ (SIZEOF_CTRL + r_n r + r_pad_len r + r_mv_len r + r_app_len r <= SSIZE_MAX ->
      SIZEOF_CTRL + r_n r + r_pad_len r + r_mv_len r + r_app_len r <= fsz).
Proof.
  intros N1 N2 N3 N4. unfold validate_ring. change MIN_RING_SZ with (SIZEOF_CTRL + 1).
  destruct (Z.ltb_spec fsz (SIZEOF_CTRL + 1)); [discriminate|]. cbn [negb].
  set (S := SIZEOF_CTRL + r_n r + r_pad_len r + r_mv_len r + r_app_len r).
  destruct (Z.ltb_spec fsz (s64 S)) as [|HS]; [discriminate|].
  destruct (Z.gtb_spec (r_u r) (r_n r)); [discriminate|]. destruct (Z.geb_spec (r_i r) (r_n r)); [discriminate|].
  destruct (Z.geb_spec (r_r r) (r_mm r)); [discriminate|]. intros _. repeat (split; [lia|]). intros HB.
  assert (HS0 : 0 <= S) by (unfold S; change SIZEOF_CTRL with 1784; lia).
  unfold s64 in HS. cbv zeta in HS. rewrite u64_small in HS by lia. destruct (Z.gtb_spec S SSIZE_MAX); lia.
Qed.
Lemma validate_magic fsz r : validate_ring fsz false r < 0.
Proof. unfold validate_ring. destruct (fsz <? MIN_RING_SZ); reflexivity. Qed.

(** what an attempt to open can do to a ring that is not valid: nothing *)
Lemma open_invalid e w flags pid : validate_ring (w_fsz w) true (w_ring w) <> 0 ->
  step w (AOpen e flags pid) = Ok (w, [EOpen flags None]).
Proof.
  intros H. assert (L : validate_ring (w_fsz w) true (w_ring w) < 0).
  { unfold validate_ring in *. repeat match type of H with context [if ?b then _ else _] => destruct b end; try reflexivity. contradiction. }
  cbn [step]. unfold do_open. destruct (negb (validate_flags flags)); [reflexivity|]. destruct (negb (e_lock e)); [reflexivity|].
  destruct (Z.ltb_spec (validate_ring (w_fsz w) true (w_ring w)) 0); [|lia]. reflexivity.
Qed.
Lemma open_bad_flags e w flags pid : validate_flags flags = false -> step w (AOpen e flags pid) = Ok (w, [EOpen flags None]).
Proof. intros H. cbn [step]. unfold do_open. rewrite H. reflexivity. Qed.

(** ** C34 *)
Lemma f_first_empty r w evs c iov w' ev : reach contract r w evs -> idle w evs c -> has (c_flags (cli w c)) SHR_WRONLY = true ->
  step w (ACall c (CWrite ([] :: iov))) = Ok (w', ev) ->
  ev = [ECall c (CWrite ([] :: iov)); ERet c (RetWrite ([] :: iov) (-1))] /\ w' = w.
Proof.
  intros R HI Hw HS. destruct (reach_inv _ _ _ _ id_contract R) as (fsz & F & X & B & W & HP & HB & SF & SD).
  destruct (idle_pc _ _ _ _ W HP HI) as [Hl Hpc].
  cbn [step] in HS. rewrite Hl, Hpc in HS. cbn [negb start_call] in HS. unfold start_write in HS. rewrite Hw in HS.
  assert (E : wr_check (map zlen ([] :: iov)) (c_n (cli w c)) (c_mm (cli w c)) = None) by reflexivity.
  rewrite E in HS. cbn [obind] in HS. injection HS as <- <-. rewrite setc_same. auto.
Qed.

(** ** C35 *)
Lemma go_write_clear_ret cl iov len cl' rs x v : go_write (cl <| c_cache := clear_cache (c_cache cl) |>) iov len = Ok (cl', rs) ->
  In (RetWrite x v) rs -> v = len.
Proof.
  unfold go_write. cbn [c_cache c_flags set].
  destruct (has (c_flags cl) SHR_BUFFERED); [|intros H; injection H as <- <-; intros []].
  destruct (_ && _).
  - intros H. apply obind_ok in H. destruct H as (ca & _ & H). injection H as <- <-. intros [H|[]]. congruence.
  - cbn [clear_cache ca_n set Z.eqb]. intros H. injection H as <- <-. intros [].
Qed.
Lemma in_rets c c' rs x : In (ERet c x) (rets c' rs) -> c = c' /\ In x rs.
Proof. intros H. apply in_map_iff in H. destruct H as (y & H & Hi). injection H as -> ->. auto. Qed.

Lemma f_failed_write r w evs a w' ev c x : reach faultless r w evs -> faultless w a -> step w a = Ok (w', ev) ->
  In (ERet c x) ev -> (exists iov v, x = RetWrite iov v /\ v <= 0) \/ (exists v, x = RetFlush v /\ v <= 0) ->
  committed ev = [] /\ w_ring w' = w_ring w.
Proof.
  intros R HF HS Hi Hx. destruct (reach_inv _ _ _ _ faultless_contract R) as (fsz & F & X & B & W & HP & HB & SF & SD).
  assert (NR : forall y z, In (ERet c x) [ERet y z] -> x = z) by (intros y z [H|[]]; congruence).
  destruct (step_inv _ _ _ _ HS) as
    [ | | | | | | c0 e k iov len nb r1 hw ks bh hw' wok r2 rv cl' rs Hl Hpc He Ew Eh Eb Er Erv Ee | | |
    | c0 e buf niov q md y cur hr r2w' ks1 bh1 ks2 ok h Hl Hpc He E1 E2 E3 E4 E5 E6 |c0 e w1 Hl Hpc H1 | | c0 e Hl Hpc | c0 e o r1 y Hl Hpc E1
    | c0 e g s z r1 y Hl Hpc E1 | | | |].
  all: try (split; [first [reflexivity|apply committed_rets]|reflexivity]).
  - destruct Hi as [Hi|[]]; discriminate.
  - destruct Hi as [Hi|[]]; discriminate.
  - exfalso. destruct Hi as [Hi|Hi]; [discriminate|]. apply in_rets in Hi. destruct Hi as [_ Hi].
    destruct (wi_cl _ _ _ W c0 Hl) as [ms C]. pose proof (ci_pc _ _ _ _ C) as P. unfold pc_ok in P. rewrite Hpc in P.
    destruct P as (Hw & Hio & -> & Hk & Hb). destruct (iov_ok_pos _ _ _ Hio) as [Hp _].
    destruct HF as [[_ G] M]. cbn [good_env] in G. rewrite (bw_wake_good _ _ _ _ _ _ _ _ G Eb) in Erv.
    cbn [andb] in Erv. unfold shr_sync in Erv. rewrite M, orb_true_r in Erv. subst rv.
    destruct k as [|iov1 len1| |]; cbn [end_write] in Ee.
    + injection Ee as _ <-. destruct Hi as [Hi|[]]. subst x. destruct Hx as [(? & ? & Hx & ?)|(? & Hx & ?)]; [injection Hx as ? ?; lia|discriminate].
    + destruct (Z.leb_spec (nbytes iov) 0); [lia|]. destruct Hx as [(? & ? & -> & Hv)|(? & -> & Hv)].
      * apply (go_write_clear_ret _ _ _ _ _ _ _ Ee) in Hi. destruct Hk as (_ & _ & Hk & Hlen). destruct (iov_ok_pos _ _ _ Hk). lia.
      * apply go_write_ret in Ee. destruct Ee as [->|(? & ->)]; [destruct Hi|]. destruct Hi as [Hi|[]]; discriminate.
    + injection Ee as _ <-. destruct Hi as [Hi|[]]. subst x. destruct Hx as [(? & ? & Hx & ?)|(? & Hx & ?)]; try discriminate. injection Hx as ?; lia.
    + injection Ee as _ <-. destruct Hi.
  - apply NR in Hi. subst x. destruct Hx as [(? & ? & Hx & ?)|(? & Hx & ?)]; discriminate.
  - split; [reflexivity|]. destruct H1 as [->|(ks & h & _ & _ & ->)]; reflexivity.
  - apply NR in Hi. subst x. destruct Hx as [(? & ? & Hx & ?)|(? & Hx & ?)]; discriminate.
  - apply NR in Hi. subst x. exfalso. unfold do_stat in E1. destruct (negb (e_lock e)); injection E1 as <- <-; destruct Hx as [(? & ? & Hx & ?)|(? & Hx & ?)]; discriminate.
  - apply NR in Hi. subst x. apply do_app_ret in E1. destruct E1 as (? & ? & ? & ->). destruct Hx as [(? & ? & Hx & ?)|(? & Hx & ?)]; discriminate.
Qed.
