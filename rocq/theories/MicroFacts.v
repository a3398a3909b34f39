(** * Proofs about Micro.v *)
From Verif Require Import RingFacts QueueFacts Reach.
From Verif Require Export Micro Spec.

Lemma exec_at {S R} line (f : S -> outcome (S * prog S R)) s : exec_all (At line f) s = do (s', p') <- f s; exec_all p' s'.
Proof. cbn [exec_all]. destruct (f s) as [[s' p']| | |]; reflexivity. Qed.

Lemma drop_loop_exec {R} smm mv niov need am ab (k : Z -> Z -> Z -> prog ring R) r : mv = r_mv r -> forall fuel i z p,
  exec_all (drop_loop_p smm fuel niov need am ab i z p k) r
  = do (i, z, p) <- drop_loop fuel mv smm niov need am ab i z p; exec_all (k i z p) r.
Proof.
  intros ->. induction fuel as [|fuel IH]; intros i z p; cbn [drop_loop_p drop_loop]; destruct (_ || _); try reflexivity.
  rewrite exec_at. destruct (zget (r_mv r) p) as [sl| | |]; cbn [obind]; try reflexivity. apply IH.
Qed.
Lemma drop_exec {R} smm need niov (k : prog ring R) r r' : drop_unread r smm need niov = Ok r' ->
  exec_all (drop_p smm need niov k) r = exec_all k r'.
Proof.
  unfold drop_unread, drop_p. intros H. rewrite exec_at.
  destruct (r_drop r); [|discriminate]. destruct (r_mm r >=? niov); [|discriminate]. destruct (r_m r <=? r_mp r); [|discriminate].
  destruct (r_m r <=? r_mm r); [|discriminate]. destruct (negb (r_mp r =? 0)); [|discriminate]. cbn [obind].
  rewrite (drop_loop_exec smm (r_mv r)) by reflexivity.
  destruct (drop_loop _ _ _ _ _ _ _ _ _ _) as [[[i z] p]| | |]; cbn [obind] in H |- *; try discriminate.
  rewrite !exec_at; cbn [obind]. rewrite !exec_at; cbn [obind]. rewrite !exec_at; cbn [obind]. rewrite !exec_at; cbn [obind].
  rewrite !exec_at; cbn [obind]. rewrite !exec_at.
  set (r1 := r <| r_r := p |> <| r_u := u64 (r_u r - z) |> <| r_m := u64 (r_m r - i) |> <| r_stat := _ |>) in H.
  match goal with |- context [exec_all k] => idtac end.
  match goal with |- context [r_n ?x] => change x with r1 end.
  destruct (u64 (r_n r1 - r_u r1) >=? need); [|discriminate]. destruct (u64 (r_mm r1 - r_m r1) >=? niov); [|discriminate].
  injection H as <-. reflexivity.
Qed.
Lemma evict_exec {R} smm len n niov i (k : Z -> Z -> Z -> prog ring R) r mv : mv = r_mv r -> forall mp e a,
  exec_all (evict_p smm len mp n niov i e a k) r = do (e, a, mp) <- evict_loop mp mv n smm len niov i e a; exec_all (k e a mp) r.
Proof.
  intros ->. induction mp as [|mp IH]; intros e a; [reflexivity|]. cbn [evict_p evict_loop]. rewrite exec_at.
  destruct (zget (r_mv r) e) as [sl| | |]; cbn [obind]; try reflexivity.
  match goal with |- context [if ?b then _ else _] => destruct b end; cbn [obind]; [reflexivity|]. apply IH.
Qed.

Lemma set_nat_twice {A} (l : list A) : forall k a b, set_nat (set_nat l k a) k b = set_nat l k b.
Proof. induction l as [|x t IH]; intros [|k] a b; cbn; try reflexivity. rewrite IH; reflexivity. Qed.
Lemma zset_inv {A} (l l' : list A) k v : zset l k v = Ok l' -> 0 <= k < zlen l /\ l' = zupd l k v.
Proof.
  unfold zset. destruct (Z.leb_spec 0 k), (Z.ltb_spec k (zlen l)); cbn [andb]; intros H1; try discriminate.
  injection H1 as <-. split; [lia|reflexivity].
Qed.
Lemma wr_mem_inv p s l l' : wr_mem p s l = Ok l' -> 0 <= p /\ p + zlen s <= zlen l /\ l' = blit p s l.
Proof.
  unfold wr_mem. destruct (Z.leb_spec 0 p), (Z.leb_spec (p + zlen s) (zlen l)); cbn [andb]; intros H1; try discriminate.
  injection H1 as <-. auto.
Qed.
Lemma blit_cons {A} (d : A) p x t (l : list A) : 0 <= p -> p + zlen (x :: t) <= zlen l ->
  blit p (x :: t) l = blit (p + 1) t (zupd l p x).
Proof.
  intros Hp Hl. rewrite zlen_cons in Hl. pose proof (zlen_nonneg t).
  apply (list_ext d).
  - rewrite !zlen_blit; rewrite ?zlen_zupd, ?zlen_cons; lia.
  - rewrite zlen_blit by (rewrite ?zlen_cons; lia). intros k Hk.
    rewrite !znth_blit by (rewrite ?zlen_zupd, ?zlen_cons; lia). rewrite zlen_cons.
    rewrite znth_zupd by lia.
    destruct (Z.leb_spec p k), (Z.ltb_spec k (p + (zlen t + 1))), (Z.leb_spec (p + 1) k), (Z.ltb_spec k (p + 1 + zlen t));
      cbn [andb]; try lia; destruct (Z.eqb_spec k p); try lia; try reflexivity.
    + rewrite znth_cons_S by lia. f_equal; lia.
    + subst; rewrite Z.sub_diag; reflexivity.
Qed.
Lemma blit_nil {A} p (l : list A) : blit p [] l = l.
Proof. unfold blit. cbn [length app]. rewrite Nat.add_0_r. apply firstn_skipn. Qed.

Lemma set_d_id r : r <| r_d := r_d r |> = r.
Proof. destruct r; reflexivity. Qed.
Lemma bytes_exec {R} line (k : prog ring R) : forall bs pos r d, wr_mem pos bs (r_d r) = Ok d ->
  exec_all (bytes_p line pos bs k) r = exec_all k (r <| r_d := d |>).
Proof.
  induction bs as [|x t IH]; intros pos r d H; apply wr_mem_inv in H; destruct H as (Hp & Hl & ->); cbn [bytes_p].
  - rewrite blit_nil, set_d_id; reflexivity.
  - rewrite exec_at. pose proof Hl as Hl2. rewrite zlen_cons in Hl2. pose proof (zlen_nonneg t).
    rewrite zset_ok by lia. cbn [obind]. rewrite (IH (pos + 1) _ (blit pos (x :: t) (r_d r))); [reflexivity|].
    cbn [r_d set]. rewrite wr_mem_ok by (rewrite ?zlen_zupd; lia). f_equal. symmetry; apply (blit_cons 0); assumption.
Qed.

Lemma copy_exec {R} (k : prog ring R) : forall iov r p r', copy_loop iov r p = Ok r' ->
  exec_all (copy_p iov p k) r = exec_all k r'.
Proof.
  induction iov as [|b t IH]; intros r p r' H; cbn [copy_loop copy_p] in *; [injection H as <-; reflexivity|].
  destruct (zlen b >? 0); [|discriminate].
  apply obind_ok in H. destruct H as (mv & Hmv & H). apply zset_inv in Hmv. destruct Hmv as (Hp & ->).
  rewrite exec_at. rewrite (zget_ok slot0) by lia. cbn [obind]. rewrite zset_ok by lia. cbn [obind].
  rewrite exec_at. cbn [r_mv set]. rewrite (zget_ok slot0) by (rewrite zlen_zupd; lia). cbn [obind].
  rewrite zset_ok by (rewrite zlen_zupd; lia). cbn [obind].
  rewrite znth_zupd, Z.eqb_refl by lia. cbn [sl_pos].
  replace (zupd (zupd (r_mv r) p _) p _) with (zupd (r_mv r) p (mkslot (r_i r) (zlen b))) by (symmetry; apply set_nat_twice).
  rewrite exec_at. cbn [r_i r_n r_d r_mm set] in H |- *.
  apply obind_ok in H. destruct H as (s1 & Es1 & H). rewrite Es1. cbn [obind].
  apply obind_ok in H. destruct H as (d1 & Ed1 & H).
  apply obind_ok in H. destruct H as (d2 & Ed2 & H).
  apply obind_ok in H. destruct H as (i' & Ei & H).
  match type of Ed2 with context [if ?c =? 0 then _ else _] => set (l2 := c) in * end.
  assert (E2 : exists s2, (if l2 =? 0 then Ok [] else rd_mem (if u64 (r_i r + zlen b) >? r_n r then u64 (r_n r - r_i r) else zlen b) l2 b) = Ok s2
      /\ wr_mem 0 s2 d1 = Ok d2).
  { destruct (l2 =? 0).
    - injection Ed2 as <-. exists []. split; [reflexivity|]. rewrite wr_mem_ok by (pose proof (zlen_nonneg d1); cbn; lia).
      rewrite blit_nil. reflexivity.
    - apply obind_ok in Ed2. destruct Ed2 as (s2 & Es2 & Ed2). exists s2. auto. }
  destruct E2 as (s2 & Es2 & Ew2). rewrite Es2. cbn [obind].
  rewrite (bytes_exec 993 _ s1 (r_i r) _ d1) by exact Ed1.
  rewrite (bytes_exec 994 _ s2 0 _ d2) by exact Ew2.
  rewrite exec_at. cbn [r_i r_n r_d r_mm set]. rewrite Ei. cbn [obind].
  rewrite (IH _ _ r'); [reflexivity|]. exact H.
Qed.

(** the whole write section does what Ring.v's function does *)
Theorem write_exec smm iov len woken r o : ring_write r smm iov len = Ok o ->
  exec_all (write_p smm iov len woken) r
  = Ok (match o with None => (r, false) | Some r' => (if woken then stat_wrote r' len (zlen iov) else r', true) end).
Proof.
  assert (C : forall r r', wr_commit r smm iov len = Ok r' -> exec_all (commit_p smm iov len woken) r
     = Ok (if woken then stat_wrote r' len (zlen iov) else r', true)).
  { clear r o. intros r r' H. unfold wr_commit, commit_p in *. rewrite exec_at.
    destruct (u64 (r_n r - r_u r) >=? len); [|discriminate]. destruct (u64 (r_m r + zlen iov) <=? r_mm r); [|discriminate].
    destruct (r_mp r <=? r_mm r); [|discriminate]. cbn [obind].
    rewrite (evict_exec smm len _ _ _ _ r (r_mv r)) by reflexivity.
    destruct (evict_loop _ _ _ _ _ _ _ _ _) as [[[e a] mp]| | |]; cbn [obind] in H |- *; try discriminate.
    rewrite exec_at; cbn [obind]. rewrite exec_at; cbn [obind]. rewrite exec_at; cbn [obind]. rewrite exec_at.
    cbn [r_e r_mp r_mm set] in H |- *. apply obind_ok in H. destruct H as (p & Ep & H). rewrite Ep. cbn [obind].
    apply obind_ok in H. destruct H as (rc & Ec & H). rewrite (copy_exec _ _ _ _ rc) by exact Ec.
    injection H as <-.
    rewrite exec_at; cbn [obind]. rewrite exec_at; cbn [obind]. rewrite exec_at; cbn [obind]. rewrite exec_at; cbn [obind].
    destruct woken; [|reflexivity]. rewrite exec_at; cbn [obind]. rewrite exec_at; cbn [obind]. reflexivity. }
  intros H. unfold ring_write, write_p in *. rewrite exec_at.
  destruct (wr_space r len (zlen iov)); cbn [obind] in *.
  - apply obind_ok in H. destruct H as (r' & H & E). injection E as <-. apply C, H.
  - destruct (r_drop r); cbn [obind] in *.
    + apply obind_ok in H. destruct H as (o1 & Hd & H). apply obind_ok in Hd. destruct Hd as (r1 & Hd & E). injection E as <-.
      rewrite (drop_exec _ _ _ _ _ r1) by exact Hd.
      apply obind_ok in H. destruct H as (r' & H & E). injection E as <-. apply C, H.
    + injection H as <-. reflexivity.
Qed.

Definition rd_of (r : ring) (x : rloc) : rdst := mkrd r (rl_q x) (rl_md x) (rl_buf x) (rl_off x) (rl_len x) (rl_nr x) (rl_iov x).
Definition loc_of (X : rdst) : rloc := mkrl (rd_q X) (rd_md X) (rd_buf X) (rd_off X) (rd_len X) (rd_nr X) (rd_iov X).
Lemma read_loop_exec {R} (k : rloc -> option seg -> prog ring R) : forall niov cur x r,
  exec_all (read_loop_p niov cur x k) r
  = do (X, cur') <- rd_loop niov cur (rd_of r x); exec_all (k (loc_of X) cur') (rd_ring X).
Proof.
  induction niov as [|niov IH]; intros cur x r; destruct cur as [s|]; cbn [read_loop_p rd_loop obind];
    try (destruct x; reflexivity).
  unfold rd_of at 1. cbn [rd_len].
  destruct (u64 (seg_l1 s + seg_l2 s) >? rl_len x); [destruct x; reflexivity|].
  rewrite exec_at. unfold rd_of. cbn [rd_ring rd_q rd_md rd_buf rd_off rd_len rd_nr rd_iov].
  destruct (rd_mem (seg_pos s) (seg_l1 s) (r_d r)) as [a| | |]; cbn [obind]; try reflexivity.
  destruct (wr_mem (rl_off x) a (rl_buf x)) as [buf| | |]; cbn [obind]; try reflexivity.
  match goal with |- context [obind (if seg_l2 s =? 0 then ?A else ?B)] => destruct (if seg_l2 s =? 0 then A else B) as [buf2| | |] end;
    cbn [obind]; try reflexivity.
  destruct (r_farm r) eqn:Hf.
  - rewrite exec_at. cbn [obind].
    destruct (next_msg_info r (u64 (rl_q x + 1)) (rl_md x)) as [[[q md] cur']| | |]; cbn [obind]; try reflexivity.
    rewrite IH. unfold rd_of. cbn [rl_q rl_md rl_buf rl_off rl_len rl_nr rl_iov]. reflexivity.
  - rewrite exec_at. destruct (umod (u64 (r_r r + 1)) (r_mm r)) as [rr| | |]; cbn [obind]; try reflexivity.
    rewrite exec_at; cbn [obind]. rewrite exec_at; cbn [obind]. rewrite exec_at. cbn [r_u r_m set].
    match goal with |- context [next_msg_info ?a ?b ?c] => destruct (next_msg_info a b c) as [[[q md] cur']| | |] end;
      cbn [obind]; try reflexivity.
    rewrite IH. unfold rd_of. cbn [rl_q rl_md rl_buf rl_off rl_len rl_nr rl_iov]. reflexivity.
Qed.

(** the whole read section does what Ring.v's function does *)
Theorem read_exec q md buf niov r q' md' o : ring_read r q md buf niov = Ok (q', md', o) ->
  exec_all (read_p q md buf niov) r
  = Ok (match o with None => r | Some (x, _) => rd_ring x end,
        (q', md', match o with None => None | Some (x, cur') => Some (loc_of x, cur') end)).
Proof.
  intros H. unfold ring_read, read_p in *. rewrite exec_at.
  destruct (next_msg_info r q md) as [[[q1 md1] cur]| | |]; cbn [obind] in *; try discriminate.
  destruct cur as [s|].
  2:{ injection H as <- <- <-. reflexivity. }
  rewrite read_loop_exec. unfold rd_of. cbn [rl_q rl_md rl_buf rl_off rl_len rl_nr rl_iov].
  apply obind_ok in H. destruct H as ([X cur'] & EL & H).
  rewrite EL. cbn [obind].
  cbn [rd_ring rd_q rd_md rd_buf rd_off rd_len rd_nr rd_iov] in H.
  injection H as <- <- <-. rewrite exec_at; cbn [obind]. rewrite exec_at; cbn [obind]. reflexivity.
Qed.
