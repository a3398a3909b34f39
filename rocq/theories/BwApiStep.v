(** * The invariant of BwApiInv.v is kept by every step *)
From Verif Require Import BaseFacts MicroFacts KillExec KillFacts BwInv KillBw KillBwInv KillBwStep KillOcc FineAdv FineOnce FineStep FineHome.
From Verif Require Export BwApiInv.

Lemma wkr_here (W W' : nat -> Prop) h0 q cs s : grow W h0 (b_h s) -> (forall i, W' i -> W i) -> wkr h0 W q cs s -> wkr (b_h s) W' q cs s.
Proof. intros G H (V & Q & S). split; [exact V|]. split; [exact Q|]. intros E i Hi. apply (served_grow W h0 (b_h s)); auto. Qed.
Lemma wkr_shut h W q cs s s' : b_h s' = b_h s -> length (b_ks s') = length (b_ks s) -> (forall k, k_name (sk (b_ks s') k) = k_name (sk (b_ks s) k)) -> wkr h W q cs s -> wkr h W q cs s'.
Proof.
  intros E L N ((V1 & V2) & Q & S). split; [split; [exact V1|]|rewrite E; auto]. intros i k Hk. destruct (V2 i k Hk). rewrite L, N. auto.
Qed.
Record shutd (s s' : bks) : Prop := mksd {
  sd_h : b_h s' = b_h s; sd_len : length (b_ks s') = length (b_ks s);
  sd_id : forall k, k_name (sk (b_ks s') k) = k_name (sk (b_ks s) k) /\ k_pid (sk (b_ks s') k) = k_pid (sk (b_ks s) k)
     /\ k_cap (sk (b_ks s') k) = k_cap (sk (b_ks s) k) /\ k_pend (sk (b_ks s') k) = k_pend (sk (b_ks s) k) }.
Lemma shutd_refl s : shutd s s. Proof. constructor; auto. Qed.

Lemma BY_build home home' y y' s (X Z : nat -> Prop) : BY home y -> prot y X Z s -> shutd s (y_s y') ->
  (forall c n k, Wt y' c n k -> (X c /\ Wt y c n k /\ bc_pid (bcli y' c) = bc_pid (bcli y c) /\ k_open (sk (b_ks (y_s y')) k) = true)
     \/ (waits_at (b_ks (y_s y')) (b_h (y_s y')) n k /\ k_pid (sk (b_ks (y_s y')) k) = bc_pid (bcli y' c) /\ (length (b_ks (y_s y)) <= k)%nat
         /\ h_seq (b_h (y_s y)) < h_seq (b_h s) /\ forall c' n', Wt y' c' n' k -> c' = c)) ->
  (forall c q cs, Wk y' c q cs -> Wk y c q cs \/ ((forall n, Wy y' everyone n -> Wy y X n) /\ wkr (b_h (y_s y)) (Wy y X) q cs s /\ hconns home' true (b_ks (y_s y')) cs)) ->
  (forall k, k_open (sk (b_ks (y_s y')) k) = true -> exists c n, Wt y' c n k) ->
  hext home home' -> unique home' -> named home' (b_ks (y_s y')) -> hslots home' true (b_h (y_s y')) -> BY home' y'.
Proof.
  intros B [G K] [SH SL SI] HWt HWk HO EX U N HS.
  assert (ID : forall k, (k < length (b_ks (y_s y)))%nat -> k_name (sk (b_ks (y_s y')) k) = k_name (sk (b_ks (y_s y)) k) /\ k_pid (sk (b_ks (y_s y')) k) = k_pid (sk (b_ks (y_s y)) k)).
  { intros k L. destruct (kn_id _ _ _ _ K k L) as [A1 A2]. destruct (SI k) as (A3 & A4 & _). split; congruence. }
  assert (LE : (length (b_ks (y_s y)) <= length (b_ks (y_s y')))%nat) by (rewrite SL; apply (kn_len _ _ _ _ K)).
  assert (OLD : forall c n k, X c -> Wt y c n k -> k_open (sk (b_ks (y_s y')) k) = true -> waits_at (b_ks (y_s y')) (b_h (y_s y')) n k).
  { intros c n k Hx Hw Ho. destruct (by_wt _ _ B _ _ _ Hw) as ((A1 & A2 & A3 & A4) & _). pose proof (sk_open_lt _ _ A2) as L. destruct (ID k L) as [E1 E2].
    split; [exact A1|]. split; [exact Ho|]. rewrite E1, E2. split; [exact A3|]. rewrite SH, (gr_slot _ _ _ G n) by (exists c, k; auto). exact A4. }
  constructor.
  - destruct (kn_ki _ _ _ _ K) as [K1 K2 K3]. constructor.
    + intros i j. rewrite SL. intros Li Lj. destruct (SI i) as (-> & _). destruct (SI j) as (-> & _). apply K1; assumption.
    + intros i. destruct (SI i) as (_ & _ & -> & _). apply K2.
    + intros i. destruct (SI i) as (_ & _ & _ & ->). apply K3.
  - rewrite SH, (gr_len _ _ _ G). apply (by_len _ _ B).
  - rewrite SH. pose proof (gr_seq _ _ _ G). pose proof (by_seq _ _ B). lia.
  - intros c n k Hw. destruct (HWt _ _ _ Hw) as [(Hx & Hw0 & Hp & Ho)|(A1 & A2 & _)]; [|auto]. split; [apply (OLD c); assumption|].
    rewrite Hp, <- (proj2 (by_wt _ _ B _ _ _ Hw0)). apply ID. apply (Wt_lt _ _ _ _ _ B Hw0).
  - intros c n k c' n' Hw Hw'. destruct (HWt _ _ _ Hw) as [(_ & Hw0 & _)|(_ & _ & _ & _ & A)]; [|symmetry; apply (A _ _ Hw')].
    destruct (HWt _ _ _ Hw') as [(_ & Hw1 & _)|(_ & _ & _ & _ & A)]; [|apply (A _ _ Hw)]. apply (by_own _ _ B _ _ _ _ _ Hw0 Hw1).
  - intros c q cs Hk. destruct (HWk _ _ _ Hk) as [Hk0|(A1 & A2 & A3)].
    + destruct (by_wk _ _ B _ _ _ Hk0) as [A1 A2]. split.
      * assert (A1' : wkr (b_h (y_s y)) (Wy y X) q cs (mkbk (b_h (y_s y)) (b_ks (y_s y)))).
        { destruct (y_s y) as [hh kk] eqn:E. cbn [b_h b_ks]. destruct A1 as (V & Q & S). split; [exact V|]. split; [exact Q|]. intros E1 i (c0 & k0 & _ & Hi). apply S; [exact E1|]. exists c0, k0. split; [exact I|exact Hi]. }
        destruct (y_s y') as [h2 ks2] eqn:E2. cbn [b_h b_ks] in *. apply (wkr_move (Wy y X) (Wy y' everyone) (b_h (y_s y)) h2 (b_ks (y_s y)) ks2); [rewrite SH; exact G| |exact LE| |exact A1'].
        -- intros i (c0 & k0 & _ & Hi). destruct (HWt _ _ _ Hi) as [(Hx & Hw0 & _)|(_ & _ & _ & A & _)]; [left; exists c0, k0; auto|right; rewrite SH; exact A].
        -- intros k L. apply ID. exact L.
      * apply (hconns_ext home home' _ _ _ EX). apply (hconns_kx home true (b_ks (y_s y))); [|exact A2]. split; [exact LE|]. intros k L. apply ID, L.
    + split; [|exact A3]. rewrite SH. apply (wkr_shut _ _ _ _ s); [exact SH|exact SL|intros k; apply SI|]. apply (wkr_here (Wy y X) _ (b_h (y_s y))); assumption.
  - exact HO.
  - auto.
Qed.

Lemma bcli_call y c o s c' : bc_h (bcli y c) <> None -> bcli (mkbsys s (set_nat (y_cl y) c (bcli y c <| bc_h := o |>))) c' = if (c' =? c)%nat then bcli y c <| bc_h := o |> else bcli y c'.
Proof.
  intros H. unfold bcli at 1. cbn [y_cl]. apply nth_set_nat. destruct (Nat.lt_ge_cases c (length (y_cl y))) as [L|L]; [exact L|]. elim H. unfold bcli. rewrite nth_overflow by exact L. reflexivity.
Qed.
Lemma bcli_open y x s c' : bcli (mkbsys s (y_cl y ++ [x])) c' = if (c' =? length (y_cl y))%nat then x else bcli y c'.
Proof.
  unfold bcli. cbn [y_cl]. destruct (Nat.eqb_spec c' (length (y_cl y))) as [->|N]; [rewrite app_nth2, Nat.sub_diag by lia; reflexivity|].
  destruct (Nat.lt_ge_cases c' (length (y_cl y))) as [L|L]; [rewrite app_nth1 by exact L; reflexivity|]. rewrite !nth_overflow; [reflexivity|lia|rewrite app_length; cbn; lia].
Qed.
Lemma bcli_none y : bc_h (bcli y (length (y_cl y))) = None.
Proof. unfold bcli. rewrite nth_overflow by lia. reflexivity. Qed.
Lemma bcli_end pid y s c : bcli (ended pid y s) c = if bc_pid (bcli y c) =? pid then bcli y c <| bc_h := None |> else bcli y c.
Proof.
  unfold bcli, ended. cbn [y_cl]. set (f := fun c : bcl => if bc_pid c =? pid then c <| bc_h := None |> else c).
  replace (mkbcl 0 None) with (f (mkbcl 0 None)) at 1 by (unfold f; destruct (_ =? pid); reflexivity). apply (map_nth f).
Qed.
Lemma sk_shut pid ks k : sk (shut_pid pid ks) k = if k_pid (sk ks k) =? pid then sk ks k <| k_open := false |> else sk ks k.
Proof.
  unfold sk, shut_pid. set (f := fun k : sock => if k_pid k =? pid then k <| k_open := false |> else k).
  replace sock_dead with (f sock_dead) at 1 by (unfold f; destruct (_ =? pid); reflexivity). apply (map_nth f).
Qed.
Lemma shutd_end pid y s : shutd s (y_s (ended pid y s)).
Proof.
  constructor; [reflexivity|apply map_length|]. intros k. change (b_ks (y_s (ended pid y s))) with (shut_pid pid (b_ks s)). rewrite sk_shut.
  destruct (_ =? _); auto.
Qed.
Lemma Wt_end pid y s c n k : Wt (ended pid y s) c n k <-> Wt y c n k /\ bc_pid (bcli y c) <> pid.
Proof.
  unfold Wt. rewrite bcli_end. destruct (Z.eqb_spec (bc_pid (bcli y c)) pid) as [E|E].
  - split; [intros [p H]; discriminate|intros [_ H]; contradiction].
  - tauto.
Qed.

(** a process has ended, leaving [s] *)
Lemma BY_end home home' y s pid (X Z : nat -> Prop) : BY home y -> prot y X Z s -> (forall c, bc_pid (bcli y c) <> pid -> X c) ->
  (forall k, k_open (sk (b_ks s) k) = true -> k_open (sk (b_ks (y_s y)) k) = true \/ k_pid (sk (b_ks s) k) = pid) ->
  hext home home' -> unique home' -> named home' (b_ks s) -> hslots home' true (b_h s) -> BY home' (ended pid y s).
Proof.
  intros B P HX HO EX U N HS. pose proof (shutd_end pid y s) as SD. apply (BY_build home home' y _ s X Z B P SD); [| | |exact EX|exact U| |exact HS].
  - intros c n k Hw. apply Wt_end in Hw. destruct Hw as [Hw Np]. left. split; [apply HX, Np|]. split; [exact Hw|]. rewrite bcli_end. destruct (Z.eqb_spec (bc_pid (bcli y c)) pid); [contradiction|].
    split; [reflexivity|]. change (b_ks (y_s (ended pid y s))) with (shut_pid pid (b_ks s)). rewrite sk_shut. destruct P as [_ K].
    rewrite (proj2 (kn_id _ _ _ _ K k (Wt_lt _ _ _ _ _ B Hw))), (proj2 (by_wt _ _ B _ _ _ Hw)). destruct (Z.eqb_spec (bc_pid (bcli y c)) pid); [contradiction|].
    apply (kn_open _ _ _ _ K). exists c, n. split; [apply HX, Np|exact Hw].
  - intros c q cs Hk. left. unfold Wk in *. rewrite bcli_end in Hk. destruct (_ =? _); [discriminate|exact Hk].
  - intros k. change (b_ks (y_s (ended pid y s))) with (shut_pid pid (b_ks s)). rewrite sk_shut. destruct (Z.eqb_spec (k_pid (sk (b_ks s) k)) pid) as [E|E]; [discriminate|]. intros Ho.
    destruct (HO _ Ho) as [Ho'|?]; [|contradiction]. destruct (by_open _ _ B _ Ho') as (c & n & Hw). exists c, n. apply Wt_end. split; [exact Hw|].
    rewrite <- (proj2 (by_wt _ _ B _ _ _ Hw)). destruct P as [_ K]. rewrite <- (proj2 (kn_id _ _ _ _ K k (Wt_lt _ _ _ _ _ B Hw))). exact E.
  - intros nm b i Hh. destruct (N _ _ _ Hh) as (k & L & E). exists k. rewrite (sd_len _ _ SD). destruct (sd_id _ _ SD k) as (-> & _). auto.
Qed.
Lemma named_ks home ks ks' : length ks' = length ks -> (forall k, k_name (sk ks' k) = k_name (sk ks k)) -> named home ks -> named home ks'.
Proof. intros L E N nm b i Hh. destruct (N _ _ _ Hh) as (k & A & A'). exists k. rewrite L, E. auto. Qed.

Lemma exec_run {S A B} (p : prog S A) (f : A -> B) s s' x : exec_all (run! r <- p; Ret (f r)) s = Ok (s', x) -> exists r, exec_all p s = Ok (s', r) /\ x = f r.
Proof. intros E. rewrite exec_bind in E. apply obind_ok in E. destruct E as ([s1 r] & E & E1). apply ok_pair in E1. destruct E1 as [<- <-]. eauto. Qed.
Lemma call_none e h x s s' v : exec_all (call_p e h x) s = Ok (s', (None, v)) -> x = BcClose /\ v = 0 /\ forall n k p, h = Wait n k p -> k_open (sk (b_ks s') k) = false.
Proof.
  intros E. destruct x; cbn [call_p] in E; try (apply exec_run in E; destruct E as (r & _ & E); discriminate).
  - destruct (bw_ctl h fd) as [[h' b]| | |]; discriminate.
  - apply (exec_run _ (fun _ => (None, 0))) in E. destruct E as (r & E & Q). injection Q as ->. split; [reflexivity|]. split; [reflexivity|]. intros n k p ->. cbn in E. apply ok_pair in E. destruct E as [<- _].
    match goal with |- k_open (sk ?a k) = _ => change a with (sk_upd (b_ks s) k (fun x => x <| k_open := false |>)) end.
    destruct (Nat.lt_ge_cases k (length (b_ks s))) as [L|L]; [rewrite sk_upd_same by exact L; reflexivity|]. rewrite sk_out by (rewrite sk_upd_len; exact L). reflexivity.
Qed.

Theorem bstep_BY home y v y' : BY home y -> bstep honest y v y' -> exists home', BY home' y'.
Proof.
  intros B S. pose proof (by_home _ _ B) as (U & N & HS). destruct S as [e wait pid s o H0 Hp E|e c h x s o r H0 HC E|pid|e c h x line s H0 HC D|e wait pid line s H0 Hp D].
  - destruct (proj2 (open_ok home y e wait pid B H0) _ _ E) as ((P & (home' & E1 & E2 & E3 & E4) & l & L1 & L2) & (l' & L3 & L4 & L5) & HH).
    assert (l' = l) by (rewrite L1 in L3; apply app_inv_head in L3; congruence). subst l'. exists home'.
    set (y1 := mkbsys s (y_cl y ++ [mkbcl pid o])). 
    assert (CL : forall c', bcli y1 c' = if (c' =? length (y_cl y))%nat then mkbcl pid o else bcli y c') by (intros c'; apply bcli_open).
    assert (W0 : forall c n k, Wt y c n k -> c <> length (y_cl y)) by (intros c n k [p Hw] ->; rewrite bcli_none in Hw; discriminate).
    assert (WO : forall c n k, Wt y c n k -> Wt y1 c n k).
    { intros c n k Hw. pose proof (W0 _ _ _ Hw) as Nc. destruct Hw as [p Hw]. exists p. rewrite CL. destruct (Nat.eqb_spec c (length (y_cl y))); [contradiction|exact Hw]. }
    assert (W1 : forall c n k, Wt y1 c n k -> Wt y c n k /\ bcli y1 c = bcli y c \/ c = length (y_cl y) /\ exists p, o = Some (Wait n k p)).
    { intros c n k [p Hw]. rewrite CL in Hw. destruct (Nat.eqb_spec c (length (y_cl y))) as [->|Nc]; [right; split; [reflexivity|exists p; exact Hw]|left].
      split; [exists p; exact Hw|]. rewrite CL. destruct (Nat.eqb_spec c (length (y_cl y))); [contradiction|reflexivity]. }
    apply (BY_build home home' y y1 s everyone everyone B P (shutd_refl s)); [| | |exact E1|exact E2|exact E3|exact E4].
    + intros c n k Hw. destruct (W1 _ _ _ Hw) as [[Hw0 Ec]|(-> & p & Eo)].
      * left. split; [exact I|]. split; [exact Hw0|]. rewrite Ec. split; [reflexivity|]. destruct P as [_ K]. apply (kn_open _ _ _ _ K). exists c, n. split; [exact I|exact Hw0].
      * right. rewrite Eo in HH. cbn [y1 y_s]. destruct (HH _ eq_refl) as (n' & A1 & A2 & A3 & A4 & A5 & A6). injection A1 as -> -> ->.
        split; [split; [exact A2|]|]. { rewrite A6, sk_app_last. cbn. split; [reflexivity|]. split; [lia|exact A5]. }
        split; [rewrite CL, Nat.eqb_refl, A6, sk_app_last; reflexivity|]. split; [lia|]. split; [exact A4|].
        intros c' n'' Hw'. destruct (W1 _ _ _ Hw') as [[Hw0 _]|(-> & _)]; [|reflexivity]. pose proof (Wt_lt _ _ _ _ _ B Hw0). lia.
    + intros c q cs Hk. unfold Wk in Hk. rewrite CL in Hk. destruct (Nat.eqb_spec c (length (y_cl y))) as [->|Nc]; [right|left; exact Hk].
      cbn [bc_h] in Hk. rewrite Hk in HH. destruct HH as [HH1 HH2]. split; [|split; [exact HH1|apply (hconns_ext _ _ _ _ _ E1); exact HH2]].
      intros n (c' & k & _ & Hw). destruct (W1 _ _ _ Hw) as [[Hw0 _]|(_ & p & Eo)]; [exists c', k; split; [exact I|exact Hw0]|congruence].
    + intros k Ho. cbn [y1 y_s] in Ho. rewrite L1 in Ho. destruct (Nat.lt_ge_cases k (length (b_ks (y_s y)))) as [L|L].
      * rewrite sk_app1 in Ho by exact L. destruct (by_open _ _ B _ Ho) as (c & n & Hw). exists c, n. apply WO, Hw.
      * destruct o as [[q cs|n k' p]|].
        -- exfalso. revert E Ho L1. cbn [open_p]. intros E Ho L1. assert (l = []) as ->; [|rewrite app_nil_r in Ho; rewrite sk_out in Ho by exact L; discriminate].
           destruct wait; cbn [open_p] in E.
           ++ pose proof (proj2 (ok_open_wait e home true _ pid (e_name e) U N (sk_new_name _ _ (proj2 H0)) (y_s y) (conj HS eq_refl)) _ _ E) as [_ Q]. destruct (Q _ eq_refl) as (n & sid & Q1 & _). discriminate.
           ++ pose proof (each_exec RO RO_refl RO_trans _ (ro_open_wake e) _ _ _ E) as [Q _]. rewrite L1, app_length in Q. destruct l; [reflexivity|cbn in Q; lia].
        -- destruct (HH _ eq_refl) as (n' & A1 & A2 & A3 & A4 & A5 & A6). injection A1 as -> -> ->. rewrite L1 in A6. apply app_inv_head in A6. subst l.
           assert (k = length (b_ks (y_s y))) as ->. { pose proof (sk_open_lt _ _ Ho) as LL. rewrite app_length in LL. cbn in LL. lia. }
           exists (length (y_cl y)), n'. exists []. rewrite CL, Nat.eqb_refl. reflexivity.
        -- exfalso. specialize (L5 eq_refl). assert (In (sk (b_ks (y_s y) ++ l) k) l) as HI.
           { pose proof (sk_open_lt _ _ Ho) as LL. rewrite app_length in LL. unfold sk. rewrite app_nth2 by lia. apply nth_In. lia. }
           pose proof (proj1 (Forall_forall _ _) L5 _ HI) as Hf. cbn beta in Hf. congruence.
  - destruct (proj2 (call_ok home y e c h B H0 HC x) _ _ E) as (((PM & JM) & PA & KI') & RR).
    assert (HN : bc_h (bcli y c) <> None) by congruence.
    set (y1 := mkbsys s (set_nat (y_cl y) c (bcli y c <| bc_h := o |>))).
    assert (CL : forall c', bcli y1 c' = if (c' =? c)%nat then bcli y c <| bc_h := o |> else bcli y c') by (intros c'; apply bcli_call; exact HN).
    exists home. cbn [fst] in *. destruct JM as [JS JX].
    assert (W1 : forall c' n k, Wt y1 c' n k -> Wt y c' n k /\ bc_pid (bcli y1 c') = bc_pid (bcli y c') /\ (c' = c -> o <> None)).
    { intros c' n k [p Hw]. rewrite CL in *. destruct (Nat.eqb_spec c' c) as [->|Nc]; [|split; [exists p; exact Hw|]; split; [reflexivity|contradiction]].
      cbn [bc_h bc_pid set] in *. change (bc_h (bcli y c <| bc_h := o |>)) with o in Hw. subst o. cbn in KI'. destruct KI' as [p0 ->]. split; [exists p0; exact HC|]. split; [reflexivity|discriminate]. }
    assert (G : forall X : nat -> Prop, prot y X (but c) s -> (forall c', c' <> c -> X c') -> (o <> None -> X c) -> BY home y1).
    { intros X P X1 X2. apply (BY_build home home y y1 s X (but c) B P (shutd_refl s)); [| | |intros ? ? ? Q; exact Q|exact U| |exact JS].
      - intros c' n k Hw. left. destruct (W1 _ _ _ Hw) as (Hw0 & A1 & A2). assert (Hx : X c') by (destruct (Nat.eq_dec c' c) as [->|Nc]; auto).
        split; [exact Hx|]. split; [exact Hw0|]. split; [exact A1|]. destruct P as [_ K]. apply (kn_open _ _ _ _ K). exists c', n. auto.
      - intros c' q cs Hk. unfold Wk in Hk. rewrite CL in Hk. destruct (Nat.eqb_spec c' c) as [->|Nc]; [|left; exact Hk]. right.
        change (bc_h (bcli y c <| bc_h := o |>)) with o in Hk. subst o. cbn [keeps_id] in KI'. destruct KI' as (_ & A1 & A2).
        split; [|split; [|exact A2]].
        + intros n (c' & k & _ & Hw). destruct (W1 _ _ _ Hw) as (Hw0 & _). exists c', k. split; [|exact Hw0]. destruct (Nat.eq_dec c' c) as [->|Nc]; [apply X2; discriminate|apply X1, Nc].
        + destruct A1 as (V & Q & S). split; [exact V|]. split; [exact Q|]. intros E1 i (c' & k & _ & Hw). apply S; [exact E1|]. exists c', k. split; [exact I|exact Hw].
      - intros k Ho'. pose proof (proj2 RR _ Ho') as Ho. destruct (by_open _ _ B _ Ho) as (c' & n & Hw). exists c', n. 
        destruct (Nat.eq_dec c' c) as [->|Nc]; [|destruct Hw as [p Hw]; exists p; rewrite CL; destruct (Nat.eqb_spec c' c); [contradiction|exact Hw]].
        destruct Hw as [p Hw]. rewrite HC in Hw. injection Hw as ->. destruct o as [h'|].
        + exists (match h' with Wait _ _ p' => p' | Wake _ _ => [] end). rewrite CL, Nat.eqb_refl. change (bc_h (bcli y c <| bc_h := Some h' |>)) with (Some h').
          destruct h' as [q cs|n' k' p']; cbn [keeps_id] in KI'; [destruct KI' as [(q0 & cs0 & Q) _]; discriminate|]. destruct KI' as [p0 Q]. injection Q as -> -> _. reflexivity.
        + exfalso. destruct (call_none _ _ _ _ _ _ E) as (_ & _ & Q). specialize (Q _ _ _ eq_refl). cbn [y1 y_s] in Ho'. congruence.
      - apply (named_kx home (b_ks (y_s y))); [exact JX|exact N]. }
    destruct o as [h'|]; [apply (G everyone); [apply PA; discriminate|intros; exact I|intros; exact I]|apply (G (but c)); [exact PM|auto|intros Q; elim Q; reflexivity]].
  - exists home. apply (BY_end home home y (y_s y) pid everyone everyone B (prot0 home y _ _ B)); auto; [intros; exact I|]. intros ? ? ? Q; exact Q.
  - destruct (proj1 (call_ok home y e c h B H0 HC x) _ _ D) as ((PM & JS & JX) & RR). exists home.
    apply (BY_end home home y s _ (but c) (but c) B PM); auto; [intros c' Nc ->; apply Nc; reflexivity|intros k Ho; left; apply RR, Ho|intros ? ? ? Q; exact Q|].
    apply (named_kx home (b_ks (y_s y))); [exact JX|exact N].
  - destruct (proj1 (open_ok home y e wait pid B H0) _ _ D) as (P & (home' & E1 & E2 & E3 & E4) & l & L1 & L2). exists home'.
    apply (BY_end home home' y s pid everyone everyone B P); auto; [intros; exact I|]. intros k Ho. rewrite L1 in *.
    destruct (Nat.lt_ge_cases k (length (b_ks (y_s y)))) as [L|L]; [left; rewrite sk_app1 in Ho by exact L; exact Ho|right].
    pose proof (sk_open_lt _ _ Ho) as LL. rewrite app_length in LL. unfold sk. rewrite app_nth2 by lia. refine (proj1 (Forall_forall _ _) L2 _ _). apply nth_In. lia.
Qed.
