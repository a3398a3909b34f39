(** * Facts about Reboot.v: the tables of the sleeping processes on the disk, and what survives *)
From Verif Require Import MicroFacts Crash Effects Final Pending PollFacts StepInv WorldFacts FineStep FineSect RingFacts QueueFacts Trace.
From Verif Require Export DiskFacts7 Reboot.

(** ** the tables stay tables *)
Definition HB (s s' : bks) : Prop := length (h_wr (b_h s')) = length (h_wr (b_h s)) /\ h_seq (b_h s) <= h_seq (b_h s').
Lemma HB_refl s : HB s s. Proof. split; [reflexivity|lia]. Qed.
Lemma HB_trans a b c : HB a b -> HB b c -> HB a c. Proof. intros [A1 A2] [B1 B2]. split; [congruence|lia]. Qed.
Lemma HB_pid s n v : HB s (set_pid s n v). Proof. split; cbn [set_pid b_h h_wr h_seq set]; [apply set_nat_len|lia]. Qed.
Lemma HB_name s n v : HB s (set_name s n v). Proof. split; cbn [set_name b_h h_wr h_seq set]; [apply set_nat_len|lia]. Qed.
Lemma HB_seq s : HB s (inc_seq s). Proof. split; cbn [inc_seq b_h h_wr h_seq set]; [reflexivity|lia]. Qed.
Lemma HB_ks s ks : HB s (s <| b_ks := ks |>). Proof. split; cbn [b_h set]; [reflexivity|lia]. Qed.
Ltac hb := apply ea_at; let E := fresh "E" in intros ? ? ? E; cbv zeta in E;
  repeat match type of E with
  | (if ?b then _ else _) = Ok _ => destruct b
  | (match ?x with _ => _ end) = Ok _ => destruct x
  end; try discriminate E; apply ok_pair in E; destruct E as [<- <-];
  (split; [first [apply HB_refl|apply HB_pid|apply HB_name|apply HB_seq|apply HB_ks]|]).
Lemma hb_prune e : forall m n, each HB (prune_p e m n).
Proof. induction m as [|m IH]; intros n; cbn [prune_p]; [constructor|]. hb; [apply IH|]. hb. hb. apply IH. Qed.
Lemma hb_sync e : forall m n cs, each HB (sync_p e m n cs).
Proof. induction m as [|m IH]; intros n cs; cbn [sync_p]; [constructor|]. hb; try apply IH; try apply ea_ret. all: hb; hb; apply IH. Qed.
Lemma hb_bw_sync e q cs : each HB (bw_sync_p e q cs).
Proof. unfold bw_sync_p. hb; [constructor|]. apply each_bind; [apply hb_sync|]. intros x. destruct (snd x); [|constructor]. hb. constructor. Qed.
Lemma hb_wake e : forall m n cs, each HB (wake_p e m n cs).
Proof.
  induction m as [|m IH]; intros n cs; cbn [wake_p]; [constructor|]. apply ea_at. intros s s' p' E. cbv zeta in E.
  destruct (cn_fd (nth n cs conn0)) as [k|]; [|apply ok_pair in E; destruct E as [<- <-]; split; [apply HB_refl|apply IH]].
  destruct (_ && _); apply ok_pair in E; destruct E as [<- <-].
  - split; [|apply IH]. destruct (_ <? _); [apply HB_ks|apply HB_refl].
  - split; [apply HB_refl|]. hb. hb. apply IH.
Qed.
Lemma hb_bw_wake e x : each HB (bw_wake_p e x).
Proof.
  destruct x as [q cs|n s p]; cbn [bw_wake_p]; [|apply ea_at; discriminate]. apply each_bind; [apply hb_bw_sync|]. intros [[q1 cs1] ok].
  destruct ok; [|constructor]. apply each_bind; [apply hb_wake|]. intros c. constructor.
Qed.
Lemma hb_open_wake e : each HB (bw_open_wake_p e).
Proof. unfold bw_open_wake_p. destruct (negb _); [constructor|]. apply each_bind; [apply hb_prune|]. intros _. apply each_bind; [apply hb_bw_sync|]. intros [[q cs] ok]. constructor. Qed.
Lemma hb_force e x want : each HB (bw_force_p e x want).
Proof.
  destruct x as [q cs|n s p]; cbn [bw_force_p]; [apply ea_at; discriminate|]. destruct (negb _); [constructor|]. apply ea_at. intros t t' p' E. cbv zeta in E.
  apply ok_pair in E. destruct E as [<- <-]. split; [|constructor].
  destruct (_ && _); [apply HB_ks|]. destruct (_ && _); [apply HB_ks|apply HB_refl].
Qed.
Lemma hb_close x : each HB (bw_close_p x).
Proof. destruct x as [q cs|n s p]; cbn [bw_close_p]; [constructor|]. hb. hb. hb. constructor. Qed.
Lemma hb_open_wait e pid name : each HB (bw_open_wait_p e pid name).
Proof.
  unfold bw_open_wait_p. destruct (negb _); [constructor|]. apply each_bind; [apply hb_prune|]. intros _.
  hb; try apply ea_ret. hb. hb. hb. destruct (e_self e); [constructor|]. hb. hb. constructor.
Qed.

Definition MB (m m' : shm) : Prop :=
  length (h_wr (sh_w2r m')) = length (h_wr (sh_w2r m)) /\ h_seq (sh_w2r m) <= h_seq (sh_w2r m')
  /\ length (h_wr (sh_r2w m')) = length (h_wr (sh_r2w m)) /\ h_seq (sh_r2w m) <= h_seq (sh_r2w m').
Lemma MB_refl m : MB m m. Proof. repeat split; lia. Qed.
Lemma MB_trans a b c : MB a b -> MB b c -> MB a c.
Proof. intros (A1 & A2 & A3 & A4) (B1 & B2 & B3 & B4). repeat split; try congruence; lia. Qed.
Lemma mb_ring {A} (p : prog ring A) : each MB (on_ring p).
Proof. apply (each_lift (fun _ _ => True)); [|apply each_any; auto]. intros t s _. repeat split; cbn [sh_w2r sh_r2w]; lia. Qed.
Lemma mb_bw {A} b (p : prog bks A) : each HB p -> each MB (on_bw b p).
Proof. apply each_lift. intros t s [H1 H2]. destruct b; cbn [get_bk b_h] in *; repeat split; cbn [put_bk sh_w2r sh_r2w]; try lia; assumption. Qed.
Ltac mbx := repeat first
  [ apply ea_ret | apply mb_bw; first [apply hb_bw_wake|apply hb_force|apply hb_close|apply hb_open_wait|apply hb_open_wake] | apply mb_ring
  | apply each_bind; [|intro] | match goal with |- each _ (At _ (fun _ => UB)) => apply each_stop; reflexivity
                   | |- each _ (match ?x with _ => _ end) => destruct x end ].
Lemma mb_section e cl : each MB (section e cl).
Proof. unfold section. mbx. Qed.
Lemma mb_open e w flags pid : each MB (open_section e w flags pid).
Proof. unfold open_section, fail_open, close_opt. mbx. Qed.
Lemma mb_kprog w a : each MB (kprog w a).
Proof. destruct a; cbn [kprog]; try apply ea_ret; [apply mb_open|]. destruct (c_live _); [apply mb_section|apply ea_ret]. Qed.

(** ** what the disk notes while a step completes *)
Lemma tracks_exec {A} (d : prog (shm * store) A) : forall (p : prog shm A) m u m' u' x, tracks d p -> exec_all d (m, u) = Ok ((m', u'), x) -> from p m u u' /\ exec_all p m = Ok (m', x).
Proof.
  revert d. apply (prog_ind2 (fun d => forall (p : prog shm A) m u m' u' x, tracks d p -> exec_all d (m, u) = Ok ((m', u'), x) -> from p m u u' /\ exec_all p m = Ok (m', x))).
  { intros x p m u m' u' y T D. inversion T; subst. cbn [exec_all] in *. injection D as <- <- <-. split; [apply from_refl|reflexivity]. }
  intros l g IH p m u m' u' y T D. rewrite exec_at in D. destruct (g (m, u)) as [[[m1 u1] d1]| | |] eqn:E; try discriminate D.
  inversion T as [x|l1 f l' g1 H|l1 g1 p1 H]; subst.
  - destruct (H _ _ _ _ E) as (m2 & p2 & Ef & X & T1). injection X as -> ->. destruct (IH _ _ _ E _ _ _ _ _ _ T1 D) as [[F1 F2] P1].
    split; [|rewrite exec_at, Ef; exact P1]. split; [intros N; apply F1; destruct u; [discriminate|congruence]|].
    intros h' E' s Hs. destruct (F2 _ E' _ Hs) as [(h & Eh & Hh)|(m3 & P3 & ->)]; [|right; exists m3; split; [eapply point_next; eassumption|reflexivity]].
    destruct u as [h0|]; [|discriminate Eh]. cbn [note option_map] in Eh. injection Eh as <-. destruct Hh as [<-|Hh]; [|left; eauto].
    right. exists m2. split; [eapply point_next; [exact Ef|apply point_here]|reflexivity].
  - destruct (H _ _ _ _ E) as (X & T1). destruct (IH _ _ _ E _ _ _ _ _ _ T1 D) as [[F1 F2] P1].
    destruct X as [X|X]; injection X as -> ->; (split; [|exact P1]); [split; assumption|].
    split; [intros _; apply F1; discriminate|]. intros h' E' s Hs. destruct (F2 _ E' _ Hs) as [(h & Eh & Hh)|K]; [|right; exact K].
    injection Eh as <-. destruct Hh as [<-|[]]. right. exists m. split; [apply point_here|reflexivity].
Qed.
Lemma section_notes e cl m u m' u' x : exec_all (dsection e cl) (m, u) = Ok ((m', u'), x) -> from (section e cl) m u u'.
Proof.
  destruct (c_pc cl) as [ |k iov len nb|k iov len nb|buf niov|buf niov| | |reset|get st sz] eqn:Ep; try (intros E; refine (proj1 (tracks_exec _ _ _ _ _ _ _ (tr_section e cl _) E)); congruence).
  unfold dsection, section. rewrite Ep. destruct (e_lock e); cbn [negb]; [|intros E; injection E as <- <- _; apply from_refl].
  intros E. rewrite exec_at in E. cbn [fst] in E. destruct (app_done _ _ _ _ _); [|injection E as <- <- _; apply from_refl].
  refine (proj1 (tracks_exec _ _ _ _ _ _ _ _ E)). apply (tr_bindr (mem (on_ring (setapp_p get st sz))) _ (fun _ => msync_p 1078 e)); [apply tr_mem|]. intros []. apply tr_msync.
Qed.
Lemma step_notes w u a m' u' x : exec_all (dprog w a) (shared w, u) = Ok ((m', u'), x) -> from (kprog w a) (shared w) u u'.
Proof.
  destruct a as [e f p|c y|c e|c|c|c fd|c]; cbn [dprog kprog]; try (intros E; injection E as _ <- _; apply from_refl).
  - intros E. refine (proj1 (tracks_exec _ _ _ _ _ _ _ _ E)). apply (tr_bindr (mem (open_section e w f p)) _ (fun _ => if opened e w f p then msync_p 611 e else Ret tt)); [apply tr_mem|].
    intros []. destruct (opened _ _ _ _); [apply tr_msync|apply tr_ret].
  - destruct (c_live _); [apply section_notes|intros E; injection E as _ <- _; apply from_refl].
Qed.
Lemma fails_notes w u a line m u' : dies_at (dprog w a) (shared w, u) line (m, u') -> from (kprog w a) (shared w) u u'.
Proof.
  intros F. destruct a as [e f p|c y|c e|c|c|c fd|c]; cbn [dprog kprog] in *; try (apply dies_ret in F; contradiction).
  - exact (proj1 (open_dies _ _ _ _ _ _ _ _ _ F)).
  - destruct (c_live (cli w c)); [|apply dies_ret in F; contradiction]. exact (proj1 (section_dies _ _ _ _ _ _ _ F)).
Qed.

(** ** images *)
Definition okim (s : image) : Prop := full (im_w2r s) /\ full (im_r2w s) /\ 0 <= h_seq (im_w2r s) /\ 0 <= h_seq (im_r2w s).
Definition okst (u : store) : Prop := match u with None => True | Some l => forall s, In s l -> okim s end.
Lemma okim_mb m m' : MB m m' -> okim (im m) -> okim (im m').
Proof. intros (A1 & A2 & A3 & A4) (B1 & B2 & B3 & B4). unfold okim, full in *. cbn [im im_w2r im_r2w] in *. repeat split; try congruence; lia. Qed.
Lemma okst_from {A} (p : prog shm A) m u u' : each MB p -> okim (im m) -> okst u -> from p m u u' -> okst u'.
Proof.
  intros EP K U [_ F]. destruct u' as [l'|]; [|exact Logic.I]. intros s Hs. destruct (F _ eq_refl s Hs) as [(l & -> & Hl)|(m1 & P & ->)]; [apply U, Hl|].
  apply (okim_mb m); [|exact K]. exact (each_point MB _ _ _ MB_refl MB_trans EP P).
Qed.
Lemma okst_survives l x : okst (Some l) -> survives (Some l) x -> okim x.
Proof.
  intros K S. destruct (S 0 (Z.le_refl 0)) as (s & I & C & _). destruct (C eq_refl) as (E1 & E2 & _). pose proof (K s I) as O. unfold okim in *. rewrite E1, E2. exact O.
Qed.
