(** * Concrete executions, used to show that the hypotheses of the theorems
    are met by non-trivial reachable states, and as witnesses of refutations.
    Nothing here is part of the model. *)
From Verif Require Export Misc.

(** ** rings *)
Definition geom (data_sz flags appsize maxarg : Z) : layout :=
  match init_layout data_sz flags appsize maxarg with Ok (Some l) => l | _ => mklay 0 0 0 0 0 0 end.
Definition new_ring (data_sz flags maxarg : Z) (app : bytes) : ring :=
  ring_of_layout (geom data_sz flags (zlen app) maxarg) flags app.
Definition new_size (data_sz flags maxarg : Z) (app : bytes) : Z := l_sz (geom data_sz flags (zlen app) maxarg).
Definition fresh_b (data_sz flags maxarg : Z) (app : bytes) : bool :=
  match init_layout data_sz flags (zlen app) maxarg with Ok (Some _) => true | _ => false end
  && (0 <=? data_sz) && (0 <=? flags) && (0 <=? maxarg)
  && (SIZEOF_CTRL + data_sz + SIZEOF_PTR + SIZEOF_MSG * l_mm (geom data_sz flags (zlen app) maxarg) + zlen app <=? SSIZE_MAX).
Lemma new_fresh data_sz flags maxarg app : fresh_b data_sz flags maxarg app = true ->
  fresh (new_ring data_sz flags maxarg app) (new_size data_sz flags maxarg app).
Proof.
  unfold fresh_b, new_ring, new_size, geom. intros H. repeat (apply andb_true_iff in H; destruct H as [H ?]).
  destruct (init_layout data_sz flags (zlen app) maxarg) as [[l|]| | |] eqn:E; try discriminate.
  constructor. exists data_sz, flags, (zlen app), maxarg, l, app. cbn [r_mm ring_of_layout].
  rewrite ?Z.leb_le in *. repeat (split; [first [assumption|reflexivity|apply zlen_nonneg]|]). lia.
Qed.

(** ** environments in which nothing fails *)
Definition calm (ks : socks) : env :=
  let nm := 1000 + 2 * zlen ks in
  mkenv true true true (fun _ => true) (fun _ => true) (fun _ => true)
    (fun pid name => if existsb (fun k => k_open k && (k_pid k =? pid) && (k_name k =? name)) ks then 1 else 0)
    true true true nm (nm + 1) 10.
Lemma calm_good ks : good_sockets ks (calm ks).
Proof.
  constructor; try (intros; reflexivity). intros pid name. cbn [e_probe calm].
  destruct (existsb _ ks) eqn:E.
  - split; [discriminate|]. intros H. elim H. apply existsb_exists in E. destruct E as (k & Hi & E).
    apply andb_true_iff in E. destruct E as [E E3]. apply andb_true_iff in E. destruct E as [E1 E2].
    exists k. rewrite Z.eqb_eq in *. auto.
  - split; [|reflexivity]. intros _ (k & Hi & H1 & H2 & H3).
    assert (H : existsb (fun k => k_open k && (k_pid k =? pid) && (k_name k =? name)) ks = true).
    { apply existsb_exists. exists k. split; [exact Hi|]. rewrite H1, H2, H3, !Z.eqb_refl. reflexivity. }
    congruence.
Qed.

(** ** scripts *)
Inductive cmd :=
| Open (flags pid : Z) | Call (c : nat) (x : call) | Run (c : nat) | Recv (c : nat)
| Intr (c : nat) | Ready (c : nat) (fd : Z) | Die (c : nat).
Definition act (w : world) (k : cmd) : action :=
  match k with
  | Open flags pid => AOpen (calm (w_ks w)) flags pid
  | Call c x => ACall c x
  | Run c => ARun c (calm (w_ks w))
  | Recv c => AWake c
  | Intr c => AEintr c
  | Ready c fd => APoll c fd
  | Die c => ACrash c
  end.
Definition app_ok_b (r : ring) (get : getarg) (st : option bytes) (sz : Z) : bool :=
  (0 <=? sz) &&
  match get, st with
  | GBuf b, None => (zlen b =? sz) && (sz <=? r_app_len r)
  | GBuf b, Some s => (zlen b =? sz) && (zlen s =? sz)
  | GNull, Some s => zlen s =? sz
  | _, _ => true
  end.
Definition call_ok_b (r : ring) (flags : Z) (x : call) : bool :=
  match x with
  | CRead _ niov => has flags SHR_RDONLY && (0 <=? niov)
  | CWrite iov => has flags SHR_WRONLY && forallb (fun b => zlen b <=? SSIZE_MAX) iov && forallb (fun b => 0 <? zlen b) (tl iov)
  | CFlush _ => has flags SHR_WRONLY
  | CFarmStat _ => has flags SHR_RDONLY
  | CApp get st sz => app_ok_b r get st sz
  | _ => true
  end.
Lemma call_ok_sound r flags x : call_ok_b r flags x = true -> call_ok r flags x.
Proof.
  destruct x as [buf niov|iov|wait| |reset|reset|get st sz|fd| ]; cbn [call_ok call_ok_b]; intros H; auto.
  - apply andb_true_iff in H. destruct H as [H1 H2]. apply Z.leb_le in H2. auto.
  - apply andb_true_iff in H. destruct H as [H H3]. apply andb_true_iff in H. destruct H as [H1 H2].
    rewrite forallb_forall in H2, H3. split; [exact H1|]. rewrite !Forall_forall. split; intros b Hb.
    + apply H2 in Hb. lia.
    + apply H3 in Hb. lia.
  - unfold app_ok_b, app_args_ok in *. destruct get as [| |b], st as [s|]; rewrite ?andb_true_iff, ?Z.leb_le, ?Z.eqb_eq in H; intuition lia.
Qed.
Definition ok_b (w : world) (k : cmd) : bool :=
  match k with
  | Open flags pid => (0 <=? flags) && (0 <? pid) && negb (has flags SHR_RDONLY && has flags SHR_WRONLY)
  | Call c x => call_ok_b (w_ring w) (c_flags (cli w c)) x
  | _ => true
  end.
Definition quiet (k : cmd) : bool := match k with Intr _ | Ready _ _ => false | _ => true end.
Lemma act_faultless w k : ok_b w k = true -> faultless w (act w k).
Proof.
  destruct k as [flags pid|c x|c|c|c|c fd|c]; cbn [ok_b act]; intros H.
  - apply andb_true_iff in H. destruct H as [H H3]. apply andb_true_iff in H. destruct H as [H1 H2].
    split; [split|reflexivity]; [|apply calm_good]. cbn. rewrite negb_true_iff in H3. split; [lia|]. split; [lia|exact H3].
  - split; [split|]; [|exact I|exact I]. cbn. intros _ _. apply call_ok_sound. exact H.
  - split; [split|reflexivity]; [exact I|apply calm_good].
  - repeat split.
  - repeat split.
  - repeat split.
  - repeat split.
Qed.
Lemma act_undisturbed w k : ok_b w k = true -> quiet k = true -> undisturbed w (act w k).
Proof. intros H Q. split; [apply act_faultless; exact H|]. destruct k; cbn; auto; discriminate. Qed.

Fixpoint play (w : world) (ks : list cmd) : option (world * list event) :=
  match ks with
  | [] => Some (w, [])
  | k :: t =>
      if ok_b w k then
        match step w (act w k) with
        | Ok (w1, ev) => match play w1 t with Some (w2, ev2) => Some (w2, ev ++ ev2) | None => None end
        | _ => None
        end
      else None
  end.
Lemma play_exec_gen (P : world -> action -> Prop) w0 :
  forall ks w evs w' ev, (forall w k, In k ks -> ok_b w k = true -> P w (act w k)) ->
  exec P w0 w evs -> play w ks = Some (w', ev) -> exec P w0 w' (evs ++ ev).
Proof.
  induction ks as [|k t IH]; intros w evs w' ev HQ X H; cbn [play] in H.
  - injection H as <- <-. rewrite app_nil_r. exact X.
  - destruct (ok_b w k) eqn:Ok; [|discriminate]. destruct (step w (act w k)) as [[w1 ev1]| | |] eqn:E; try discriminate.
    destruct (play w1 t) as [[w2 ev2]|] eqn:E2; [|discriminate]. injection H as <- <-.
    rewrite app_assoc. apply (IH w1); [intros w3 k3 Hi; apply HQ; right; exact Hi| |exact E2].
    econstructor; [exact X| |exact E]. apply HQ; [left; reflexivity|exact Ok].
Qed.
Lemma play_faultless w0 ks w evs : play w0 ks = Some (w, evs) -> exec faultless w0 w evs.
Proof. intros H. apply (play_exec_gen faultless w0 ks w0 []); [intros; apply act_faultless; assumption|constructor|exact H]. Qed.
Lemma play_undisturbed w0 ks w evs : forallb quiet ks = true -> play w0 ks = Some (w, evs) -> exec undisturbed w0 w evs.
Proof.
  intros Q H. rewrite forallb_forall in Q. apply (play_exec_gen undisturbed w0 ks w0 []); [|constructor|exact H].
  intros; apply act_undisturbed; auto.
Qed.
Lemma play_contract w0 ks w evs : play w0 ks = Some (w, evs) -> exec contract w0 w evs.
Proof. intros H. apply (exec_mono faultless); [apply faultless_contract|]. apply play_faultless with ks. exact H. Qed.
Lemma play_reliable w0 ks w evs : play w0 ks = Some (w, evs) -> exec reliable w0 w evs.
Proof. intros H. apply (exec_mono faultless); [intros ? ? [? _]; assumption|]. apply play_faultless with ks. exact H. Qed.

(** the state and events a script leads to *)
Definition after_script (w0 : world) (ks : list cmd) : world * list event :=
  match play w0 ks with Some x => x | None => (w0, []) end.
Lemma script_plays w0 ks : (if play w0 ks then true else false) = true ->
  play w0 ks = Some (fst (after_script w0 ks), snd (after_script w0 ks)).
Proof. unfold after_script. destruct (play w0 ks) as [[w evs]|]; [reflexivity|discriminate]. Qed.

(** ** the rings and scripts used below *)
Definition RD := SHR_RDONLY.
Definition RDN := SHR_RDONLY + SHR_NONBLOCK.
Definition WR := SHR_WRONLY.
Definition WRN := SHR_WRONLY + SHR_NONBLOCK.
Definition WRB := SHR_WRONLY + SHR_BUFFERED.
Definition WRBN := SHR_WRONLY + SHR_BUFFERED + SHR_NONBLOCK.

(** 10 bytes, 3 messages; plain, DROP and FARM; 4 bytes of appdata *)
Definition plain_ring := new_ring 10 (SHR_MAXMSGS_2 + SHR_APPDATA_1) 3 [1;2;3;4].
Definition plain_size := new_size 10 (SHR_MAXMSGS_2 + SHR_APPDATA_1) 3 [1;2;3;4].
Definition drop_ring := new_ring 10 (SHR_MAXMSGS_2 + SHR_DROP) 3 [].
Definition drop_size := new_size 10 (SHR_MAXMSGS_2 + SHR_DROP) 3 [].
Definition farm_ring := new_ring 10 (SHR_MAXMSGS_2 + SHR_FARM) 3 [].
Definition farm_size := new_size 10 (SHR_MAXMSGS_2 + SHR_FARM) 3 [].
Lemma plain_fresh : fresh plain_ring plain_size. Proof. apply new_fresh. reflexivity. Qed.
Lemma drop_fresh : fresh drop_ring drop_size. Proof. apply new_fresh. reflexivity. Qed.
Lemma farm_fresh : fresh farm_ring farm_size. Proof. apply new_fresh. reflexivity. Qed.
Definition plain0 := world0 plain_ring plain_size.
Definition drop0 := world0 drop_ring drop_size.
Definition farm0 := world0 farm_ring farm_size.

Definition zeros (n : nat) : bytes := repeat 0 n.
Definition write c iov := [Call c (CWrite iov); Run c].
Definition read c n k := [Call c (CRead (zeros n) k); Run c].

(** a script leads to a reachable state *)
Definition plays (w0 : world) (ks : list cmd) : bool :=
  match play w0 ks with Some (_, evs) => zlen (committed evs) <? W64 | None => false end.
Definition sw (w0 : world) (ks : list cmd) : world := fst (after_script w0 ks).
Definition se (w0 : world) (ks : list cmd) : list event := snd (after_script w0 ks).
Lemma plays_spec w0 ks : plays w0 ks = true ->
  play w0 ks = Some (sw w0 ks, se w0 ks) /\ zlen (committed (se w0 ks)) < W64.
Proof.
  unfold plays, sw, se, after_script. destruct (play w0 ks) as [[w evs]|]; [|discriminate]. rewrite Z.ltb_lt. auto.
Qed.
Lemma reach_faultless r fsz ks : fresh r fsz -> plays (world0 r fsz) ks = true ->
  reach faultless r (sw (world0 r fsz) ks) (se (world0 r fsz) ks).
Proof.
  intros F H. destruct (plays_spec _ _ H) as [A B]. exists fsz. split; [exact F|]. split; [apply play_faultless with ks; exact A|intros _; exact B].
Qed.
Lemma reach_undisturbed r fsz ks : fresh r fsz -> plays (world0 r fsz) ks && forallb quiet ks = true ->
  reach undisturbed r (sw (world0 r fsz) ks) (se (world0 r fsz) ks).
Proof.
  intros F H. apply andb_true_iff in H. destruct H as [H Q]. destruct (plays_spec _ _ H) as [A B]. exists fsz.
  split; [exact F|]. split; [apply play_undisturbed with ks; assumption|intros _; exact B].
Qed.
Lemma reach_mono (P Q : world -> action -> Prop) r w evs : (forall w a, P w a -> Q w a) -> reach P r w evs -> reach Q r w evs.
Proof. intros H (fsz & F & X & B). exists fsz. split; [exact F|]. split; [apply (exec_mono P); assumption|exact B]. Qed.
Lemma reach_reliable r fsz ks : fresh r fsz -> plays (world0 r fsz) ks = true ->
  reach reliable r (sw (world0 r fsz) ks) (se (world0 r fsz) ks).
Proof. intros F H. apply (reach_mono faultless); [intros ? ? [? _]; assumption|apply reach_faultless; assumption]. Qed.
Lemma reach_contract r fsz ks : fresh r fsz -> plays (world0 r fsz) ks = true ->
  reach contract r (sw (world0 r fsz) ks) (se (world0 r fsz) ks).
Proof. intros F H. apply (reach_mono faultless); [apply faultless_contract|apply reach_faultless; assumption]. Qed.
