(** * The theorems, seventeenth part: more of shr-tool (C60-C69). *)
From Verif Require Import Witness ToolFacts5.
From Coq Require Import Strings.String.
Local Open Scope Z_scope.
Local Open Scope list_scope.

(** ** C60 *)
(** hexdump, of a message of any length at the beginning of a buffer: one line
    of 74 characters for every 16 bytes.  Each begins with the offset, in
    hexadecimal; byte [i] of the line is in columns 9+3i and 10+3i in
    hexadecimal, and in column 57+i as a character, a dot if it is not
    printable. *)
Theorem C60_hexdump : forall m rest, Forall is_byte m -> zlen m <= 4294967296 ->
  exists out, hexdump (m ++ rest) (zlen m) = Ok out /\ zlen out = 74 * ((zlen m + 15) / 16)
    /\ forall line i, 0 <= line < (zlen m + 15) / 16 -> 0 <= i < 16 ->
       from_hex (sub (74 * line) 8 out) (16 * line)
       /\ (16 * line + i < zlen m -> from_hex (sub (74 * line + (9 + 3 * i)) 2 out) (znth 0 m (16 * line + i))
            /\ sub (74 * line + (57 + i)) 1 out = [let c := znth 0 m (16 * line + i) in if (32 <=? c) && (c <=? 126) then c else 46])
       /\ (zlen m <= 16 * line + i -> sub (74 * line + (9 + 3 * i)) 2 out = [32; 32]).
Proof. exact t_hexdump. Qed.
Print Assumptions C60_hexdump.
(** Different messages have different dumps. *)
Theorem C60_lossless : forall a b ra rb out, Forall is_byte a -> Forall is_byte b -> zlen a <= 4294967296 -> zlen b <= 4294967296 ->
  hexdump (a ++ ra) (zlen a) = Ok out -> hexdump (b ++ rb) (zlen b) = Ok out -> a = b.
Proof. exact t_lossless. Qed.
Print Assumptions C60_lossless.
Example C60_case : Forall is_byte (str "hello, ring"%string ++ [0; 255; 10; 1; 2; 3; 4; 5])
  /\ hexdump (str "hello, ring"%string ++ [0; 255; 10; 1; 2; 3; 4; 5] ++ [77; 77; 77]) 19
     = Ok (str "00000000 68 65 6c 6c 6f 2c 20 72 69 6e 67 00 ff 0a 01 02 hello, ring....."%string ++ [10]
        ++ str "00000010 03 04 05                                        ...             "%string ++ [10]).
Proof. split; [cbn; repeat (constructor; [unfold is_byte; lia|]); constructor|vm_compute; reflexivity]. Qed.

(** ** C61 *)
(** "host:port" and "port", with a port from 1 to 65535 in decimal, name that
    address and port; with a port of 0, none at all, or one beyond 65535 (but
    below 2^32) they are refused. *)
Theorem C61_partial : forall (addr : Type) (lookup : bytes -> option addr) h ds, ~ In 58 h -> all_digits ds = true ->
  (forall a, lookup h = Some a -> 1 <= decimal ds <= 65535 -> ds <> [] ->
     parse_spec lookup (h ++ 58 :: ds) = Some (Some a, decimal ds) /\ parse_spec lookup ds = Some (None, decimal ds))
  /\ (lookup h = None -> parse_spec lookup (h ++ 58 :: ds) = None)
  /\ (decimal ds = 0 \/ 65535 < decimal ds < 4294967296 -> parse_spec lookup (h ++ 58 :: ds) = None /\ parse_spec lookup ds = None).
Proof. exact t_spec_all. Qed.
Print Assumptions C61_partial.
(** What is accepted has an address that was found, if it has a colon, and a
    port from 1 to 65535. *)
Theorem C61_accepted : forall (addr : Type) (lookup : bytes -> option addr) s a p, parse_spec lookup s = Some (a, p) ->
  1 <= p <= 65535 /\ match a with
    | None => ~ In 58 s
    | Some x => exists h t, s = h ++ 58 :: t /\ ~ In 58 h /\ lookup h = Some x end.
Proof. exact t_spec_ok. Qed.
Print Assumptions C61_accepted.
(** But what is accepted need not be a port: the value is reduced modulo 2^32,
    and what follows the digits is ignored. *)
Theorem C61_refuted : forall (addr : Type) (lookup : bytes -> option addr),
  parse_spec lookup (str "4294967376"%string) = Some (None, 80)
  /\ parse_spec lookup (str "80x"%string) = Some (None, 80) /\ parse_spec lookup (str "80,443"%string) = Some (None, 80).
Proof. intros. repeat split; vm_compute; reflexivity. Qed.
Print Assumptions C61_refuted.
Example C61_case : let lookup h := if list_eq_dec Z.eq_dec h (str "there"%string) then Some 7 else None in
  parse_spec lookup (str "there:8080"%string) = Some (Some 7, 8080) /\ parse_spec lookup (str "8080"%string) = Some (None, 8080)
  /\ parse_spec lookup (str "nowhere:8080"%string) = None /\ parse_spec lookup (str "there:0"%string) = None /\ parse_spec lookup (str "65536"%string) = None
  /\ parse_spec lookup (str "there:"%string) = None.
Proof. cbv zeta. repeat split; vm_compute; reflexivity. Qed.

(** ** C62 *)
(** Each client is sent the messages read from the ring while it is connected,
    whole and in order; only the last can be cut off, and not while the client
    is connected.  Every message read from the ring is sent to one client. *)
Theorem C62_stream : forall p t s, pub_run p t s ->
  (forall c, exists whole last part rest, read_for c t = whole ++ last /\ zlen last <= 1 /\ sent_to c t = wire p whole ++ part /\ wire p last = part ++ rest)
  /\ (forall c, p_fd s = Some c -> sent_to c t = wire p (read_for c t))
  /\ read_all t = List.concat (map (fun c => read_for c t) (seq 0 (p_conns s))).
Proof. exact t_stream. Qed.
Print Assumptions C62_stream.
(** Client 0 comes, is served, and its connection breaks; client 1 comes;
    client 2 is refused; client 1 leaves. *)
Definition t62 : list (pev) :=
  [PAccept true; PRing (Some [1;2;3]) [4;3]; PRing (Some [4;5]) [4;1;-1]; PSignal true; PAccept true; PClient 7; PRing (Some [6]) [4;1];
   PAccept true; PRing (Some [7;8]) [4;1;1]; PRing (Some []) []; PClient 0].
Fixpoint play (p : bool) (s : pst) (t : list pitem) (es : list pev) : option (list pitem * pst) :=
  match es with
  | [] => Some (t, s)
  | e :: es => if polled s e then match pub_step p s e with Ok (Some (s', out)) => play p s' (t ++ [mkpi e (p_fd s) out]) es | _ => None end else None
  end.
Lemma play_run p : forall es s t t' s', pub_run p t s -> play p s t es = Some (t', s') -> pub_run p t' s'.
Proof.
  induction es as [|e es IH]; intros s t t' s' R H; cbn [play] in H; [injection H as <- <-; exact R|].
  destruct (polled s e) eqn:P; [|discriminate]. destruct (pub_step p s e) as [[[s1 out]|]| | |] eqn:S; try discriminate. eapply IH; [|exact H]. eapply pr_next; eassumption.
Qed.
Example C62_case : exists t s, pub_run true t s /\ map pi_ev t = t62 /\ p_fd s = None /\ p_conns s = 3%nat
  /\ read_all t = [[1;2;3];[4;5];[6];[7;8]] /\ read_for 0 t = [[1;2;3];[4;5]] /\ sent_to 0 t = frame [1;2;3] ++ [2;0;0;0;4]
  /\ read_for 1 t = [[6];[7;8]] /\ sent_to 1 t = frame [6] ++ frame [7;8] /\ sent_to 2 t = [].
Proof.
  destruct (play true (mkpst None false 0) [] t62) as [[t s]|] eqn:E; [|vm_compute in E; discriminate].
  exists t, s. split; [apply (play_run true t62 _ _ _ _ (pr_start true) E)|]. vm_compute in E. injection E as <- <-. repeat split; reflexivity.
Qed.

(** ** C63 *)
(** The publisher never fails an assertion (if the prefix is written whole or
    not at all), and goes on unless a call fails or a signal comes. *)
Theorem C63_partial : forall p t s e, pub_run p t s -> polled s e = true -> writes_ok p e ->
  exists x, pub_step p s e = Ok x /\ (untroubled e -> x <> None).
Proof. exact t_pub_safe. Qed.
Print Assumptions C63_partial.
(** But a client can make a call fail: after it resets its connection, recv()
    reports an error, and the publisher exits. *)
Theorem C63_refuted : exists t s, pub_run true t s /\ polled s (PClient (-1)) = true /\ pub_step true s (PClient (-1)) = Ok None.
Proof.
  exists [mkpi (PAccept true) None []], (mkpst (Some 0%nat) true 1). split; [|split; reflexivity].
  apply (pr_next true [] (mkpst None false 0) (PAccept true) (mkpst (Some 0%nat) true 1) []); [constructor|reflexivity|reflexivity].
Qed.
Print Assumptions C63_refuted.
Example C63_case : writes_ok true (PRing (Some [1;2;3]) [4;2;1;9]) /\ writes_ok true (PRing (Some [1;2;3]) [4;1;-1])
  /\ writes_ok false (PRing (Some [1;2;3]) [-1]) /\ untroubled (PRing (Some [1;2;3]) [4;1;-1]) /\ untroubled (PClient 0).
Proof.
  split; [exists 4, [2;1;9]; split; [reflexivity|split; [lia|left; split; [repeat constructor; lia|vm_compute; discriminate]]]|].
  split; [exists 4, [1;-1]; split; [reflexivity|split; [lia|right; exists [1], []; split; [reflexivity|repeat constructor; lia]]]|].
  split; [exists 4, [-1]; split; [reflexivity|split; [lia|right; exists [], []; split; [reflexivity|constructor]]]|].
  split; [discriminate|cbn; lia].
Qed.

(** ** C64 *)
(** While no connection has broken in the middle of a message, every message
    read from the ring has been sent. *)
Theorem C64_partial : forall p t s, pub_run p t s -> (forall e o out, In (mkpi e o out) t -> forall m acc, e = PRing (Some m) acc -> Forall (fun k => 0 <= k) acc) ->
  forall c, sent_to c t = wire p (read_for c t).
Proof. exact t_unbroken. Qed.
Print Assumptions C64_partial.
(** A message being sent when the connection breaks is lost: it has been taken
    from the ring, and the next client gets the one after it. *)
Theorem C64_refuted : exists t s, pub_run true t s /\ p_fd s = Some 1%nat /\ read_all t = [[1;2;3];[4;5]]
  /\ sent_to 0 t = [] /\ sent_to 1 t = frame [4;5].
Proof.
  destruct (play true (mkpst None false 0) [] [PAccept true; PRing (Some [1;2;3]) [-1]; PAccept true; PRing (Some [4;5]) [4;2]]) as [[t s]|] eqn:E; [|vm_compute in E; discriminate].
  exists t, s. split; [apply (play_run true _ _ _ _ _ (pr_start true) E)|]. vm_compute in E. injection E as <- <-. repeat split; reflexivity.
Qed.
Print Assumptions C64_refuted.
Example C64_case : exists t s, pub_run true t s /\ (forall e o out, In (mkpi e o out) t -> forall m acc, e = PRing (Some m) acc -> Forall (fun k => 0 <= k) acc)
  /\ sent_to 0 t = frame [1;2;3] /\ sent_to 1 t = frame [4;5].
Proof.
  destruct (play true (mkpst None false 0) [] [PAccept true; PRing (Some [1;2;3]) [4;1;1;1]; PClient 0; PAccept true; PRing (Some [4;5]) [4;2]]) as [[t s]|] eqn:E; [|vm_compute in E; discriminate].
  exists t, s. split; [apply (play_run true _ _ _ _ _ (pr_start true) E)|]. vm_compute in E. injection E as <- <-. split; [|split; reflexivity].
  intros e o out H m acc ->. cbn in H. repeat (destruct H as [H|H]; [injection H; intros; subst; try discriminate; repeat constructor; discriminate|]). destruct H.
Qed.

(** ** C65 *)
(** Publisher and subscriber: of what the publisher sent to the client, [x] has
    arrived, in pieces of any size.  What the subscriber has written to its
    ring is what the publisher read from its own, in order, without gaps; it
    stops only if its ring refuses.  When all has arrived, all is written. *)
Theorem C65_pipe : forall t s c x y wrote ks, pub_run true t s -> Forall ToolSpec.fits (read_for c t) -> sent_to c t = x ++ y ->
  exists ws b up later, subscribe wrote [] x ks = Ok (ws, b, up) /\ read_for c t = List.concat ws ++ later /\ Forall (fun w => wrote w = true) ws
    /\ (up = false -> exists w l, later = w ++ l /\ wrote w = false)
    /\ (up = true -> p_fd s = Some c -> y = [] -> zlen x <= zlen ks -> later = []).
Proof. exact t_pipe. Qed.
Print Assumptions C65_pipe.
Example C65_case : exists t s, pub_run true t s /\ Forall ToolSpec.fits (read_for 1 t) /\ p_fd s = Some 1%nat
  /\ read_for 1 t = [[6];[7;8]] /\ subscribe (fun _ => true) [] (sent_to 1 t) [3;3;100] = Ok ([[[6]]; [[7;8]]], [], true)
  /\ subscribe (fun w => zlen (List.concat w) <=? 2) [] (sent_to 1 t) [100] = Ok ([], [], false).
Proof.
  destruct (play true (mkpst None false 0) [] (firstn 10 t62)) as [[t s]|] eqn:E; [|vm_compute in E; discriminate].
  exists t, s. split; [apply (play_run true _ _ _ _ _ (pr_start true) E)|]. vm_compute in E. injection E as <- <-.
  split; [repeat constructor; vm_compute; congruence|]. do 3 (split; [vm_compute; reflexivity|]). vm_compute; reflexivity.
Qed.

(** ** C66 *)
(** If shr_writev accepts whatever it is given, the subscriber writes all: see
    C37_subscribe.  In general it writes what is accepted. *)
Theorem C66_partial : forall wrote ms x y ks, Forall ToolSpec.fits ms -> x ++ y = frames ms ->
  exists ws b up later, subscribe wrote [] x ks = Ok (ws, b, up) /\ ms = List.concat ws ++ later /\ Forall (fun w => w <> [] /\ wrote w = true) ws
    /\ (up = false -> exists w l, w <> [] /\ later = w ++ l /\ wrote w = false)
    /\ (up = true -> zlen x <= zlen ks -> x = frames (List.concat ws) ++ b /\ match later with [] => b = [] | m :: _ => zlen b < zlen (frame m) end).
Proof. exact t_sub_any. Qed.
Print Assumptions C66_partial.
(** But messages each of which is small enough for the ring are lost if they
    arrive together: the subscriber passes them to shr_writev as one iovec, and
    exits if that does not fit the ring (C04); one by one, all would be
    written.  ([wrote]: any results of shr_writev that agree with C04.) *)
Theorem C66_together : forall wrote n mm ms, (forall iov, refused n mm iov -> wrote iov = false) -> ms <> [] -> Forall ToolSpec.fits ms -> zlen (frames ms) <= BUFLEN ->
  refused n mm ms -> subscribe wrote [] (frames ms) [zlen (frames ms)] = Ok ([], [], false).
Proof. intros wrote n mm ms H NE F L R. rewrite (t_burst wrote ms NE F L), (H ms R). reflexivity. Qed.
Print Assumptions C66_together.
Theorem C66_one_by_one : forall wrote ms, Forall ToolSpec.fits ms -> Forall (fun m => wrote [m] = true) ms ->
  subscribe wrote [] (frames ms) (map (fun m => zlen (frame m)) ms) = Ok (map (fun m => [m]) ms, [], true).
Proof. exact t_one_by_one. Qed.
Print Assumptions C66_one_by_one.
Theorem C66_refuted : exists ms n mm, ms <> [] /\ Forall ToolSpec.fits ms /\ zlen (frames ms) <= BUFLEN /\ Forall (fun m => ~ refused n mm [m]) ms /\ refused n mm ms.
Proof.
  exists [[1;2;3;4;5;6]; [7;8;9;10;11]], 10, 3. split; [discriminate|]. split; [repeat constructor; vm_compute; congruence|]. split; [vm_compute; discriminate|].
  split; [repeat constructor; intros [H|[H|[H|H]]]; vm_compute in H; discriminate|]. right; right; left; reflexivity.
Qed.
Print Assumptions C66_refuted.
Example C66_case : let ms := [[1;2;3]; [4]; [5;6]] in let wrote w := zlen (List.concat w) <=? 3 in
  Forall ToolSpec.fits ms /\ subscribe wrote [] (frames ms) [7; 1; 4; 6] = Ok ([[[1;2;3]]; [[4]]; [[5;6]]], [], true)
  /\ subscribe wrote [] (frames ms) [7; 100] = Ok ([[[1;2;3]]; [[4];[5;6]]], [], true)
  /\ subscribe wrote [] (frames ms) [100] = Ok ([], [], false).
Proof. cbv zeta. split; [repeat constructor; vm_compute; congruence|]. do 2 (split; [vm_compute; reflexivity|]). vm_compute. reflexivity. Qed.

(** ** C67 *)
(** The ring that the create command makes: its size is the one given with -s
    (C45 says how that is read), its attributes are the letters given with -m,
    its slots the number given with -N (if any), its application data the file
    given with -A (if any). *)
Theorem C67_create : forall content os n fl mx app, create_args content os = Some (n, fl, mx, app) ->
  0 < n /\ (exists a, In (OptS a) os /\ size_arg a = Some n)
  /\ (if has_A os then exists f, In (OptA f) os /\ content f = Some app else app = [])
  /\ (if has_N os then exists a, In (OptN a) os /\ mx = u64 (atoi a) else mx = 0)
  /\ has fl SHR_KEEPEXIST = letter os 107
  /\ exists l, init_layout n fl (zlen app) mx = Ok (Some l)
  /\ let r := ring_of_layout l fl app in
     r_drop r = letter os 100 || letter os 102 /\ r_farm r = letter os 102
     /\ has (r_gflags r) SHR_SYNC = letter os 115 /\ has (r_gflags r) SHR_MLOCK = letter os 108
     /\ r_app r = app
     /\ let slots := if mx =? 0 then 100 + n / 100 else mx in
        (SIZEOF_CTRL + n + SIZEOF_PTR + SIZEOF_MSG * slots + zlen app <= W64 -> r_n r = n /\ r_mm r = slots).
Proof. exact t_create. Qed.
Print Assumptions C67_create.
Example C67_case : let content f := if list_eq_dec Z.eq_dec f (str "notes"%string) then Some [1;2;3] else None in
  let os := [OptS (str "4k"%string); OptM (str "ds"%string); OptN (str "17"%string); OptA (str "notes"%string)] in
  create_args content os = Some (4096, Z.lor (Z.lor (Z.lor SHR_DROP SHR_SYNC) SHR_MAXMSGS_2) SHR_APPDATA_1, 17, [1;2;3])
  /\ letter os 100 = true /\ letter os 102 = false /\ has_N os = true /\ has_A os = true
  /\ create_args content [OptS (str "4k"%string); OptM (str "dx"%string)] = None /\ create_args content [OptM (str "d"%string)] = None
  /\ create_args content [OptS (str "4k"%string); OptA (str "none"%string)] = None.
Proof. cbv zeta. do 7 (split; [vm_compute; reflexivity|]). vm_compute. reflexivity. Qed.

(** ** C68 *)
(** The attributes that the status command prints, of a ring made with the
    flags [fl]. *)
Theorem C68_partial : forall l fl app, let shown := attributes (r_gflags (ring_of_layout l fl app)) in
  (In ADrop shown <-> has fl SHR_DROP || has fl SHR_FARM = true) /\ (In AFarm shown <-> has fl SHR_FARM = true)
  /\ (In AMlock shown <-> has fl SHR_MLOCK = true) /\ (In ASync shown <-> has fl SHR_SYNC = true)
  /\ (In ANone shown <-> shown = [ANone]) /\ ~ In AAppdata shown.
Proof. exact t_attributes. Qed.
Print Assumptions C68_partial.
(** It never prints "appdata", not for a ring that has application data. *)
Theorem C68_refuted : forall l app, app <> [] -> let r := ring_of_layout l SHR_APPDATA_1 app in
  r_app r = app /\ attributes (r_gflags r) = [ANone].
Proof. intros. split; reflexivity. Qed.
Print Assumptions C68_refuted.
Example C68_case : r_app plain_ring = [1;2;3;4] /\ attributes (r_gflags plain_ring) = [ANone]
  /\ attributes (Z.lor (Z.lor SHR_DROP SHR_FARM) SHR_SYNC) = [ADrop; AFarm; ASync].
Proof. repeat split; vm_compute; reflexivity. Qed.

(** ** C69 *)
(** The read command prints the messages it reads, in order, until it has
    printed as many as -N says; without -b, until there is none; with -b it
    waits for more. *)
Theorem C69_read : forall max, 0 <= max ->
  (forall rs, Forall (fun r => r <> None) rs ->
     read_cmd true max 0 rs = (first_max max (messages rs), (0 <? max) && (max <=? zlen (messages rs))))
  /\ (forall ms rest, Forall (fun m => 0 < zlen m) ms -> read_cmd false max 0 (map Some ms ++ Some [] :: rest) = (first_max max ms, true)).
Proof. exact t_read. Qed.
Print Assumptions C69_read.
Example C69_case : let rs := [Some [1;2]; Some []; Some [3]; Some [4;5]] in
  read_cmd true 0 0 rs = ([[1;2];[3];[4;5]], false) /\ read_cmd true 2 0 rs = ([[1;2];[3]], true) /\ read_cmd false 0 0 rs = ([[1;2]], true)
  /\ read_cmd false 1 0 rs = ([[1;2]], true) /\ read_cmd true 4 0 rs = ([[1;2];[3];[4;5]], false) /\ Forall (fun r => r <> None) rs.
Proof. cbv zeta. do 5 (split; [reflexivity|]). repeat constructor; discriminate. Qed.
