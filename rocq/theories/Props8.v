(** * The theorems, eighth part: shr-tool (C37, C38, C42-C45, C48, C49). *)
From Verif Require Import PollFacts Props2 ToolFacts2.
From Coq Require Import Strings.String.
Local Open Scope Z_scope.
Local Open Scope list_scope.

(** ** C37 *)
(** What the publisher sends for a message, however many pieces write() takes
    it in, is its frame; and if the connection breaks, a part of the frame. *)
Theorem C37_publish : forall m k acc, 0 < zlen m -> 4 <= k -> Forall (fun k => 1 <= k) acc -> zlen m <= zlen acc ->
  pub_msg true m (k :: acc) = Ok (le32 (zlen m) ++ m, true).
Proof. exact t_pub. Qed.
Print Assumptions C37_publish.
Theorem C37_publish_broken : forall m acc out up, pub_msg true m acc = Ok (out, up) -> 0 < zlen m ->
  (exists rest, frame m = out ++ rest) /\ (up = true -> out = frame m).
Proof. exact t_pub_prefix. Qed.
Print Assumptions C37_publish_broken.
(** However read() cuts the stream of frames into pieces ([ks]: what each
    read() gives at most), the messages come out, all of them, in order. *)
Theorem C37_subscribe : forall ms ks, Forall fits ms -> zlen (frames ms) <= zlen ks ->
  exists ws, subscribe (fun _ => true) [] (frames ms) ks = Ok (ws, [], true) /\ List.concat ws = ms.
Proof. exact t_sub_all. Qed.
Print Assumptions C37_subscribe.
(** And if only the beginning [x] of the stream has come: the messages whose
    frames have come completely, no others; the rest waits in the buffer. *)
Theorem C37_meanwhile : forall ms x y ks, Forall fits ms -> x ++ y = frames ms ->
  exists ws b later, subscribe (fun _ => true) [] x ks = Ok (ws, b, true) /\ ms = List.concat ws ++ later /\ Forall (fun w => w <> []) ws
    /\ (zlen x <= zlen ks -> x = frames (List.concat ws) ++ b /\ match later with [] => b = [] | m :: _ => zlen b < zlen (frame m) end).
Proof. exact t_sub. Qed.
Print Assumptions C37_meanwhile.
Example C37_case : let ms := [[1;2;3]; [4]; [5;6]] in
  Forall fits ms /\ frames ms = [3;0;0;0;1;2;3; 1;0;0;0;4; 2;0;0;0;5;6]
  /\ subscribe (fun _ => true) [] (frames ms) [2;3;4;5;1;100] = Ok ([[[1;2;3]]; [[4]]; [[5;6]]], [], true)
  /\ subscribe (fun _ => true) [] (frames ms) [2;1000] = Ok ([ms], [], true)
  /\ pub_msg true [1;2;3] [4;1;2] = Ok ([3;0;0;0;1;2;3], true)
  /\ pub_msg true [1;2;3] [4;1;-1] = Ok ([3;0;0;0;1], false).
Proof.
  cbv zeta. split; [repeat constructor; unfold BUFLEN; cbn; lia|]. split; [reflexivity|].
  split; [vm_compute; reflexivity|]. split; [vm_compute; reflexivity|]. split; vm_compute; reflexivity.
Qed.

(** ** C38 *)
(** Frames that fit are decoded (C37_subscribe); a length above MAX_FRAME ends
    the subscriber with an error message. *)
Theorem C38_partial : forall wrote n rest ks, MAX_FRAME < n < 4294967296 -> 4 < zlen ks ->
  exists b, subscribe wrote [] (le32 n ++ rest) ks = Ok ([], b, false).
Proof. exact t_sub_overlong. Qed.
Print Assumptions C38_partial.
(** In between, every frame aborts the subscriber ... *)
Theorem C38_aborts : forall wrote m ks, BUFLEN - 4 < zlen m <= MAX_FRAME -> BUFLEN < zlen ks -> subscribe wrote [] (frame m) ks = Abort.
Proof. exact t_sub_abort. Qed.
Print Assumptions C38_aborts.
(** ... among them some that the publisher can send: the claim is false. *)
Theorem C38_refuted : exists m, 0 < zlen m <= BUFLEN
  /\ (forall k acc, 4 <= k -> zlen m <= zlen acc -> Forall (fun k => 1 <= k) acc -> pub_msg true m (k :: acc) = Ok (frame m, true))
  /\ forall wrote ks, BUFLEN < zlen ks -> subscribe wrote [] (frame m) ks = Abort.
Proof. exact t_subs_abort. Qed.
Print Assumptions C38_refuted.
(** And an empty frame: it is passed to shr_writev, which aborts on it unless it
    comes first (C34). *)
Theorem C38_empty_refuted :
  subscribe (fun _ => true) [] (frame [1] ++ frame []) [100] = Ok ([[[1]; []]], [], true)
  /\ exists w evs w', reach contract plain_ring w evs /\ idle w evs 0
       /\ step w (ACall 0 (CWrite [[1]; []])) = Ok (w', [ECall 0 (CWrite [[1]; []])])
       /\ step w' (ARun 0 (calm (w_ks w'))) = Abort.
Proof. exact (conj eq_refl C34_refuted). Qed.
Print Assumptions C38_empty_refuted.
Example C38_case : subscribe (fun _ => true) [] (le32 1048577 ++ [1;2]) [3;3;3;3;3] = Ok ([], [1;0;16], false).
Proof. vm_compute. reflexivity. Qed.

(** ** C42 *)
(** For every byte string and every spelling of it in hexadecimal (upper and
    lower case): after decoding, the array begins with the byte string, and its
    length is returned. *)
Theorem C42_unhex : forall bs s, spells bs s -> bs <> [] -> exists junk, unhex (s ++ [0]) = Ok (Some (bs ++ junk, zlen bs)).
Proof. exact t_unhex. Qed.
Print Assumptions C42_unhex.
(** Nothing, and an odd number of digits, is refused. *)
Theorem C42_refused : forall s, ~ In 0 s -> s = [] \/ Z.odd (zlen s) = true -> unhex (s ++ [0]) = Ok None.
Proof. exact t_unhex_bad. Qed.
Print Assumptions C42_refused.
Example C42_case : spells [255; 0; 171] (str "fF00aB") /\ exists junk, unhex (str "fF00aB" ++ [0]) = Ok (Some ([255; 0; 171] ++ junk, 3)).
Proof.
  split; [|eexists; vm_compute; reflexivity].
  apply (sp_cons 15 15); [cbn; tauto|cbn; tauto|]. apply (sp_cons 0 0); [cbn; tauto|cbn; tauto|]. apply (sp_cons 10 11); [cbn; tauto|cbn; tauto|constructor].
Qed.

(** ** C48 *)
(** What is not hexadecimal is not always refused, and can abort the tool. *)
Lemma not_hex_4g : ~ exists bs, spells bs (str "4g") .
Proof. intros [bs H]. inversion H as [|x y a b bs' s' Ha Hb]; subst. vm_compute in Hb. repeat (destruct Hb as [E|Hb]; [discriminate|]). destruct Hb. Qed.
Theorem C48_refuted : ~ (forall s, ~ In 0 s -> (~ exists bs, spells bs s) -> unhex (s ++ [0]) = Ok None).
Proof.
  intros H. specialize (H (str "4g")). cut (Ok (Some ([4; 103; 0], 1)) = Ok None); [discriminate|]. rewrite <- H; [vm_compute; reflexivity| |exact not_hex_4g].
  intros X. vm_compute in X. destruct X as [X|[X|[]]]; discriminate.
Qed.
Print Assumptions C48_refuted.
Theorem C48_abort_refuted : unhex (str "-f" ++ [0]) = Abort.
Proof. vm_compute. reflexivity. Qed.
Print Assumptions C48_abort_refuted.

(** ** C43 *)
(** If the first write() takes the whole message, it is what is output. *)
Theorem C43_partial : forall m k acc, 0 < zlen m <= k -> raw_out m (zlen m) (k :: acc) = Ok m.
Proof. exact t_raw. Qed.
Print Assumptions C43_partial.
(** Otherwise its beginning is output again in place of the rest: for every
    message, if write() takes k bytes, at least half of it. *)
Theorem C43_short : forall m k, 0 < k < zlen m -> zlen m <= 2 * k ->
  raw_out m (zlen m) [k; k] = Ok (firstn (Z.to_nat k) m ++ firstn (Z.to_nat (zlen m - k)) m).
Proof. exact t_raw_short. Qed.
Print Assumptions C43_short.
Theorem C43_refuted : ~ (forall m acc out, Forall (fun k => 1 <= k) acc -> raw_out m (zlen m) acc = Ok out -> out = m).
Proof. intros H. specialize (H [1;2;3;4] [2;2] [1;2;1;2]). discriminate H; [repeat constructor; lia|vm_compute; reflexivity]. Qed.
Print Assumptions C43_refuted.
(** After a failed write() one byte too many is output: whatever follows the
    message in the buffer. *)
Theorem C43_error_refuted : raw_out [1;2;3;4;99] 4 [-1; 5] = Ok [1;2;3;4;99].
Proof. vm_compute. reflexivity. Qed.
Print Assumptions C43_error_refuted.
Example C43_case : raw_out [1;2;3;4] 4 [100] = Ok [1;2;3;4].
Proof. vm_compute. reflexivity. Qed.

(** ** C44 *)
(** A number and a unit, as long as the result is below 2^64. *)
Theorem C44_partial : forall ds u e, ds <> [] -> all_digits ds = true -> In (u, e) unit_power -> decimal ds * 1024 ^ e < W64 ->
  size_arg (ds ++ [u]) = Some (decimal ds * 1024 ^ e).
Proof. exact t_size_exact. Qed.
Print Assumptions C44_partial.
Theorem C44_plain : forall ds, ds <> [] -> all_digits ds = true -> decimal ds <= SSIZE_MAX -> size_arg ds = Some (decimal ds).
Proof. exact t_size_plain. Qed.
Print Assumptions C44_plain.
Theorem C44_bad_unit : forall ds u t, ds <> [] -> all_digits ds = true -> digit u = false -> (forall e, ~ In (u, e) unit_power) -> size_arg (ds ++ u :: t) = None.
Proof. exact t_size_bad. Qed.
Print Assumptions C44_bad_unit.
(** Beyond, the size is whatever remains modulo 2^64: 16777216 terabytes are 0. *)
Theorem C44_wraps : forall ds u e, ds <> [] -> all_digits ds = true -> decimal ds <= SSIZE_MAX -> In (u, e) unit_power ->
  size_arg (ds ++ [u]) = Some (u64 (decimal ds * 1024 ^ e)).
Proof. exact t_size. Qed.
Print Assumptions C44_wraps.
Theorem C44_refuted : ~ (forall ds u e, ds <> [] -> all_digits ds = true -> In (u, e) unit_power ->
  size_arg (ds ++ [u]) = Some (decimal ds * 1024 ^ e) \/ size_arg (ds ++ [u]) = None).
Proof.
  intros H. specialize (H (str "16777216") 116 4). destruct H as [H|H]; [discriminate|reflexivity|cbn; tauto| |]; vm_compute in H; discriminate.
Qed.
Print Assumptions C44_refuted.
Example C44_case : size_arg (str "10m") = Some 10485760 /\ size_arg (str "3T") = Some 3298534883328 /\ size_arg (str "512") = Some 512 /\ size_arg (str "5x") = None.
Proof. repeat split; vm_compute; reflexivity. Qed.

(** ** C45 *)
(** At every moment of every run, whatever the calls return (0 excepted, which
    shr_write does not return to a blocking writer, C05_zero_write): what has been put
    into the two output rings is what has been read, in order, up to the message
    being copied; when waiting for input it is the same; and after an error at
    most the last message is missing. *)
Theorem C45_tee : forall t s, tee_run t s -> (forall c, ~ In (c, TPut 0) t) ->
  match s with
  | TCall TRead => tee_put1 t = tee_read t /\ tee_put2 t = tee_read t
  | TCall (TWrite1 m) => tee_read t = tee_put1 t ++ [m] /\ tee_put2 t = tee_put1 t
  | TCall (TWrite2 m) => tee_put1 t = tee_read t /\ tee_read t = tee_put2 t ++ [m]
  | TExit => (tee_put1 t = tee_read t \/ exists m, tee_read t = tee_put1 t ++ [m])
             /\ (tee_put2 t = tee_read t \/ exists m, tee_read t = tee_put2 t ++ [m])
             /\ (tee_put2 t = tee_put1 t \/ exists m, tee_put1 t = tee_put2 t ++ [m])
  end.
Proof. exact t_tee. Qed.
Print Assumptions C45_tee.
Example C45_case : let t := [(TRead, TGot 2 [1;2]); (TWrite1 [1;2], TPut 2); (TWrite2 [1;2], TPut 2); (TRead, TGot 0 []); (TRead, TGot 1 [3]); (TWrite1 [3], TPut 1); (TWrite2 [3], TPut (-1))] in
  tee_run t TExit /\ (forall c, ~ In (c, TPut 0) t) /\ tee_read t = [[1;2]; [3]] /\ tee_put1 t = [[1;2]; [3]] /\ tee_put2 t = [[1;2]].
Proof.
  cbv zeta. split; [|split; [intros c H; cbn in H; intuition discriminate|repeat split]].
  pose proof (tr_next _ _ (TGot 2 [1;2]) _ tr_start eq_refl) as R. pose proof (tr_next _ _ (TPut 2) _ R eq_refl) as R1.
  pose proof (tr_next _ _ (TPut 2) _ R1 eq_refl) as R2. pose proof (tr_next _ _ (TGot 0 []) _ R2 eq_refl) as R3.
  pose proof (tr_next _ _ (TGot 1 [3]) _ R3 eq_refl) as R4. pose proof (tr_next _ _ (TPut 1) _ R4 eq_refl) as R5.
  exact (tr_next _ _ (TPut (-1)) _ R5 eq_refl).
Qed.

(** ** C49 *)
(** Text of lines of up to 998 bytes without zero bytes, all accepted by
    shr_write: the messages are the lines. *)
Theorem C49_partial : forall put ls, Forall (fun l => ~ In 10 l /\ ~ In 0 l /\ zlen l <= 998) ls -> Forall (fun l => put l = true) ls ->
  cmd_write put (text ls) = Ok (ls, true).
Proof. exact t_write. Qed.
Print Assumptions C49_partial.
(** An empty line, which shr_write does not accept (C34_first_partial), ends the program, and
    what follows is not written. *)
Theorem C49_blank_refuted : forall put ls more, Forall (fun l => ~ In 10 l /\ ~ In 0 l /\ zlen l <= 998) ls -> Forall (fun l => put l = true) ls -> put [] = false ->
  cmd_write put (text (ls ++ [] :: more)) = Ok (ls ++ [[]], false).
Proof. exact t_write_blank. Qed.
Print Assumptions C49_blank_refuted.
(** A longer line becomes two messages. *)
Theorem C49_long_refuted : forall put a b, zlen a = 999 -> ~ In 10 (a ++ b) -> ~ In 0 (a ++ b) -> zlen b <= 998 -> put a = true -> put b = true ->
  cmd_write put (text [a ++ b]) = Ok ([a; b], true).
Proof. exact t_write_long. Qed.
Print Assumptions C49_long_refuted.
Definition puts (m : bytes) : bool := 0 <? zlen m.
Example C49_case : cmd_write puts (str "ab" ++ [10] ++ str "c" ++ [10]) = Ok ([str "ab"; str "c"], true)
  /\ cmd_write puts (str "ab" ++ [10;10] ++ str "c" ++ [10]) = Ok ([str "ab"; []], false).
Proof. split; vm_compute; reflexivity. Qed.
