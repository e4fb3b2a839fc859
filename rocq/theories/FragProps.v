(** The properties of the fragmentizer: C01-C08. The specification is FragSpec.v. *)

From Verif Require Import Bytes Nom BytesFacts Features Utf8 Types Conv EncodeCtx Encode Decode
  Fragmentizer FragSpec FragFacts.

(** ** C01: chunking does not matter *)

(** Two histories of [enqueue_bytes] and [progress] calls feeding the same stream, each
    followed by [progress] until it returns [None], show the same fragments with the same
    observations, and end in the same state. *)
Theorem C01_chunking : forall max ops1 ops2 obs1 obs2 s1 s2,
  feeds ops1 -> feeds ops2 -> fed ops1 = fed ops2 ->
  run_drain (frag_new max) ops1 obs1 s1 ->
  run_drain (frag_new max) ops2 obs2 s2 ->
  obs1 = obs2 /\ s1 = s2.
Proof.
  intros max ops1 ops2 obs1 obs2 s1 s2 F1 F2 E R1 R2.
  apply run_drain_one_shot in R1; [|exact F1]. apply run_drain_one_shot in R2; [|exact F2].
  rewrite E in R1. exact (drains_fun _ _ _ _ _ R1 R2).
Qed.
Print Assumptions C01_chunking.

(** Draining always terminates. *)
Theorem C01_draining_terminates : forall s ops, exists obs s', run_drain s ops obs s'.
Proof. exact run_drain_total. Qed.
Print Assumptions C01_draining_terminates.

Definition ex_whole : list call := [Enqueue (bs "a NOOP" ++ [bCR; bLF] ++ bs "b LOGIN {3}" ++ [bCR; bLF] ++ bs "x" ++ [bLF] ++ bs "z" ++ bs " p" ++ [bLF] ++ bs "c")].
Definition ex_chunks : list call :=
  [Progress; Enqueue (bs "a NO"); Progress; Enqueue (bs "OP" ++ [bCR]); Enqueue [bLF]; Enqueue (bs "b LOGIN {3"); Progress; Progress;
   Enqueue (bs "}" ++ [bCR; bLF] ++ bs "x" ++ [bLF]); Progress; Progress; Enqueue (bs "z" ++ bs " p" ++ [bLF] ++ bs "c")].
Example C01_not_vacuous :
  feeds ex_whole /\ feeds ex_chunks /\ fed ex_whole = fed ex_chunks /\
  length (snd (run (frag_new (Some 20%N)) ex_chunks)) = 2.
Proof. split; [repeat constructor|]. split; [repeat constructor|]. vm_compute. split; reflexivity. Qed.

(** ** C02: no byte is lost, duplicated or reordered *)

(** [o1] are the observations of the fragments; their bytes followed by the bytes [rest] of
    the unfinished fragment are the stream. What [message_bytes] holds is, after every
    fragment, the bytes of the fragments of this message, and, in the end, those followed by
    [rest]. *)
Theorem C02_conservation : forall ops obs s,
  feeds ops -> run_drain (frag_new None) ops obs s ->
  messages_add_up [] obs /\
  exists rest, fed ops = concat (map ob_bytes obs) ++ rest /\
    message_bytes s = delivered [] obs ++ rest /\ unparsed s = [].
Proof.
  intros ops obs s Hf R.
  destruct (run_drain_spec _ _ _ _ Hf R) as (fs & e & rest & Sp & -> & Hu & _ & Hm & _).
  destruct (expected_adds_up fs []) as (H1 & H2 & H3). split; [exact H1|].
  exists rest. rewrite H2, H3. split; [exact (splits_concat _ _ _ _ _ Sp)|]. auto.
Qed.
Print Assumptions C02_conservation.

Example C02_not_vacuous :
  let '(s, obs) := run (frag_new None) (ex_chunks ++ [Progress; Progress; Progress; Progress]) in
  map ob_bytes obs =
    [bs "a NOOP" ++ [bCR; bLF]; bs "b LOGIN {3}" ++ [bCR; bLF]; bs "x" ++ [bLF] ++ bs "z"; bs " p" ++ [bLF]] /\
  message_bytes s = bs "c".
Proof. vm_compute. split; reflexivity. Qed.

(** ** C03: fragments are exactly lines and announced literals *)

(** With or without a limit, what [progress] shows are the lines and literals of the stream
    in the sense of [splits] (FragSpec.v). *)
Theorem C03_lines_and_literals : forall max ops obs s,
  feeds ops -> run_drain (frag_new max) ops obs s ->
  exists fs e rest,
    splits ExpectLine (fed ops) fs e rest /\
    obs = expected max [] fs /\
    message_bytes s = limited max (current [] fs ++ rest).
Proof.
  intros max ops obs s Hf R.
  destruct (run_drain_spec _ _ _ _ Hf R) as (fs & e & rest & H). exists fs, e, rest. intuition.
Qed.
Print Assumptions C03_lines_and_literals.

(** The specification leaves no choice: a stream has one split. *)
Theorem C03_split_unique : forall e s fs1 e1 r1 fs2 e2 r2,
  splits e s fs1 e1 r1 -> splits e s fs2 e2 r2 -> fs1 = fs2 /\ e1 = e2 /\ r1 = r2.
Proof. intros e s fs1 e1 r1 fs2 e2 r2 H. exact (splits_fun _ _ _ _ _ H fs2 e2 r2). Qed.
Print Assumptions C03_split_unique.

(** ... and a line announces at most one literal. *)
Theorem C03_announcement_unique : forall l a b, announces l a -> announces l b -> a = b.
Proof. exact announces_fun. Qed.
Print Assumptions C03_announcement_unique.

Example C03_not_vacuous :
  announces (bs "b LOGIN {3+}" ++ [bCR; bLF]) (mkAnn NonSync 3) /\
  is_line (bs "b LOGIN {3+}" ++ [bCR; bLF]).
Proof.
  split.
  - exists (bs "b LOGIN "), (bs "3"), [bCR; bLF]. repeat split; try discriminate; try reflexivity. now right.
  - exists (bs "b LOGIN {3+}" ++ [bCR]). split; [reflexivity|]. cbn. intuition discriminate.
Qed.

(** ** C04: message memory is bounded by the limit *)

(** In every history (also with [skip_message] and [poison_message] calls): the limited
    fragmentizer holds the first [n] bytes of what the same history without limit holds, and
    reports the limit exceeded exactly if that is more than [n]. *)
Theorem C04_limit : forall n ops,
  let s := fst (run (frag_new (Some n)) ops) in
  let u := fst (run (frag_new None) ops) in
  (lenN (message_bytes s) <= n)%N /\
  message_bytes s = firstn (N.to_nat n) (message_bytes u) /\
  (exceeded s = true <-> (n < lenN (message_bytes u))%N).
Proof.
  intros n ops s u.
  destruct (twin_run (Some n) ops _ _ (twin_new (Some n))) as [(_ & _ & _ & _ & _ & Hb & He & _) _].
  fold s u in Hb, He. cbn in Hb, He. unfold message_bytes. rewrite Hb, He.
  split; [|split; [reflexivity|]].
  - unfold lenN. rewrite firstn_length. lia.
  - apply N.ltb_lt.
Qed.
Print Assumptions C04_limit.

(** The subtraction [size - message_buffer.len()] in [dequeue_parsed_bytes] never
    underflows. *)
Theorem frag_buffer_bounded : forall n ops,
  let s := fst (run (frag_new (Some n)) ops) in
  max_size s = Some n /\ (lenN (buffer s) <= n)%N.
Proof.
  intros n ops s. destruct (run_bounded ops (frag_new (Some n))) as [Hm Hb].
  - unfold bounded; cbn; lia.
  - fold s in Hm, Hb. unfold bounded in Hb. rewrite Hm in Hb. split; [exact Hm|exact Hb].
Qed.
Print Assumptions frag_buffer_bounded.

Example C04_not_vacuous :
  let ops := [Enqueue (bs "a LOGIN {3}" ++ [bLF] ++ bs "abcdef"); Progress; Progress] in
  exceeded (fst (run (frag_new (Some 13%N)) ops)) = true /\
  message_bytes (fst (run (frag_new (Some 13%N)) ops)) = bs "a LOGIN {3}" ++ [bLF] ++ bs "a" /\
  exceeded (fst (run (frag_new (Some 15%N)) ops)) = false.
Proof. vm_compute. repeat split. Qed.

(** ** C05: limit and poisoning do not move message boundaries *)

Theorem C05_boundaries : forall max ops,
  map shape (snd (run (frag_new max) ops)) =
  map shape (snd (run (frag_new None) (no_poison ops))).
Proof. exact run_shape. Qed.
Print Assumptions C05_boundaries.

Example C05_not_vacuous :
  let ops := [Enqueue (bs "a LOGIN {3}" ++ [bLF] ++ bs "abcdef" ++ [bLF]); Progress; Poison; Progress; Progress] in
  map shape (snd (run (frag_new (Some 5%N)) ops)) =
    [(FLine 0 12 (Some (mkAnn Sync 3)) Lf, false); (FLiteral 12 15, false); (FLine 15 19 None Lf, true)].
Proof. vm_compute. reflexivity. Qed.

(** ** C06: decode_message guards *)

Theorem C06_too_long : forall E A (dec : bytes -> outcome E A) s,
  exceeded s = true -> decode_message dec s = DMTooLong (message_bytes s).
Proof. intros E A dec s H. unfold decode_message. now rewrite H. Qed.
Print Assumptions C06_too_long.
Theorem C06_poisoned : forall E A (dec : bytes -> outcome E A) s,
  exceeded s = false -> poisoned s = true -> decode_message dec s = DMPoisoned (message_bytes s).
Proof. intros E A dec s H1 H2. unfold decode_message. now rewrite H1, H2. Qed.
Print Assumptions C06_poisoned.

(** In every history of a fragmentizer with limit [n], a message is returned exactly if the
    codec decodes, with no remainder, the bytes an unlimited fragmentizer would hold, these
    are at most [n] and the message is not poisoned. *)
Theorem C06_decode : forall E A (dec : bytes -> outcome E A) n ops m,
  let s := fst (run (frag_new (Some n)) ops) in
  let u := fst (run (frag_new None) ops) in
  decode_message dec s = DMOk m <->
  (lenN (message_bytes u) <= n)%N /\ poisoned s = false /\
  dec (message_bytes u) = Decoded [] m.
Proof.
  intros E A dec n ops m s u.
  destruct (twin_run (Some n) ops _ _ (twin_new (Some n))) as [(_ & _ & _ & _ & _ & Hb & He & _) _].
  fold s u in Hb, He. cbn in Hb, He. unfold message_bytes, decode_message. rewrite He.
  destruct (N.ltb_spec n (lenN (buffer u))) as [L|L].
  - split; [discriminate|]. intros [H _]. lia.
  - rewrite Hb, firstn_all2 by (unfold lenN in L; lia).
    destruct (poisoned s); [split; [discriminate|]; intros (_ & H & _); discriminate|].
    destruct (dec (buffer u)) as [[|b r] a|e|]; split; try discriminate.
    + intros [= ->]. auto.
    + intros (_ & _ & [= ->]). reflexivity.
    + intros (_ & _ & ?); discriminate.
    + intros (_ & _ & ?); discriminate.
    + intros (_ & _ & ?); discriminate.
Qed.
Print Assumptions C06_decode.

Example C06_not_vacuous :
  let ops := [Enqueue (bs "a NOOP" ++ [bCR; bLF] ++ bs "b"); Progress] in
  exists m, decode_message (@decode_command default_features) (fst (run (frag_new (Some 8%N)) ops)) = DMOk m /\
    decode_message (@decode_command default_features) (fst (run (frag_new (Some 7%N)) ops)) = DMTooLong (bs "a NOOP" ++ [bCR]).
Proof. eexists. split; vm_compute; reflexivity. Qed.

(** ** C07: skip and poison affect only the current message *)

(** After [skip_message] in any state: exactly a new fragmentizer that was given the unparsed
    bytes. *)
Theorem C07_skip : forall s,
  skip_message s = enqueue (frag_new (max_size s)) (unparsed s).
Proof. reflexivity. Qed.
Print Assumptions C07_skip.

(** [skip_message] never touches the unparsed bytes nor forgets the limit, and the bytes it
    skips are never seen again: whatever follows is the history of a new fragmentizer. *)
Theorem C07_after_skip : forall max ops1 ops2,
  let s := fst (run (frag_new max) ops1) in
  run (frag_new max) (ops1 ++ Skip :: ops2) =
    (fst (run (frag_new max) (Enqueue (unparsed s) :: ops2)),
     snd (run (frag_new max) ops1) ++ snd (run (frag_new max) (Enqueue (unparsed s) :: ops2))).
Proof.
  intros max ops1 ops2 s.
  assert (Hm : max_size s = max).
  { destruct (twin_run max ops1 _ _ (twin_new max)) as [(Hm & _) _]. exact Hm. }
  assert (A : forall ops1 s0, run s0 (ops1 ++ Skip :: ops2) =
     (fst (run (skip_message (fst (run s0 ops1))) ops2),
      snd (run s0 ops1) ++ snd (run (skip_message (fst (run s0 ops1))) ops2))).
  { clear. induction ops1 as [|o ops1 IH]; intros s0.
    - cbn [app run step fst snd]. now destruct (run (skip_message s0) ops2).
    - cbn [app run]. destruct (step s0 o) as [s1 o1]. rewrite IH.
      destruct (run s1 ops1) as [s2 o2]. cbn [fst snd]. now rewrite app_assoc. }
  rewrite A. fold s. rewrite C07_skip, Hm. cbn [run step].
  destruct (run (enqueue (frag_new max) (unparsed s)) ops2) as [s2 o2]. reflexivity.
Qed.
Print Assumptions C07_after_skip.

(** The message after a complete one starts afresh: limit and poison flags, buffer and
    positions are those of a new fragmentizer. *)
Theorem C07_next_message_fresh : forall s,
  is_message_complete s = true ->
  progress s = progress (enqueue (frag_new (max_size s)) (unparsed s)).
Proof. exact progress_new_message. Qed.
Print Assumptions C07_next_message_fresh.

(** A poisoned message stays poisoned until it is left, and is never decoded. *)
Theorem C07_poison_persists : forall E A (dec : bytes -> outcome E A) s ops m,
  stays (poison_message s) ops ->
  let s' := fst (run (poison_message s) ops) in
  poisoned s' = true /\ decode_message dec s' <> DMOk m.
Proof.
  intros E A dec s ops m H s'.
  assert (P : poisoned s' = true) by (apply stays_poisoned; [reflexivity|exact H]).
  split; [exact P|]. unfold decode_message. rewrite P. destruct (exceeded s'); discriminate.
Qed.
Print Assumptions C07_poison_persists.

Example C07_not_vacuous :
  let s := fst (run (frag_new (Some 50%N)) [Enqueue (bs "a LOGIN {3}" ++ [bLF] ++ bs "abcdef" ++ [bLF] ++ bs "a NOOP" ++ [bCR; bLF]); Progress]) in
  stays (poison_message s) [Progress; Enqueue (bs "xy"); Progress] /\
  is_message_complete (fst (run (poison_message s) [Progress; Enqueue (bs "xy"); Progress])) = true.
Proof. vm_compute. repeat split. Qed.

(** ** C08: decode_tag *)

Theorem C08_decode_tag : forall s t,
  decode_tag s = Some t <-> tag_ok t = true /\ exists r, message_bytes s = t ++ bSP :: r.
Proof. intros s t. apply parse_tag_spec. Qed.
Print Assumptions C08_decode_tag.

(** Any truncation of the encoding of a command that is longer than its tag. *)
Theorem C08_command_tag : forall (F : features) s c k,
  tag_ok (cmd_tag c) = true -> length (cmd_tag c) < k ->
  message_bytes s = firstn k (dump (e_command c)) ->
  decode_tag s = Some (cmd_tag c).
Proof.
  intros F s c k Ht Hk E. unfold decode_tag. change (buffer s) with (message_bytes s).
  rewrite E. now apply command_tag_prefix.
Qed.
Print Assumptions C08_command_tag.

Example C08_not_vacuous :
  decode_tag (fst (run (frag_new (Some 5%N)) [Enqueue (bs "a1 LOGIN {3}"); Progress])) = Some (bs "a1").
Proof. reflexivity. Qed.
