(** Encoder, fragmentizer and decoder together: C23 and C24.

    The spec is in StreamSpec.v and FragSpec.v; [dump_fragments (encode_command c)] are the bytes
    that are written for [c], [encode_command c] are the encoder's fragments. *)

From Verif Require Import Bytes BytesFacts Dec Features Nom Types Utf8 Conv ParseResp EncodeCtx Encode EncodeFacts
  EncodeApi Decode Valid ValidFacts OtherCode EncFragFacts LineFacts Fragmentizer FragSpec FragFacts RtResp
  RoundTripSpec RoundTripProps StreamSpec StreamFacts.
Open Scope nat_scope.

Section Stream.
Context {F : features}.

(** ** C23: the fragmentizer finds the encoder's fragments *)
(** Whatever the chunks the bytes arrive in, whenever [progress] is called, whatever follows:
    the first fragments are the encoder's ([as_seen]), and what follows is parsed as if
    nothing had preceded it. With [ext_utf8] (off by default) a string may contain LF
    ([clean_lines] says that none does). *)
Theorem C23_command : forall c max ops rest obs s,
  v_command LDecoded c = true -> ext_utf8 = false \/ clean_lines (encode_command c) ->
  feeds ops -> fed ops = dump_fragments (encode_command c) ++ rest ->
  run_drain (frag_new max) ops obs s ->
  exists obs2 s2, run_drain (frag_new max) [Enqueue rest] obs2 s2 /\
    obs = expected max [] (as_seen (encode_command c)) ++ obs2.
Proof.
  intros c max ops rest obs s V U Hf E R. destruct (sound_command c V U) as (l & El & Sl).
  unfold encode_command in *. rewrite El in *. exact (agree _ _ _ _ _ _ Sl Hf E R).
Qed.
(** The text of a status response must not itself look like the announcement of a literal
    ([quiet_response]). *)
Theorem C23_response : forall r max ops rest obs s,
  v_response LDecoded other_name r = true -> quiet_response r ->
  ext_utf8 = false \/ clean_lines (encode_response r) ->
  feeds ops -> fed ops = dump_fragments (encode_response r) ++ rest ->
  run_drain (frag_new max) ops obs s ->
  exists obs2 s2, run_drain (frag_new max) [Enqueue rest] obs2 s2 /\
    obs = expected max [] (as_seen (encode_response r)) ++ obs2.
Proof.
  intros r max ops rest obs s V Q U Hf E R.
  destruct (sound_response other_name (fun b t H => proj1 (andb_prop _ _ H)) r V Q U) as (l & El & Sl).
  unfold encode_response in *. rewrite El in *. exact (agree _ _ _ _ _ _ Sl Hf E R).
Qed.
Theorem C23_greeting : forall g max ops rest obs s,
  v_greeting LDecoded other_name g = true -> quiet_greeting g ->
  ext_utf8 = false \/ clean_lines (encode_greeting g) ->
  feeds ops -> fed ops = dump_fragments (encode_greeting g) ++ rest ->
  run_drain (frag_new max) ops obs s ->
  exists obs2 s2, run_drain (frag_new max) [Enqueue rest] obs2 s2 /\
    obs = expected max [] (as_seen (encode_greeting g)) ++ obs2.
Proof.
  intros g max ops rest obs s V Q U Hf E R.
  destruct (sound_greeting other_name (fun b t H => proj1 (andb_prop _ _ H)) g V Q U) as (l & El & Sl).
  unfold encode_greeting in *. rewrite El in *. exact (agree _ _ _ _ _ _ Sl Hf E R).
Qed.
Lemma line_clean s : forallb plain s = true -> clean_lines (fragments (W s ++ e_crlf)).
Proof.
  intros H. rewrite fragments_frags. apply no_lf_clean; [reflexivity |]. unfold W. rewrite forallb_forall in *.
  intros o Ho. apply in_map_iff in Ho as (b & <- & Hb). specialize (H b Hb). now apply andb_true_iff in H as [H _].
Qed.
Theorem C23_authenticate_data : forall a max ops rest obs s,
  feeds ops -> fed ops = dump_fragments (encode_authenticate_data a) ++ rest ->
  run_drain (frag_new max) ops obs s ->
  exists obs2 s2, run_drain (frag_new max) [Enqueue rest] obs2 s2 /\
    obs = expected max [] (as_seen (encode_authenticate_data a)) ++ obs2.
Proof.
  intros a max ops rest obs s Hf E R. unfold encode_authenticate_data in *.
  assert (K : exists x, e_authenticate_data a = W x ++ e_crlf /\ forallb plain x = true).
  { destruct a as [d |]; [exists (Base64.b64_encode d) | exists (bs "*")]; split; try reflexivity. apply plain_b64. }
  destruct K as (x & K & P). rewrite K in *. refine (agree _ _ _ _ _ _ _ Hf E R).
  apply sound_fine; [now apply fine_W | right; now apply line_clean].
Qed.
Theorem C23_idle_done : forall max ops rest obs s,
  feeds ops -> fed ops = dump_fragments (encode_idle_done tt) ++ rest ->
  run_drain (frag_new max) ops obs s ->
  exists obs2 s2, run_drain (frag_new max) [Enqueue rest] obs2 s2 /\
    obs = expected max [] (as_seen (encode_idle_done tt)) ++ obs2.
Proof.
  intros max ops rest obs s Hf E R. refine (agree _ (W (bs "DONE")) _ _ _ _ _ Hf E R).
  apply sound_fine; [now apply fine_W | right; now apply line_clean].
Qed.

(** ** C24: from the sender's messages to the receiver's messages *)
(** A receiver that decodes each message the fragmentizer completes gets exactly the messages
    that were sent, in order, however the bytes arrive and whatever comes after them; a message
    above the limit is reported as too long and does not disturb the others. *)
Theorem C24_commands : forall cs max ops rest got,
  Forall (fun c => v_command LDecoded c = true /\ (ext_utf8 = false \/ clean_lines (encode_command c))) cs ->
  feeds ops -> fed ops = concat (map (fun c => dump_fragments (encode_command c)) cs) ++ rest ->
  receives decode_command (frag_new max) ops got ->
  exists more, receives decode_command (frag_new max) [Enqueue rest] more /\
    got = map (fun c => received max (dump_fragments (encode_command c)) (w_command c)) cs ++ more.
Proof.
  intros cs max ops rest got V Hf E R. rewrite Forall_forall in V.
  apply (stream decode_command max command e_command w_command rest cs ops got); try assumption.
  - intros c Hc. destruct (V c Hc) as [V1 V2]. now apply sound_command.
  - intros c Hc. destruct (V c Hc) as [V1 V2]. pose proof (C09_command c V1 []) as D. now rewrite app_nil_r in D.
Qed.
Theorem C24_responses : forall rs max ops rest got,
  Forall (fun r => v_response LDecoded other_name r = true /\ has_modseq r = false /\ quiet_response r /\
    (ext_utf8 = false \/ clean_lines (encode_response r))) rs ->
  feeds ops -> fed ops = concat (map (fun r => dump_fragments (encode_response r)) rs) ++ rest ->
  receives decode_response (frag_new max) ops got ->
  exists more, receives decode_response (frag_new max) [Enqueue rest] more /\
    got = map (fun r => received max (dump_fragments (encode_response r)) (w_response r)) rs ++ more.
Proof.
  intros rs max ops rest got V Hf E R. rewrite Forall_forall in V.
  apply (stream decode_response max response e_response w_response rest rs ops got); try assumption.
  - intros r Hr. destruct (V r Hr) as (V1 & V2 & V3 & V4).
    apply (sound_response other_name (fun b t H => proj1 (andb_prop _ _ H))); assumption.
  - intros r Hr. destruct (V r Hr) as (V1 & V2 & _). pose proof (C10_response r V1 V2 []) as D. now rewrite app_nil_r in D.
Qed.
(** Nothing is invented: with nothing else in the stream, nothing else is received. *)
Theorem C24_nothing_else : forall E A (dec : bytes -> outcome E A) max more,
  receives dec (frag_new max) [Enqueue []] more -> more = [].
Proof.
  intros E A dec max more (r2 & R & ->). cbn in *. inversion R; subst; [reflexivity |].
  exfalso. cbn in *. discriminate.
Qed.
(** A receiver exists for every history. *)
Theorem C24_total : forall E A (dec : bytes -> outcome E A) max ops,
  exists got, receives dec (frag_new max) ops got.
Proof.
  intros. destruct (run_drain_total (frag_new max) ops) as (obs & s & R).
  eexists. exact (obs_receives dec _ _ _ _ R).
Qed.
End Stream.

Print Assumptions C23_command.
Print Assumptions C23_response.
Print Assumptions C23_greeting.
Print Assumptions C23_authenticate_data.
Print Assumptions C23_idle_done.
Print Assumptions C24_commands.
Print Assumptions C24_responses.
Print Assumptions C24_nothing_else.
Print Assumptions C24_total.

(** ** The theorems are not vacuous *)
Module StreamExamples.
#[local] Existing Instance default_features.
Definition sent : list command := [cmd_append; cmd_search].
Example C24_hyp : Forall (fun c => v_command LDecoded c = true /\ (ext_utf8 = false \/ clean_lines (encode_command c))) sent.
Proof. repeat constructor. Qed.
(* in three chunks, one of which splits a literal and one a CRLF *)
Definition stream_bytes : bytes := concat (map (fun c => dump_fragments (encode_command c)) sent).
Definition arrivals : list call :=
  [Enqueue (firstn 17 stream_bytes); Progress; Progress; Enqueue (firstn 24 (skipn 17 stream_bytes)); Progress; Progress;
   Enqueue (skipn 41 stream_bytes); Progress; Progress; Progress; Progress].
Example C24_run : feeds arrivals /\ fed arrivals = stream_bytes /\
  snd (receive decode_command (frag_new (Some 100%N)) arrivals) = [DMOk cmd_append; DMOk (w_command cmd_search)] /\
  snd (receive decode_command (frag_new (Some 52%N)) arrivals) =
    [DMOk cmd_append; DMTooLong (firstn 52 (dump_fragments (encode_command cmd_search)))].
Proof. split; [repeat constructor | split; [vm_compute; reflexivity | vm_compute; split; reflexivity]]. Qed.
Example C23_hyp : quiet_response rsp_fetch /\ quiet_greeting gr_caps.
Proof.
  split; [exact I |]. intros a H. apply announces_crlf in H as (u & ds & E & _).
  assert (K : In "{"%byte (gr_text gr_caps)) by (rewrite E; apply in_or_app; right; now left).
  cbn in K. intuition discriminate.
Qed.

(** *** Without [quiet]: a text that ends in "{5}" is taken for the announcement of a literal,
    and the next message is swallowed. *)
Definition loud : response := RStatus (StUntagged (mkStatusBody SKOk None (bs "see {5}"))).
Definition bye : response := RStatus (StBye None (bs "bye")).
Example C23_text_refuted :
  v_response LDecoded other_name loud = true /\ v_response LDecoded other_name bye = true /\
  snd (receive decode_response (frag_new None)
    [Enqueue (dump_fragments (encode_response loud) ++ dump_fragments (encode_response bye)); Progress; Progress; Progress; Progress])
  = [DMRemainder loud (bs "* BYE bye" ++ [bCR; bLF])].
Proof. split; [| split]; vm_compute; reflexivity. Qed.
End StreamExamples.
Module StreamAllExamples.
#[local] Existing Instance all_features.
(** *** Without [clean_lines]: with [ext_utf8] a quoted string may contain LF. *)
Definition a_umlaut : bytes := map (fun n => match Byte.of_N n with Some b => b | None => bSP end) [195; 164]%N.
Definition broken : command := mkCommand (bs "a") (CCreate (MOther (AString (IQuotedUtf8 (a_umlaut ++ [bLF]))))).
Example C23_utf8_refuted :
  v_command LDecoded broken = true /\
  match snd (receive decode_command (frag_new None)
    [Enqueue (dump_fragments (encode_command broken)); Progress; Progress; Progress]) with
  | [DMFailure _; DMFailure _] => True
  | _ => False
  end.
Proof. split; [vm_compute; reflexivity | vm_compute; exact I]. Qed.
End StreamAllExamples.
