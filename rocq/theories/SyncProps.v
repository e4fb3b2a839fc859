(** C57: the fragmentizer and the decoders agree on where a message ends, for every input.

    The spec is in SyncSpec.v: [message m] says that [m] is one complete message as the
    fragmentizer sees it (lines, each followed by the literal it announces, up to the first line that
    announces none); [unfinished i] says that no complete message is a prefix of [i]. *)

From Verif Require Import Bytes BytesFacts Features Nom Types ParseCmd ParseResp Decode DecodeSpec DecodeProps Fragmentizer FragSpec
  FragFacts FragProps StreamSpec StreamFacts SoundCap SyncSpec SyncFacts SyncParse SyncCore SyncResp SyncStream.
Open Scope nat_scope.

(** ** Complete messages *)
(** A message is a message whatever follows: no other prefix of the same bytes is one. *)
Theorem C57_message_unique : forall m m' rest rest', message m -> message m' -> m ++ rest = m' ++ rest' -> m = m' /\ rest = rest'.
Proof.
  intros m m' rest rest' M M' E. pose proof (message_unique m M _ _ _ M' E) as <-. now apply app_inv_head in E.
Qed.
(** Every stream is a sequence of messages followed by an unfinished one, in exactly one way. *)
Theorem C57_messages : forall stream, exists ms rest, messages stream ms rest /\
  forall ms' rest', messages stream ms' rest' -> ms' = ms /\ rest' = rest.
Proof.
  intros s. destruct (messages_exist (fun _ => @Panic unit unit) s) as (ms & rest & M). exists ms, rest. split; [exact M |].
  intros ms' rest' M'. split; symmetry; apply (messages_fun s _ _ _ _ M M').
Qed.

(** A receiver that decodes every message that the fragmentizer completes makes exactly one decision
    for every message of the stream, whatever the bytes are, however they are cut into chunks and
    whenever [progress] is called. *)
Theorem C57_receiver : forall E A (dec : bytes -> outcome E A) max ops got ms rest,
  feeds ops -> messages (fed ops) ms rest -> receives dec (frag_new max) ops got -> got = map (judged dec max) ms.
Proof. intros E A dec max ops got ms rest. exact (receives_messages dec max ops got ms rest). Qed.

Section Sync.
Context {F : features}.

(** ** Commands *)
(** What the decoder consumes is exactly one message ... *)
Theorem C57_command_consumes : ext_utf8 = false -> forall i rest c, decode_command i = Decoded rest c ->
  exists m, i = m ++ rest /\ message m.
Proof.
  intros U i rest c H. apply command_decoded in H. pose proof (seg_command U i) as S. now rewrite H in S.
Qed.
(** ... and it asks for more bytes only if the input does not begin with a complete message. *)
Theorem C57_command_waits : ext_utf8 = false -> forall i,
  decode_command i = Error CmdIncomplete \/ (exists t n m, decode_command i = Error (CmdLiteralFound t n m)) -> unfinished i.
Proof.
  intros U i H. pose proof (seg_command U i) as S. unfold decode_command in H.
  destruct (p_command i) as [r a | | | [[t |] n m |] |]; try exact S; exfalso; destruct H as [H | (t' & n' & m' & H)]; discriminate.
Qed.
(** So a complete message is decided, and the decision does not depend on what follows. *)
Theorem C57_command_decides : ext_utf8 = false -> forall m rest, message m ->
  (exists c, decode_command m = Decoded [] c /\ decode_command (m ++ rest) = Decoded rest c) \/
  (decode_command m = Error CmdFailed /\ decode_command (m ++ rest) = Error CmdFailed).
Proof.
  intros U m rest M. destruct (decode_command m) as [r c | e |] eqn:E.
  - left. exists c. pose proof (proj2 (C15_command_stable _ _ _ E) rest) as X.
    destruct (C57_command_consumes U _ _ _ E) as (m' & E1 & M').
    pose proof (message_unique m M m' [] r M') as Q. rewrite app_nil_r in Q. specialize (Q E1) as <-.
    rewrite <- (app_nil_r m) in E1 at 1. apply app_inv_head in E1 as <-. auto.
  - assert (U' : e = CmdFailed).
    { destruct e as [| t n l |]; [exfalso | exfalso | reflexivity].
      - apply (C57_command_waits U m (or_introl E) m [] (eq_sym (app_nil_r m)) M).
      - refine (C57_command_waits U m (or_intror _) m [] (eq_sym (app_nil_r m)) M). eauto. }
    subst e. right. split; [reflexivity |]. exact (C16_command_failure_final _ _ rest E eq_refl).
  - exfalso. exact (proj1 (C20_no_panic m) E).
Qed.
(** A server that reads through the fragmentizer gets for every message of the client's stream a
    command or a failure: never bytes that are left over, never a request for more. *)
Theorem C57_server : ext_utf8 = false -> forall max ops got ms rest,
  feeds ops -> messages (fed ops) ms rest -> receives decode_command (frag_new max) ops got ->
  got = map (decided decode_command CmdFailed max) ms.
Proof.
  intros U max ops got ms rest Hf M R. rewrite (C57_receiver _ _ _ _ _ _ _ _ Hf M R).
  apply map_ext_in. intros m Hm. destruct M as (_ & FM & _). rewrite Forall_forall in FM. specialize (FM _ Hm).
  unfold judged, decided. destruct (too_long max m); [reflexivity |].
  destruct (C57_command_decides U m [] FM) as [(c & -> & _) | [-> _]]; reflexivity.
Qed.
(** A server that decodes straight from its buffer and one that reads through the fragmentizer see
    the same commands: bytes cannot be a command for one and part of a string for the other. *)
Theorem C57_same_commands : ext_utf8 = false -> forall stream cs rest, reading decode_command stream cs rest ->
  forall ops got, feeds ops -> fed ops = stream -> receives decode_command (frag_new None) ops got ->
  exists more, got = map DMOk cs ++ more.
Proof.
  intros U stream cs rest R ops got Hf Ef Rc.
  destruct (messages_exist (fun _ => @Panic unit unit) stream) as (ms & rs & M).
  rewrite (C57_server U None ops got ms rs Hf ltac:(now rewrite Ef) Rc). clear got Rc Hf Ef ops.
  revert ms M. induction R as [i | i r x l rest D R IH]; intros ms M; [now eexists |].
  destruct (C57_command_consumes U _ _ _ D) as (m & -> & Mm). destruct M as (E & FM & Ur).
  destruct FM as [| m' ms Mm' FM]; [exfalso; cbn in E; exact (Ur _ _ (eq_sym E) Mm) |].
  cbn [concat] in E. rewrite <- app_assoc in E. destruct (C57_message_unique _ _ _ _ Mm Mm' E) as [<- ->].
  destruct (IH ms) as (more & Hm); [now split |]. exists more. cbn [map app]. rewrite Hm. f_equal.
  unfold decided. cbn. destruct (C57_command_decides U m (concat ms ++ rs) Mm) as [(c & -> & E2) | [_ E2]]; rewrite D in E2.
  - now injection E2 as <-.
  - discriminate.
Qed.
(** After every history of calls, also with [skip_message] and [poison_message]: a message that is
    complete is too long, poisoned, a command, or refused. *)
Theorem C57_histories : ext_utf8 = false -> forall max ops s f,
  progress (fst (run (frag_new max) ops)) = (s, Some f) -> is_message_complete s = true ->
  (exists d, decode_message decode_command s = DMTooLong d) \/ (exists d, decode_message decode_command s = DMPoisoned d) \/
  (exists c, decode_message decode_command s = DMOk c) \/ decode_message decode_command s = DMFailure CmdFailed.
Proof.
  intros U max ops s f P K.
  assert (I : In (observe s f) (snd (run (frag_new max) (ops ++ [Progress])))).
  { assert (A : forall l s0 s1, fst (run s0 l) = s1 -> progress s1 = (s, Some f) -> In (observe s f) (snd (run s0 (l ++ [Progress])))).
    { induction l as [| o l IH]; intros s0 s1 E Pr.
      - cbn in E. subst s0. cbn [app run step]. rewrite Pr. now left.
      - cbn [app run] in *. destruct (step s0 o) as [s2 o2]. specialize (IH s2). destruct (run s2 l) as [s3 o3].
        destruct (run s2 (l ++ [Progress])) as [s4 o4]. cbn [fst snd] in *. apply in_or_app. right. exact (IH s1 E Pr). }
    exact (A _ _ _ eq_refl P). }
  destruct (run_complete max _ _ _ (le_n _) I K) as (m & M & Hm & He). cbn [observe ob_message ob_exceeded] in Hm, He.
  unfold decode_message. change (buffer s) with (message_bytes s). rewrite He.
  destruct (too_long max m) eqn:T; [left; eauto |]. right. destruct (poisoned s); [left; eauto |]. right.
  rewrite Hm, (limited_fits _ _ T). destruct (C57_command_decides U m [] M) as [(c & -> & _) | [-> _]]; [left; eauto | now right].
Qed.

(** ** Lines of a client that are not commands *)
Theorem C57_authenticate_data : forall i,
  match decode_authenticate_data i with
  | Decoded rest _ => exists m, i = m ++ rest /\ message m
  | Error Incomplete => unfinished i
  | _ => True
  end.
Proof.
  intros i. pose proof (seg_authenticate_data i) as S. unfold decode_authenticate_data, simple_decode.
  destruct (p_authenticate_data i) as [r a | | | e |]; auto.
Qed.
Theorem C57_idle_done : forall i,
  match decode_idle_done i with
  | Decoded rest _ => exists m, i = m ++ rest /\ message m
  | Error Incomplete => unfinished i
  | _ => True
  end.
Proof.
  intros i. pose proof (seg_idle_done i) as S. unfold decode_idle_done, simple_decode.
  destruct (p_idle_done i) as [r a | | | e |]; auto.
Qed.

(** ** Greetings and responses *)
Lemma searchable_dec i : searchable i \/ (quirk_crlf_relaxed = false /\ exists x, i = bs "+ " ++ x /\ ~ has_crlf x).
Proof.
  unfold searchable. destruct quirk_crlf_relaxed; [now left; left |].
  destruct (starts_with (bs "+ ") i) eqn:P.
  - apply starts_spec in P as (x & ->). destruct (find2 bCR bLF x) as [[a b] |] eqn:E.
    + left; right. intros y Ey. apply app_inv_head in Ey as <-. apply ParserFacts.find2_some in E as (-> & r' & ->). now exists a, r'.
    + right. split; [reflexivity |]. exists x. split; [reflexivity |]. now apply find2_crlf.
  - left; right. intros x ->. exfalso. rewrite (proj2 (starts_spec (bs "+ ") _) (ex_intro _ x eq_refl)) in P. discriminate.
Qed.
Lemma quiet_dec t : quiet t \/ ~ quiet t.
Proof.
  unfold quiet. pose proof (lf_result_spec (t ++ [bCR])) as [H _]. rewrite <- app_assoc in H. cbn [app] in H.
  destruct (fst _) as [a |]; cbn in H; [right | now left]. intros Q. exact (Q a H).
Qed.
Lemma quiet_response_dec r : quiet_response r \/ ~ quiet_response r.
Proof. destruct r as [[c t | d] | d | [b | tg b | c t]]; try apply quiet_dec; now left. Qed.
(** Their texts may look like the announcement of a literal. If the text does not ([quiet_greeting]),
    the decoder consumes exactly one message; if it does, then the fragmentizer waits for that
    literal. *)
Theorem C57_greeting : forall i,
  match decode_greeting i with
  | Decoded rest g => exists m, i = m ++ rest /\ (quiet_greeting g -> message m) /\ (~ quiet_greeting g -> unfinished m)
  | Error Incomplete => unfinished i
  | _ => True
  end.
Proof.
  intros i. pose proof (closing_greeting i) as S. unfold decode_greeting, simple_decode.
  destruct (p_greeting i) as [r a | | | e |]; auto.
Qed.
Theorem C57_response_consumes : ext_utf8 = false -> forall i rest r, decode_response i = Decoded rest r ->
  exists m, i = m ++ rest /\ (quiet_response r -> message m) /\ (~ quiet_response r -> unfinished m).
Proof.
  intros U i rest r H. apply response_decoded in H.
  assert (S : searchable i).
  { destruct (searchable_dec i) as [S | (Q & x & -> & N)]; [exact S |]. rewrite (searching_incomplete x Q N) in H. discriminate. }
  pose proof (closing_response U i S) as C. unfold closing_at in C. now rewrite H in C.
Qed.
(** With the quirk that accepts a bare LF, the decoder waits only for unfinished messages; without it,
    except for a continuation request whose line ends in a bare LF. *)
Theorem C57_response_waits : ext_utf8 = false -> forall i,
  decode_response i = Error RspIncomplete \/ (exists n, decode_response i = Error (RspLiteralFound n)) ->
  unfinished i \/ (quirk_crlf_relaxed = false /\ exists x, i = bs "+ " ++ x /\ ~ has_crlf x).
Proof.
  intros U i H. destruct (searchable_dec i) as [S | S]; [left | now right].
  pose proof (closing_response U i S) as C. unfold closing_at in C. unfold decode_response in H.
  destruct (p_response i) as [r x | | | [t n m |] |]; try exact C; exfalso; destruct H as [H | (n' & H)]; discriminate.
Qed.
(** The exception is real: every such input is incomplete for the decoder, finished or not. *)
Theorem C57_continuation_waits : quirk_crlf_relaxed = false -> forall x, ~ has_crlf x ->
  decode_response (bs "+ " ++ x) = Error RspIncomplete.
Proof. intros Q x N. unfold decode_response. now rewrite searching_incomplete. Qed.
(** So a complete message is decided (unless it is such a continuation request): it is one response,
    it is refused, or the decoder stops at a text that looks like an announcement. *)
Theorem C57_response_decides : ext_utf8 = false -> forall m, message m ->
  quirk_crlf_relaxed = true \/ (forall x, m = bs "+ " ++ x -> has_crlf x) ->
  (exists r, decode_response m = Decoded [] r /\ quiet_response r) \/
  (exists r rest, decode_response m = Decoded rest r /\ rest <> [] /\ ~ quiet_response r) \/
  decode_response m = Error RspFailed.
Proof.
  intros U m M S. destruct (decode_response m) as [rest r | e |] eqn:E.
  - destruct (C57_response_consumes U _ _ _ E) as (d & Ed & Q & N). destruct rest as [| b rest].
    + left. exists r. split; [reflexivity |]. rewrite app_nil_r in Ed. subst d.
      pose proof (closing_response U m S) as C. unfold closing_at in C. apply response_decoded in E. rewrite E in C.
      destruct (quiet_response_dec r) as [Y | Y]; [exact Y |]. exfalso. exact (N Y m [] (eq_sym (app_nil_r m)) M).
    + right; left. exists r, (b :: rest). split; [reflexivity |]. split; [discriminate |]. intros Y. specialize (Q Y).
      pose proof (message_unique m M d [] (b :: rest) Q) as X. rewrite app_nil_r in X. specialize (X Ed) as <-.
      rewrite <- (app_nil_r m) in Ed at 1. apply app_inv_head in Ed. discriminate.
  - right; right. destruct e as [| n |]; [exfalso | exfalso | reflexivity].
    + destruct (C57_response_waits U m (or_introl E)) as [X | (Q & x & -> & N)].
      * exact (X m [] (eq_sym (app_nil_r m)) M).
      * destruct S as [S | S]; [congruence |]. exact (N (S x eq_refl)).
    + destruct (C57_response_waits U m (or_intror (ex_intro _ n E))) as [X | (Q & x & -> & N)].
      * exact (X m [] (eq_sym (app_nil_r m)) M).
      * destruct S as [S | S]; [congruence |]. exact (N (S x eq_refl)).
  - exfalso. exact (proj1 (proj2 (C20_no_panic m)) E).
Qed.
End Sync.

(** ** Where it is false *)
Lemma plain_line w e : forallb plainb w = true -> e = [bLF] \/ e = [bCR; bLF] -> message (w ++ e).
Proof.
  intros P E. apply calm_message; [now apply calm_plains |]. apply message_last.
  - destruct E as [-> | ->]; [exists [] | exists [bCR]]; (split; [reflexivity |]); intros H; repeat destruct H as [H | H]; try contradiction; discriminate.
  - intros a (pre & ds & el & H & _). assert (K : In "{"%byte e) by (rewrite H; apply in_or_app; right; now left).
    destruct E as [-> | ->]; cbn in K; intuition discriminate.
Qed.
(** With the UTF-8 extension a quoted string may contain line breaks: the decoder takes for one
    command what the fragmentizer takes for three messages ... *)
Definition smuggled : bytes := bs "a LOGIN ""x" ++ [bCR; bLF] ++ bs "b NOOP" ++ [bCR; bLF] ++ bs """ p" ++ [bCR; bLF].
Theorem C57_utf8_consumes_refuted : ~ (forall (F : features) i rest c, decode_command i = Decoded rest c -> exists m, i = m ++ rest /\ message m).
Proof.
  intros H.
  assert (D : exists c, @decode_command all_features smuggled = Decoded [] c) by (eexists; vm_compute; reflexivity).
  destruct D as (c & D). destruct (H all_features _ _ _ D) as (m & E & M). rewrite app_nil_r in E. subst m.
  assert (M' : message (bs "a LOGIN ""x" ++ [bCR; bLF])).
  { apply (plain_line (bs "a LOGIN ""x") [bCR; bLF]); [reflexivity | now right]. }
  pose proof (message_unique _ M' _ (bs "b NOOP" ++ [bCR; bLF] ++ bs """ p" ++ [bCR; bLF]) [] M) as X. rewrite app_nil_r in X.
  specialize (X eq_refl). discriminate.
Qed.
(** ... and it waits for more although the message is complete. *)
Theorem C57_utf8_waits_refuted : ~ (forall (F : features) i, decode_command i = Error CmdIncomplete -> unfinished i).
Proof.
  intros H.
  assert (D : @decode_command all_features (bs "a LOGIN ""x" ++ [bCR; bLF]) = Error CmdIncomplete) by (vm_compute; reflexivity).
  apply (H all_features _ D (bs "a LOGIN ""x" ++ [bCR; bLF]) [] (eq_sym (app_nil_r _))).
  apply (plain_line (bs "a LOGIN ""x") [bCR; bLF]); [reflexivity | now right].
Qed.
(** Without the quirk, a continuation request that ends in a bare LF is complete for the
    fragmentizer, but the decoder waits for CRLF. *)
Theorem C57_bare_lf_refuted : ~ (forall (F : features) i, ext_utf8 = false -> decode_response i = Error RspIncomplete -> unfinished i).
Proof.
  intros H.
  assert (D : @decode_response default_features (bs "+ ok" ++ [bLF]) = Error RspIncomplete) by (vm_compute; reflexivity).
  apply (H default_features _ eq_refl D (bs "+ ok" ++ [bLF]) [] (eq_sym (app_nil_r _))).
  apply (plain_line (bs "+ ok") [bLF]); [reflexivity | now left].
Qed.
(** A text that ends like an announcement: the decoder returns the response, the fragmentizer takes
    the bytes that follow for a literal. *)
Theorem C57_text_consumes_refuted : ~ (forall (F : features) i rest r, ext_utf8 = false -> decode_response i = Decoded rest r -> exists m, i = m ++ rest /\ message m).
Proof.
  intros H.
  assert (D : exists r, @decode_response default_features (bs "* OK {3}" ++ [bCR; bLF]) = Decoded [] r) by (eexists; vm_compute; reflexivity).
  destruct D as (r & D). destruct (H default_features _ _ _ eq_refl D) as (m & E & M). rewrite app_nil_r in E. subst m.
  refine (@text_unfinished default_features (bs "* OK {3}") [bCR; bLF] eq_refl (or_introl eq_refl) _ _ [] (eq_sym (app_nil_r _)) M).
  intros Q. apply (Q (mkAnn Sync 3)). exists (bs "* OK "), (bs "3"), [bCR; bLF]. repeat split; auto; discriminate.
Qed.

(** ** Examples *)
Section SyncExamples.
#[local] Existing Instance default_features.
Definition with_literal : bytes := bs "a LOGIN {5}" ++ [bCR; bLF] ++ bs "x" ++ [bCR; bLF] ++ bs "yz" ++ bs " {1+}" ++ [bCR; bLF] ++ bs "p" ++ [bCR; bLF].
Definition not_a_command : bytes := bs "* {2}" ++ [bLF] ++ bs "b " ++ bs "NOOP" ++ [bLF].
Definition sync_stream : bytes := with_literal ++ not_a_command ++ bs "c NOOP" ++ [bCR; bLF] ++ bs "d NO".
Lemma announces_ex pre ds m e : e = [bLF] \/ e = [bCR; bLF] -> ds <> [] -> forallb is_digit ds = true -> (dval ds <= 4294967295)%N ->
  announces (pre ++ bs "{" ++ ds ++ plus_of m ++ bs "}" ++ e) (mkAnn m (dval ds)).
Proof. intros E N D L. exists pre, ds, e. repeat split; auto. Qed.
Lemma is_line_ex t : forallb on_line t = true -> is_line (t ++ [bLF]).
Proof.
  intros H. exists t. split; [reflexivity |]. intros I. rewrite forallb_forall in H. specialize (H _ I). discriminate.
Qed.
Example C57_message_ex : message with_literal.
Proof.
  apply (message_more (bs "a LOGIN {5}" ++ [bCR; bLF]) (mkAnn Sync 5) (bs "x" ++ [bCR; bLF] ++ bs "yz") (bs " {1+}" ++ [bCR; bLF] ++ bs "p" ++ [bCR; bLF])).
  - exact (is_line_ex (bs "a LOGIN {5}" ++ [bCR]) eq_refl).
  - apply (announces_ex (bs "a LOGIN ") (bs "5") Sync [bCR; bLF]); [now right | discriminate | reflexivity | discriminate].
  - reflexivity.
  - apply (message_more (bs " {1+}" ++ [bCR; bLF]) (mkAnn NonSync 1) (bs "p") [bCR; bLF]).
    + exact (is_line_ex (bs " {1+}" ++ [bCR]) eq_refl).
    + apply (announces_ex (bs " ") (bs "1") NonSync [bCR; bLF]); [now right | discriminate | reflexivity | discriminate].
    + reflexivity.
    + apply (plain_line [] [bCR; bLF]); [reflexivity | now right].
Qed.
Example C57_message_ex2 : message not_a_command.
Proof.
  apply (message_more (bs "* {2}" ++ [bLF]) (mkAnn Sync 2) (bs "b ") (bs "NOOP" ++ [bLF])).
  - exact (is_line_ex (bs "* {2}") eq_refl).
  - apply (announces_ex (bs "* ") (bs "2") Sync [bLF]); [now left | discriminate | reflexivity | discriminate].
  - reflexivity.
  - apply (plain_line (bs "NOOP") [bLF]); [reflexivity | now left].
Qed.
Example C57_messages_ex : messages sync_stream [with_literal; not_a_command; bs "c NOOP" ++ [bCR; bLF]] (bs "d NO").
Proof.
  split; [reflexivity | split].
  - apply Forall_cons; [exact C57_message_ex |]. apply Forall_cons; [exact C57_message_ex2 |]. apply Forall_cons; [| apply Forall_nil].
    apply (plain_line (bs "c NOOP") [bCR; bLF]); [reflexivity | now right].
  - apply no_lf_unfinished. intros H. cbn in H. repeat destruct H as [H | H]; try contradiction; discriminate.
Qed.
(* in two chunks, cut inside the literal *)
Definition sync_arrivals : list call :=
  [Enqueue (firstn 15 sync_stream); Progress; Progress; Enqueue (skipn 15 sync_stream)] ++ repeat Progress 9.
Example C57_server_ex : feeds sync_arrivals /\ fed sync_arrivals = sync_stream /\
  snd (receive decode_command (frag_new None) sync_arrivals) =
    map (decided decode_command CmdFailed None) [with_literal; not_a_command; bs "c NOOP" ++ [bCR; bLF]] /\
  map (decided decode_command CmdFailed None) [with_literal; not_a_command; bs "c NOOP" ++ [bCR; bLF]] =
    [DMOk (mkCommand (bs "a") (CLogin (AString (ILiteral (mkLit (bs "x" ++ [bCR; bLF] ++ bs "yz") Sync))) (AString (ILiteral (mkLit (bs "p") NonSync)))));
     DMFailure CmdFailed; DMOk (mkCommand (bs "c") CNoop)].
Proof. split; [repeat constructor | split; [vm_compute; reflexivity | split; vm_compute; reflexivity]]. Qed.
Example C57_waits_ex : decode_command (bs "a LOGIN {5}" ++ [bCR; bLF]) = Error (CmdLiteralFound (bs "a") 5 Sync) /\
  decode_command (bs "a LOG") = Error CmdIncomplete /\ decode_authenticate_data (bs "AAA") = Error Incomplete /\ decode_idle_done (bs "DO") = Error Incomplete.
Proof. vm_compute. repeat split; reflexivity. Qed.
Example C57_reading_ex : exists c1 c2 r, reading decode_command (with_literal ++ bs "c NOOP" ++ [bCR; bLF] ++ bs "d NO") [c1; c2] r.
Proof.
  do 3 eexists. eapply reading_more; [vm_compute; reflexivity |]. eapply reading_more; [vm_compute; reflexivity |]. apply reading_end.
Qed.
Example C57_quiet_ex : exists r, decode_response (bs "* BYE {3} see you" ++ [bCR; bLF] ++ bs "rest") = Decoded (bs "rest") (RStatus (StBye None r)) /\ quiet r.
Proof.
  eexists. split; [vm_compute; reflexivity |]. intros a H. apply announces_crlf in H as (u & ds & E & _).
  apply (f_equal (@rev byte)) in E. rewrite rev_app_distr in E. unfold ann_tail in E. cbn [rev] in E. rewrite !app_assoc, rev_app_distr in E. cbn in E. discriminate.
Qed.
Example C57_text_waits_ex : decode_greeting (bs "* OK {3}" ++ [bCR; bLF]) = Decoded [] (mkGreeting GKOk None (bs "{3}")) /\ ~ quiet (bs "{3}").
Proof.
  split; [vm_compute; reflexivity |]. intros Q. apply (Q (mkAnn Sync 3)). apply (announces_ex [] (bs "3") Sync [bCR; bLF]); [now right | discriminate | reflexivity | discriminate].
Qed.
End SyncExamples.

Print Assumptions C57_message_unique.
Print Assumptions C57_messages.
Print Assumptions C57_receiver.
Print Assumptions C57_command_consumes.
Print Assumptions C57_command_waits.
Print Assumptions C57_command_decides.
Print Assumptions C57_server.
Print Assumptions C57_same_commands.
Print Assumptions C57_histories.
Print Assumptions C57_authenticate_data.
Print Assumptions C57_idle_done.
Print Assumptions C57_greeting.
Print Assumptions C57_response_consumes.
Print Assumptions C57_response_waits.
Print Assumptions C57_continuation_waits.
Print Assumptions C57_response_decides.
Print Assumptions C57_utf8_consumes_refuted.
Print Assumptions C57_utf8_waits_refuted.
Print Assumptions C57_bare_lf_refuted.
Print Assumptions C57_text_consumes_refuted.
