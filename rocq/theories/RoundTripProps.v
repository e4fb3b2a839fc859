(** Encoding and decoding: C09-C13, C17, C19, C22, C38 and the refutation for C21.

    [v_command LDecoded c] (Valid.v) says that [c] can be built with the constructors of
    imap-types and is not one of the values listed there (with [only_rt]) that the encoder
    writes in a form the decoder does not read back; the [.._refuted] theorems show that these
    exclusions are needed. [w_command c] (RoundTripSpec.v) is [c] itself, unless a quirk feature
    makes the encoder normalise sequence sets or write an empty ID list as NIL. *)

From Verif Require Import Bytes BytesFacts Dec Features Nom Types Utf8 Conv SeqSet
  EncodeCtx Encode EncodeFacts EncodeApi Decode DecodeSpec Valid ValidFacts OkResp OkCmd DecodeFacts DecodeProps
  RtFacts RtCmd RtResp OtherCode RoundTripSpec WrittenFacts EncFragFacts.
Open Scope nat_scope.

Section RoundTrip.
Context {F : features}.

Lemma dumped_command c rest : v_command LExact c = true ->
  decode_command (dump (e_command c) ++ rest) = Decoded rest c.
Proof. intros V. unfold decode_command. now rewrite cmd_full. Qed.

(** ** C09: commands *)
Theorem C09_command : forall c, v_command LDecoded c = true ->
  decodes_to encode_command decode_command c (w_command c).
Proof.
  intros c V rest. unfold encode_command. rewrite dump_fragments_eq.
  destruct (w_command_ok c V) as [V' <-]. now apply dumped_command.
Qed.
(** Without the two quirks (or if the command has neither an unnormalised set nor an empty
    ID list) it is the identity. *)
Theorem C09_command_exact : forall c, v_command LExact c = true ->
  decodes_to encode_command decode_command c c.
Proof.
  intros c V rest. unfold encode_command. rewrite dump_fragments_eq. now apply dumped_command.
Qed.

(** ** C10: responses *)
Lemma response_round_trip other r : other_kept other ->
  v_response LDecoded other r = true -> has_modseq r = false ->
  decodes_to encode_response decode_response r (w_response r).
Proof.
  intros K V M rest. unfold encode_response. rewrite dump_fragments_eq.
  destruct (w_response_ok other r M V) as [V' <-]. unfold decode_response.
  now rewrite (P_full _ _ _ _ (P_p_response other K _ V')).
Qed.
(** A [Code::Other] must not start with the name of a known code ([other_name]). *)
Theorem C10_response : forall r, v_response LDecoded other_name r = true -> has_modseq r = false ->
  decodes_to encode_response decode_response r (w_response r).
Proof. intros r. apply response_round_trip, other_name_kept. Qed.
(** The weakest condition on [Code::Other]: the decoder does not read it as a known code. *)
Theorem C10_response_other : forall r, v_response LDecoded other_read r = true -> has_modseq r = false ->
  decodes_to encode_response decode_response r (w_response r).
Proof. intros r. apply response_round_trip, other_read_kept. Qed.

(** ** C11: greetings *)
Lemma greeting_round_trip other g : other_kept other -> v_greeting LDecoded other g = true ->
  decodes_to encode_greeting decode_greeting g (w_greeting g).
Proof.
  intros K V rest. unfold encode_greeting. rewrite dump_fragments_eq.
  destruct (w_greeting_ok other g V) as [V' <-]. unfold decode_greeting, simple_decode.
  now rewrite (P_full _ _ _ _ (P_p_greeting other K _ V')).
Qed.
Theorem C11_greeting : forall g, v_greeting LDecoded other_name g = true ->
  decodes_to encode_greeting decode_greeting g (w_greeting g).
Proof. intros g. apply greeting_round_trip, other_name_kept. Qed.

(** ** C12: authenticate data, IDLE done *)
Theorem C12_authenticate_data : forall a,
  decodes_to encode_authenticate_data decode_authenticate_data a a.
Proof.
  intros a rest. unfold encode_authenticate_data. rewrite dump_fragments_eq.
  unfold decode_authenticate_data, simple_decode. now rewrite (P_full _ _ _ _ (P_p_authenticate_data a)).
Qed.
Theorem C12_idle_done : decodes_to encode_idle_done decode_idle_done tt tt.
Proof.
  intros rest. unfold encode_idle_done. rewrite dump_fragments_eq.
  unfold decode_idle_done, simple_decode. now rewrite (P_full _ _ _ _ P_p_idle_done).
Qed.

(** ** C13: whatever was decoded can be written and is read again *)
Theorem C13_command : forall i rest c, decode_command i = Decoded rest c ->
  decodes_to encode_command decode_command c (w_command c).
Proof. intros i rest c H. apply C09_command. now apply decoded_command_valid in H. Qed.
Theorem C13_response_partial : forall i rest r, decode_response i = Decoded rest r -> has_modseq r = false ->
  decodes_to encode_response decode_response r (w_response r).
Proof.
  intros i rest r H M. apply C10_response_other; [| exact M].
  apply response_decoded in H. pose proof (ok_p_response other_read other_read_decoded) as K.
  exact (okk_post (fun k => K k) _ _ _ H).
Qed.
Theorem C13_greeting : forall i rest g, decode_greeting i = Decoded rest g ->
  decodes_to encode_greeting decode_greeting g (w_greeting g).
Proof.
  intros i rest g H. apply (greeting_round_trip other_read); [apply other_read_kept |].
  apply simple_decoded in H. pose proof (ok_p_greeting other_read other_read_decoded) as K.
  exact (okk_post (fun k => K k) _ _ _ H).
Qed.

(** ** C17: a strict prefix of an encoding is never rejected and never a message *)
Lemma prefix_undecided {E A} (failed : E -> bool) (dec : bytes -> outcome E A) m b :
  stable dec -> final_failure failed dec -> (forall i, dec i <> Panic) ->
  (forall rest, dec (m ++ rest) = Decoded rest b) ->
  forall p, strict_prefix p m -> exists e, dec p = Error e /\ failed e = false.
Proof.
  intros St Fi Pa D p (x & y & Em). specialize (D []). rewrite app_nil_r in D.
  destruct (dec p) as [r a | e |] eqn:Ep.
  - exfalso. destruct (St _ _ _ Ep) as [_ S]. specialize (S (x :: y)). rewrite <- Em, D in S.
    injection S as S _. destruct r; discriminate.
  - exists e. split; [reflexivity |]. destruct (failed e) eqn:Ef; [| reflexivity]. exfalso.
    pose proof (Fi _ _ (x :: y) Ep Ef) as K. rewrite <- Em, D in K. discriminate.
  - now apply Pa in Ep.
Qed.
Theorem C17_command_prefix : forall c p, v_command LDecoded c = true ->
  strict_prefix p (dump_fragments (encode_command c)) ->
  decode_command p = Error CmdIncomplete \/
  exists n m, decode_command p = Error (CmdLiteralFound (cmd_tag c) n m).
Proof.
  intros c p V Hp.
  destruct (prefix_undecided cmd_failed decode_command _ _ C15_command_stable C16_command_failure_final
    (fun i => proj1 (C20_no_panic i)) (C09_command c V) p Hp) as ([| t n m |] & E & Ef); [now left | | discriminate].
  right. exists n, m. rewrite E. repeat f_equal.
  (* the tag: both are followed by a space and contain none *)
  destruct (C18_command_literal_sound _ _ _ _ E) as (_ & T & r & Er).
  destruct Hp as (x & y & Em). rewrite Er in Em. unfold encode_command in Em.
  rewrite dump_fragments_eq in Em. unfold e_command in Em.
  unfold v_command in V. apply andb_true_iff in V as [Vt _].
  rewrite dump_app in Em. unfold e_bytes in Em. rewrite dump_W in Em.
  change (dump (spc ++ ?z)) with (bSP :: dump z) in Em.
  rewrite <- !app_assoc in Em. change (bs " " ++ ?z) with (bSP :: z) in Em.
  assert (K : forall t, tag_ok t = true -> forallb (fun b => negb (beq b bSP)) t = true).
  { intros u Hu. unfold tag_ok in Hu. destruct u as [| b0 u0]; [discriminate |].
    rewrite forallb_forall in *. intros b Hb. specialize (Hu b Hb). revert Hu. clear.
    destruct (beq_spec b bSP) as [-> |]; [discriminate | reflexivity]. }
  apply K in T, Vt. revert Em T Vt. clear. generalize (cmd_tag c) as u. intros u.
  generalize (dump (e_command_body (cmd_body c) ++ e_crlf)) as s1. generalize (r ++ x :: y) as s2.
  intros s2 s1. revert u. induction t as [| a t IH]; intros [| b u] E T V; cbn in *.
  - reflexivity.
  - injection E as E0 _. rewrite E0 in V. discriminate.
  - injection E as E0 _. rewrite <- E0 in T. discriminate.
  - injection E as -> E. apply andb_true_iff in T as [_ T]. apply andb_true_iff in V as [_ V].
    f_equal. now apply IH.
Qed.
Theorem C17_response_prefix : forall r p, v_response LDecoded other_name r = true -> has_modseq r = false ->
  strict_prefix p (dump_fragments (encode_response r)) ->
  decode_response p = Error RspIncomplete \/ exists n, decode_response p = Error (RspLiteralFound n).
Proof.
  intros r p V M Hp.
  destruct (prefix_undecided rsp_failed decode_response _ _ C15_response_stable C16_response_failure_final
    (fun i => proj1 (proj2 (C20_no_panic i))) (C10_response r V M) p Hp) as ([| n |] & E & Ef);
    [now left | right; eauto | discriminate].
Qed.
Theorem C17_greeting_prefix : forall g p, v_greeting LDecoded other_name g = true ->
  strict_prefix p (dump_fragments (encode_greeting g)) -> decode_greeting p = Error Incomplete.
Proof.
  intros g p V Hp.
  destruct (prefix_undecided is_failed decode_greeting _ _ C15_greeting_stable C16_greeting_failure_final
    (fun i => proj1 (proj2 (proj2 (C20_no_panic i)))) (C11_greeting g V) p Hp) as ([|] & E & Ef);
    [exact E | discriminate].
Qed.
Theorem C17_authenticate_data_prefix : forall a p,
  strict_prefix p (dump_fragments (encode_authenticate_data a)) ->
  decode_authenticate_data p = Error Incomplete.
Proof.
  intros a p Hp.
  destruct (prefix_undecided is_failed decode_authenticate_data _ _ C15_authenticate_data_stable
    C16_authenticate_data_failure_final (fun i => proj1 (proj2 (proj2 (proj2 (C20_no_panic i)))))
    (C12_authenticate_data a) p Hp) as ([|] & E & Ef); [exact E | discriminate].
Qed.
Theorem C17_idle_done_prefix : forall p,
  strict_prefix p (dump_fragments (encode_idle_done tt)) -> decode_idle_done p = Error Incomplete.
Proof.
  intros p Hp.
  destruct (prefix_undecided is_failed decode_idle_done _ _ C15_idle_done_stable
    C16_idle_done_failure_final (fun i => proj2 (proj2 (proj2 (proj2 (C20_no_panic i)))))
    C12_idle_done p Hp) as ([|] & E & Ef); [exact E | discriminate].
Qed.

(** ** C19: every literal is announced by LiteralFound *)
Theorem C19_command_literal : forall c before d m after, v_command LDecoded c = true ->
  encode_command c = before ++ FrLiteral d m :: after ->
  decode_command (dump_fragments before) = Error (CmdLiteralFound (cmd_tag c) (lenN d) m).
Proof.
  intros c before d m after V E. unfold encode_command in E. destruct (w_command_ok c V) as [V' Ee].
  rewrite <- Ee in E. apply fragments_cut in E as (pre & is8 & post & E & ->).
  unfold decode_command. now rewrite (cmd_cut _ _ _ _ _ _ V' E).
Qed.
Theorem C19_response_literal : forall r before d m after,
  v_response LDecoded other_name r = true -> has_modseq r = false ->
  encode_response r = before ++ FrLiteral d m :: after ->
  decode_response (dump_fragments before) = Error (RspLiteralFound (lenN d)).
Proof.
  intros r before d m after V M E. unfold encode_response in E.
  destruct (w_response_ok other_name r M V) as [V' Ee].
  rewrite <- Ee in E. apply fragments_cut in E as (pre & is8 & post & E & ->).
  unfold decode_response. now rewrite (P_cut _ _ _ _ (P_p_response other_name other_name_kept _ V') _ _ _ _ _ E).
Qed.

(** ** C22: fragments *)
Theorem C22_framed :
  (forall c, framed (encode_command c)) /\ (forall r, framed (encode_response r)) /\
  (forall g, framed (encode_greeting g)) /\ (forall a, framed (encode_authenticate_data a)) /\
  framed (encode_idle_done tt).
Proof.
  split; [| split; [| split; [| split]]].
  - intros c. unfold encode_command, e_command. rewrite !app_assoc. apply fragments_framed.
  - intros [[c t | b] | d | s]; unfold encode_response; cbn [e_response e_continuation].
    + rewrite !app_assoc. apply fragments_framed.
    + rewrite !app_assoc. apply fragments_framed.
    + unfold e_data. apply fragments_framed.
    + unfold e_status. apply fragments_framed.
  - intros g. unfold encode_greeting, e_greeting. rewrite !app_assoc. apply fragments_framed.
  - intros [d |]; unfold encode_authenticate_data; cbn [e_authenticate_data]; apply fragments_framed.
  - apply (fragments_framed (W (bs "DONE"))).
Qed.

(** ** C38: no two messages have the same encoding, nor one the prefix of another's *)
Lemma injective {E A} (enc : A -> list fragment) (dec : bytes -> outcome E A) a a' b b' :
  decodes_to enc dec a b -> decodes_to enc dec a' b' ->
  forall r r', dump_fragments (enc a) ++ r = dump_fragments (enc a') ++ r' -> b = b' /\ r = r'.
Proof.
  intros D D' r r' Eq. specialize (D r). specialize (D' r'). rewrite Eq, D' in D. now injection D as -> ->.
Qed.
Theorem C38_command_injective : forall c c' r r',
  v_command LDecoded c = true -> v_command LDecoded c' = true ->
  dump_fragments (encode_command c) ++ r = dump_fragments (encode_command c') ++ r' ->
  w_command c = w_command c' /\ r = r'.
Proof.
  intros c c' r r' V V'. apply (injective encode_command decode_command); now apply C09_command.
Qed.
Theorem C38_response_injective : forall m m' r r',
  v_response LDecoded other_name m = true -> has_modseq m = false ->
  v_response LDecoded other_name m' = true -> has_modseq m' = false ->
  dump_fragments (encode_response m) ++ r = dump_fragments (encode_response m') ++ r' ->
  w_response m = w_response m' /\ r = r'.
Proof.
  intros m m' r r' V M V' M'. apply (injective encode_response decode_response); now apply C10_response.
Qed.
Theorem C38_greeting_injective : forall g g' r r',
  v_greeting LDecoded other_name g = true -> v_greeting LDecoded other_name g' = true ->
  dump_fragments (encode_greeting g) ++ r = dump_fragments (encode_greeting g') ++ r' ->
  w_greeting g = w_greeting g' /\ r = r'.
Proof.
  intros g g' r r' V V'. apply (injective encode_greeting decode_greeting); now apply C11_greeting.
Qed.

(** ** The exclusions are exactly the messages that do not survive *)
Theorem C09_scope : forall c i rest,
  v_command LDecoded c = false -> decode_command i <> Decoded rest c.
Proof. intros c i rest V H. apply decoded_command_valid in H. congruence. Qed.
Theorem C10_scope : forall r i rest,
  v_response LDecoded other_read r = false -> decode_response i <> Decoded rest r.
Proof.
  intros r i rest V H. apply response_decoded in H. pose proof (ok_p_response other_read other_read_decoded) as K.
  pose proof (okk_post (fun k => K k) _ _ _ H) as K'. cbn beta in K'. rewrite V in K'. discriminate.
Qed.
Theorem C11_scope : forall g i rest,
  v_greeting LDecoded other_read g = false -> decode_greeting i <> Decoded rest g.
Proof.
  intros g i rest V H. apply simple_decoded in H. pose proof (ok_p_greeting other_read other_read_decoded) as K.
  pose proof (okk_post (fun k => K k) _ _ _ H) as K'. cbn beta in K'. rewrite V in K'. discriminate.
Qed.
(** So a command that the encoder does not rewrite survives if and only if it is not excluded. *)
Theorem C09_command_iff : forall c, w_command c = c ->
  (decodes_to encode_command decode_command c c <-> v_command LDecoded c = true).
Proof.
  intros c W. split.
  - intros D. destruct (v_command LDecoded c) eqn:V; [reflexivity |]. exfalso.
    exact (C09_scope _ _ _ V (D [])).
  - intros V. pose proof (C09_command c V) as D. now rewrite W in D.
Qed.
Theorem C10_response_iff : forall r, w_response r = r -> has_modseq r = false ->
  (decodes_to encode_response decode_response r r <-> v_response LDecoded other_read r = true).
Proof.
  intros r W M. split.
  - intros D. destruct (v_response LDecoded other_read r) eqn:V; [reflexivity |]. exfalso.
    exact (C10_scope _ _ _ V (D [])).
  - intros V. pose proof (C10_response_other r V M) as D. now rewrite W in D.
Qed.

(** ** C21: messages in messages are not bounded *)
Definition nest_basic : basic_fields := mkBasic [] None None (IQuoted (bs "7bit")) 1.
Definition nest_envelope : envelope := mkEnvelope None None [] [] [] [] [] [] None None.
Fixpoint nest (n : nat) : body_structure :=
  match n with
  | O => BSSingle nest_basic (SFText (IQuoted (bs "plain")) 1) None
  | S n => BSSingle nest_basic (SFMessage nest_envelope (nest n) 1) None
  end.
Lemma nest_valid n : v_body_structure LDecoded (nest n) = true /\ body_fits 6 (nest n) = true.
Proof.
  induction n as [| n [IH1 IH2]]; [split; reflexivity |]. cbn [nest v_body_structure body_fits].
  rewrite IH1, IH2. split; reflexivity.
Qed.
Lemma nest_depth n : body_depth (nest n) = n.
Proof. induction n as [| n IH]; [reflexivity |]. cbn [nest body_depth]. now rewrite IH. Qed.
Theorem C21_message_nesting_refuted : forall n, exists i m b,
  decode_response i = Decoded [] m /\ In b (bodies m) /\ body_depth b = n.
Proof.
  intros n. set (m := RData (DFetch 1 [MDBody (nest n)])).
  exists (dump_fragments (encode_response m)), m, (nest n). split; [| split; [now left | apply nest_depth]].
  assert (V : v_response LDecoded other_name m = true).
  { cbn. unfold v1. cbn. unfold v_body. destruct (nest_valid n) as [-> _]. cbn [only_rt].
    destruct n as [| n]; [reflexivity |]. cbn [nest body_fits].
    destruct (nest_valid n) as [_ ->]. reflexivity. }
  pose proof (C10_response m V eq_refl []) as D. now rewrite app_nil_r in D.
Qed.
End RoundTrip.

Print Assumptions C09_command.
Print Assumptions C09_command_exact.
Print Assumptions C10_response.
Print Assumptions C10_response_other.
Print Assumptions C11_greeting.
Print Assumptions C12_authenticate_data.
Print Assumptions C12_idle_done.
Print Assumptions C13_command.
Print Assumptions C13_response_partial.
Print Assumptions C13_greeting.
Print Assumptions C17_command_prefix.
Print Assumptions C17_response_prefix.
Print Assumptions C17_greeting_prefix.
Print Assumptions C17_authenticate_data_prefix.
Print Assumptions C17_idle_done_prefix.
Print Assumptions C19_command_literal.
Print Assumptions C19_response_literal.
Print Assumptions C22_framed.
Print Assumptions C38_command_injective.
Print Assumptions C38_response_injective.
Print Assumptions C38_greeting_injective.
Print Assumptions C09_scope.
Print Assumptions C10_scope.
Print Assumptions C11_scope.
Print Assumptions C09_command_iff.
Print Assumptions C10_response_iff.
Print Assumptions C21_message_nesting_refuted.

(** ** The theorems are not vacuous *)
#[local] Definition crlf : bytes := [bCR; bLF].

(* default features *)
Definition cmd_append : command :=
  mkCommand (bs "A1") (CAppend (MOther (AString (ILiteral (mkLit (bs "box") NonSync))))
    [FSeen; FKeyword (bs "k")] None (LLiteral (mkLit (bs "Subject: x") Sync))).
Definition cmd_search : command :=
  mkCommand (bs "A2") (CSearch (Some (CharsetAtom (bs "UTF-8")))
    [KOr (KNot KSeen) (KAnd [KUid [SSingle (SValue 4); SRange (SValue 1) (SValue 3)]; KSubject (AString (IQuoted (bs "a""b")))])] true).
Definition rsp_fetch : response :=
  RData (DFetch 3 [MDFlags [FFRecent]; MDRfc822 (Some (ILiteral (mkLit (bs "x{3}y") Sync))); MDBody (nest 2)]).
Definition gr_caps : greeting :=
  mkGreeting GKOk (Some (CdCapability [CapImap4Rev1; CapAuth AMPlain])) (bs "ready").

Module DefaultExamples.
#[local] Existing Instance default_features.
Example C09_hyp : v_command LDecoded cmd_append = true /\ v_command LDecoded cmd_search = true.
Proof. split; reflexivity. Qed.
Example C09_bytes : dump_fragments (encode_command cmd_append) =
  bs "A1 APPEND {3+}" ++ crlf ++ bs "box (\Seen k) {10}" ++ crlf ++ bs "Subject: x" ++ crlf.
Proof. reflexivity. Qed.
(* the default features normalise sets: 4,1:3 is written 1:4 *)
Example C09_written : dump_fragments (encode_command cmd_search) =
  bs "A2 UID SEARCH CHARSET UTF-8 OR NOT SEEN (UID 1:4 SUBJECT ""a\""b"")" ++ crlf /\
  w_command cmd_search <> cmd_search /\ w_command cmd_append = cmd_append.
Proof. split; [reflexivity | split; [discriminate | reflexivity]]. Qed.
Example C10_hyp : v_response LDecoded other_name rsp_fetch = true /\ has_modseq rsp_fetch = false.
Proof. split; reflexivity. Qed.
Example C10_other : v_response LDecoded other_name
  (RStatus (StTagged (bs "a") (mkStatusBody SKNo (Some (CdOther (bs "X-FOO bar"))) (bs "text")))) = true.
Proof. reflexivity. Qed.
Example C11_hyp : v_greeting LDecoded other_name gr_caps = true.
Proof. reflexivity. Qed.
Example C17_hyp : strict_prefix (bs "A1 APPEND {3+}" ++ crlf) (dump_fragments (encode_command cmd_append)).
Proof. eexists. eexists. reflexivity. Qed.
Example C19_hyp : exists after, encode_command cmd_append =
  [FrLine (bs "A1 APPEND {3+}" ++ crlf); FrLiteral (bs "box") NonSync; FrLine (bs " (\Seen k) {10}" ++ crlf)]
    ++ FrLiteral (bs "Subject: x") Sync :: after.
Proof. eexists. reflexivity. Qed.
Example C38_hyp : dump_fragments (encode_command cmd_append) <> dump_fragments (encode_command cmd_search).
Proof. discriminate. Qed.

(** *** Messages that do not survive with the default features. All can be built with the
    constructors of imap-types ([LType]). *)
(* AUTH mechanism SCRAM-SHA3-512: read as AuthMechanismOther *)
Example C09_scram_refuted : let c := mkCommand (bs "a") (CAuthenticate AMScramSha3_512 None) in
  v_command LType c = true /\
  decode_command (dump_fragments (encode_command c)) =
    Decoded [] (mkCommand (bs "a") (CAuthenticate (AMOther (bs "SCRAM-SHA3-512")) None)).
Proof. split; reflexivity. Qed.
(* a search key nested 10 deep is written, but rejected *)
Example C09_search_depth_refuted : let k := Nat.iter 9 KNot KAll in
  let c := mkCommand (bs "a") (CSearch None [k] false) in
  v_command LType c = true /\
  decode_command (dump_fragments (encode_command c)) = Error CmdFailed.
Proof. split; vm_compute; reflexivity. Qed.
(* a text starting with a bracket is read as a code *)
Example C10_bracket_refuted : let r := RStatus (StUntagged (mkStatusBody SKOk None (bs "[ALERT] x"))) in
  v_response LType (fun _ _ => true) r = true /\
  decode_response (dump_fragments (encode_response r)) =
    Decoded [] (RStatus (StUntagged (mkStatusBody SKOk (Some CdAlert) (bs "x")))).
Proof. split; reflexivity. Qed.
Example C10_bracket_failed_refuted : let r := RStatus (StUntagged (mkStatusBody SKOk None (bs "[oops"))) in
  v_response LType (fun _ _ => true) r = true /\
  decode_response (dump_fragments (encode_response r)) = Error RspFailed.
Proof. split; reflexivity. Qed.
(* the flag extension \Recent in a FETCH response is read as FlagFetch::Recent *)
Example C10_recent_refuted : let r := RData (DFetch 1 [MDFlags [FFFlag (FExtension (bs "Recent"))]]) in
  v_response LType (fun _ _ => true) r = true /\
  decode_response (dump_fragments (encode_response r)) = Decoded [] (RData (DFetch 1 [MDFlags [FFRecent]])).
Proof. split; reflexivity. Qed.
(* QUOTA=RES-Foo is read with the resource name in lower case *)
Example C10_quota_refuted : let r := RData (DCapability [CapQuotaRes (ROther (bs "Foo"))]) in
  v_response LType (fun _ _ => true) r = true /\
  decode_response (dump_fragments (encode_response r)) =
    Decoded [] (RData (DCapability [CapQuotaRes (ROther (bs "foo"))])).
Proof. split; reflexivity. Qed.
(* Code::Other can spell a known code *)
Example C10_other_refuted :
  let r := RStatus (StUntagged (mkStatusBody SKOk (Some (CdOther (bs "ALERT"))) (bs "x"))) in
  v_response LType (fun _ _ => true) r = true /\
  decode_response (dump_fragments (encode_response r)) =
    Decoded [] (RStatus (StUntagged (mkStatusBody SKOk (Some CdAlert) (bs "x")))).
Proof. split; reflexivity. Qed.
(* The set written by the encoder need not denote the same messages as the set given. *)
Example C09_set_meaning_refuted : let c := mkCommand (bs "a") (CFetch [SRange (SValue 5) (SValue 4294967294)] (MIItems [INFlags]) true []) in
  v_command LType c = true /\
  dump_fragments (encode_command c) = bs "a UID FETCH 5:* FLAGS" ++ crlf.
Proof. split; reflexivity. Qed.
Example C09_set_star_refuted :
  let c := mkCommand (bs "a") (CStore [SSingle (SValue 4294967294); SSingle SAsterisk] STAdd SRAnswer [FDeleted] true []) in
  v_command LType c = true /\
  dump_fragments (encode_command c) = bs "a UID STORE 4294967294 +FLAGS (\Deleted)" ++ crlf.
Proof. split; reflexivity. Qed.
End DefaultExamples.

Module AllExamples.
#[local] Existing Instance all_features.
(* a QuotedUtf8 that happens to be ASCII is read as Quoted *)
Example C09_utf8_refuted :
  let c s := mkCommand (bs "a") (CCreate (MOther (AString s))) in
  v_command LType (c (IQuotedUtf8 (bs "x y"))) = true /\
  decode_command (dump_fragments (encode_command (c (IQuotedUtf8 (bs "x y"))))) =
    Decoded [] (c (IQuoted (bs "x y"))).
Proof. split; reflexivity. Qed.
Example C09_utf8_ok :
  v_command LDecoded (mkCommand (bs "a") (CCreate (MOther (AString (IQuotedUtf8 (map (fun n => match Byte.of_N n with Some b => b | None => bSP end) [195; 164]%N)))))) = true.
Proof. reflexivity. Qed.
(* the code REFERRAL is read as an unknown code *)
Example C10_referral_refuted :
  let r c := RStatus (StUntagged (mkStatusBody SKOk (Some c) (bs "x"))) in
  v_response LType (fun _ _ => true) (r (CdReferral (bs "imap://a/b"))) = true /\
  decode_response (dump_fragments (encode_response (r (CdReferral (bs "imap://a/b"))))) =
    Decoded [] (r (CdOther (bs "REFERRAL imap://a/b"))).
Proof. split; reflexivity. Qed.
(* Capability::Namespace is read as CapabilityOther *)
Example C10_namespace_refuted :
  v_response LType (fun _ _ => true) (RData (DCapability [CapNamespace])) = true /\
  decode_response (dump_fragments (encode_response (RData (DCapability [CapNamespace])))) =
    Decoded [] (RData (DCapability [CapOther (bs "NAMESPACE")])).
Proof. split; reflexivity. Qed.
(* MODSEQ in a FETCH response is written without the parentheses the decoder expects *)
Example C10_modseq_refuted : let r := RData (DFetch 1 [MDModSeq 5]) in
  v_response LType (fun _ _ => true) r = true /\
  dump_fragments (encode_response r) = bs "* 1 FETCH (MODSEQ 5)" ++ crlf /\
  decode_response (dump_fragments (encode_response r)) = Error RspFailed /\
  decode_response (bs "* 1 FETCH (MODSEQ (5))" ++ crlf) = Decoded [] r.
Proof. repeat split; reflexivity. Qed.
(* an empty ID list is written as NIL *)
Example C09_id_written : dump_fragments (encode_command (mkCommand (bs "a") (CId (Some [])))) = bs "a ID NIL" ++ crlf.
Proof. reflexivity. Qed.
End AllExamples.
