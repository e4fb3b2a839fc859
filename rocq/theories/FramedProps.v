(** C73: the fragmentizer cuts every message of the syntax out correctly, also one that the decoder refuses.

    C57 says that the decoders and the fragmentizer agree on where an accepted message ends. This is about the
    other messages of the syntax: there are limits on nesting, dates must exist, extensions may be switched off ...
    [derives extras limits a t] is the syntax of AbnfSpec.v: [documented] is [derives false false] and [accepted]
    is [derives true true]; [message] is in SyncSpec.v. *)

From Verif Require Import Bytes BytesFacts Features Nom Types Decode DecodeSpec DecodeProps Fragmentizer FragSpec FragFacts StreamSpec
  ValueSpec ValueFacts SyncSpec SyncFacts SyncProps AbnfSpec AbnfProps FramedFacts.
Open Scope N_scope.
Open Scope abnf_scope.

Section Framed.
Context {F : features}.

(** Whether the extension UTF8=ACCEPT is on: then strings may contain line endings that are not documented. *)
Definition no_line_ends (extras : bool) : Prop := ext_utf8 = true -> extras = true -> False.

Ltac tyq := repeat first [apply ty_ref; reflexivity | apply ty_word; reflexivity | eapply ty_cat; [| | reflexivity] | apply ty_or
  | apply ty_extra; intros _ | apply ty_feature; intros _ | apply ty_open, ty_ref; reflexivity | apply ty_open, ty_feature; intros _; apply ty_ref; reflexivity ].

(** ** Messages of a client *)
Theorem C73_command : forall extras limits t, no_line_ends extras -> derives extras limits (Ref Command) t -> message t.
Proof.
  intros x l t U H. apply D_ref_inv in H. cbn [rules] in H. apply end3 in H as (u & e & -> & H & E).
  apply calm_framed; [| exact E]. refine (typed_leads _ _ U _ _ H Out Out _). tyq.
Qed.
Theorem C73_authenticate_data : forall extras limits t, no_line_ends extras -> derives extras limits (Ref AuthenticateData) t -> message t.
Proof.
  intros x l t U H. apply D_ref_inv in H. cbn [rules] in H. apply end1 in H as (u & e & -> & H & E).
  apply calm_framed; [| exact E]. refine (typed_leads _ _ U _ _ H Out Out _). tyq.
Qed.
Theorem C73_idle_done : forall extras limits t, no_line_ends extras -> derives extras limits (Ref IdleDone) t -> message t.
Proof.
  intros x l t U H. apply D_ref_inv in H. cbn [rules] in H. apply end1 in H as (u & e & -> & H & E).
  apply calm_framed; [| exact E]. refine (typed_leads _ _ U _ _ H Out Out _). tyq.
Qed.

(** ** Messages of a server
    Those with data are cut out correctly. *)
Definition data : abnf := "*" ^ SP ^ (MailboxData / MessageData / CapabilityData / EnableData / Feature ext_id IdResponse) ^ CRLF.
Theorem C73_data : forall extras limits t, no_line_ends extras -> derives extras limits data t -> message t.
Proof.
  intros x l t U H. apply end3 in H as (u & e & -> & H & E).
  apply calm_framed; [| exact E]. refine (typed_leads _ _ U _ _ H Out Out _). tyq.
Qed.
(** Those that end in a text written for humans are cut out correctly unless the text happens to end like the
    announcement of a literal. *)
Theorem C73_greeting : forall extras limits t, no_line_ends extras -> derives extras limits (Ref Greeting) t ->
  (forall a, ~ announces t a) -> message t.
Proof.
  intros x l t U H N. apply D_ref_inv in H. cbn [rules] in H. apply end3 in H as (u & e & -> & H & E).
  apply line_framed; [| exact E | exact N]. refine (typed_leads _ _ U _ _ H Out Open _). tyq.
Qed.
Lemma or_inv x l a b t : derives x l (Or a b) t -> derives x l a t \/ derives x l b t.
Proof. inversion 1; auto. Qed.
Theorem C73_response : forall extras limits t, no_line_ends extras -> derives extras limits (Ref Response) t ->
  (forall a, ~ announces t a) -> message t.
Proof.
  intros x l t U H N. apply D_ref_inv in H. cbn [rules] in H. apply or_inv in H as [H | H]; [apply or_inv in H as [H | H] |]; apply D_ref_inv in H; cbn [rules] in H.
  - apply or_inv in H as [H | H].
    + apply end3 in H as (u & e & -> & H & E). apply line_framed; [| exact E | exact N]. refine (typed_leads _ _ U _ _ H Out Open _). tyq.
    + inversion H as [| | | | | | | | | | | | a u X K | |]; subst. inversion K as [| | | | | | | | | | | b a u B J | | |]; subst.
      apply end1 in J as (u & e & -> & J & E). apply calm_framed; [| exact E]. refine (typed_leads _ _ U _ _ J Out Out _). tyq.
  - apply end3 in H as (u & e & -> & H & E). apply line_framed; [| exact E | exact N]. refine (typed_leads _ _ U _ _ H Out Open _). tyq.
  - apply or_inv in H as [H | H]; apply D_ref_inv in H; cbn [rules] in H;
      (apply end3 in H as (u & e & -> & H & E); apply line_framed; [| exact E | exact N]; refine (typed_leads _ _ U _ _ H Out Open _); tyq).
Qed.

(** ** Streams
    A documented command is accepted or refused; the decoder does not wait for more bytes, and does not touch what follows. *)
Theorem C73_decided : ext_utf8 = false -> forall t rest, documented (Ref Command) t ->
  (exists c, decode_command (t ++ rest) = Decoded rest c) \/ decode_command (t ++ rest) = Error CmdFailed.
Proof.
  intros U t rest H.
  destruct (C57_command_decides U t rest) as [(c & _ & D) | [_ D]]; [apply (C73_command false false); [intros _; discriminate | exact H] | |]; eauto.
Qed.
(** A server that reads through the fragmentizer, however the bytes arrive: for a stream of documented commands, the last one not
    complete, it gets what the decoder makes of each of them. A refused command does not take others with it. *)
Lemma beginning_unfinished u v : message (u ++ v) -> v <> [] -> unfinished u.
Proof.
  intros M V m rest E K. assert (X : (u ++ v) ++ [] = m ++ (rest ++ v)) by now rewrite app_nil_r, E, <- app_assoc.
  destruct (C57_message_unique _ _ _ _ M K X) as [_ Y]. symmetry in Y. apply app_eq_nil in Y as [_ Y]. contradiction.
Qed.
Theorem C73_stream : forall E A (dec : bytes -> outcome E A) max ops got ts u,
  feeds ops -> Forall (documented (Ref Command)) ts -> (u = [] \/ exists v, v <> [] /\ documented (Ref Command) (u ++ v)) ->
  fed ops = concat ts ++ u -> receives dec (frag_new max) ops got -> got = map (judged dec max) ts.
Proof.
  intros E A dec max ops got ts u Hf T V Ef R. apply (C57_receiver _ _ _ _ _ _ _ u Hf); [| exact R].
  assert (M : forall t, documented (Ref Command) t -> message t) by (intros t; apply (C73_command false false); intros _; discriminate).
  split; [exact Ef |]. split; [revert T; apply Forall_impl; exact M |].
  destruct V as [-> | (v & V & D)]; [| exact (beginning_unfinished _ _ (M _ D) V)].
  intros m rest X K. symmetry in X. apply app_eq_nil in X as [-> _]. apply message_has_lf in K. contradiction.
Qed.
Theorem C73_server : ext_utf8 = false -> forall max ops got ts u,
  feeds ops -> Forall (documented (Ref Command)) ts -> (u = [] \/ exists v, v <> [] /\ documented (Ref Command) (u ++ v)) ->
  fed ops = concat ts ++ u -> receives decode_command (frag_new max) ops got ->
  got = map (decided decode_command CmdFailed max) ts.
Proof.
  intros U max ops got ts u Hf T V Ef R. rewrite (C73_stream _ _ _ _ _ _ _ _ Hf T V Ef R). apply map_ext_in. intros t I.
  rewrite Forall_forall in T. specialize (T _ I). unfold judged, decided. destruct (too_long max t); [reflexivity |].
  destruct (C57_command_decides U t []) as [(c & -> & _) | [-> _]]; [apply (C73_command false false); [intros _; discriminate | exact T] | reflexivity ..].
Qed.
(** The same for the client and the messages of a server. *)
Theorem C73_client : forall E A (dec : bytes -> outcome E A) max ops got ts u,
  feeds ops -> Forall (fun t => (documented (Ref Greeting) t \/ documented (Ref Response) t) /\ forall a, ~ announces t a) ts -> unfinished u ->
  fed ops = concat ts ++ u -> receives dec (frag_new max) ops got -> got = map (judged dec max) ts.
Proof.
  intros E A dec max ops got ts u Hf T V Ef R. apply (C57_receiver _ _ _ _ _ _ _ u Hf); [| exact R].
  split; [exact Ef |]. split; [| exact V]. revert T. apply Forall_impl. intros t [[H | H] N].
  - apply (C73_greeting false false); auto. intros _; discriminate.
  - apply (C73_response false false); auto. intros _; discriminate.
Qed.
End Framed.

(** ** The conditions are needed *)
(** A text that ends like the announcement of a literal *)
Definition misleading : bytes := bs "* OK see {5}" ++ [bCR; bLF].
Theorem C73_text_refuted : ~ (forall (F : features) t, documented (Ref Response) t -> message t).
Proof.
  intros H. specialize (H default_features misleading).
  assert (D : @documented default_features (Ref Response) misleading).
  { unfold misleading. apply d_ref. cbn [rules]. apply d_or_l, d_or_r, d_ref. cbn [rules].
    apply (d_cat _ _ _ _ (bs "*")); [apply d_str; now apply same_letters_spec |].
    apply (d_cat _ _ _ _ (bs " ") (bs "OK see {5}" ++ [bCR; bLF])); [apply d_str; now apply same_letters_spec |].
    apply (d_cat _ _ _ _ (bs "OK see {5}")); [| apply d_ref; cbn [rules]; apply d_or_l, d_str; now apply same_letters_spec].
    repeat apply d_or_l. apply d_ref. cbn [rules].
    apply (d_cat _ _ _ _ (bs "OK")); [apply d_or_l, d_or_l, d_str; now apply same_letters_spec |].
    apply (d_cat _ _ _ _ (bs " ")); [apply d_str; now apply same_letters_spec |].
    apply d_ref. cbn [rules]. apply d_or_l, d_or_l, d_limit; [| discriminate]. apply d_ref. cbn [rules].
    assert (M : forall w, Forall TEXT_CHAR w -> @derives default_features false false (Many (Chr TEXT_CHAR)) w).
    { induction 1 as [| b w B W IH]; [apply d_none |]. apply (d_more _ _ _ [b]); [now apply d_chr | exact IH]. }
    assert (T : Forall TEXT_CHAR (bs "see {5}")) by (repeat (apply Forall_cons; [unfold TEXT_CHAR, CHAR; cbn; repeat split; (lia || discriminate) |]); apply Forall_nil).
    cbn in T |- *. inversion T; subst. apply (d_cat _ _ _ _ ["s"%byte]); [now apply d_chr | now apply M]. }
  specialize (H D).
  assert (A : announces misleading (mkAnn Sync 5)).
  { exists (bs "* OK see "), (bs "5"), [bCR; bLF]. repeat split; auto; [discriminate | cbn; lia]. }
  assert (L : is_line misleading).
  { exists (bs "* OK see {5}" ++ [bCR]). split; [reflexivity |]. intros I. cbn in I. repeat (destruct I as [I | I]; [discriminate |]). exact I. }
  refine (header_unfinished _ _ [] L A (or_intror eq_refl) misleading [] _ H). reflexivity.
Qed.

(** A quoted string with a line ending in it, which is accepted with the extension UTF8=ACCEPT *)
Theorem C73_utf8_refuted : ~ (forall (F : features) t, accepted (Ref Command) t -> message t).
Proof.
  intros H. apply C57_utf8_consumes_refuted. intros F i rest c D.
  destruct (proj1 (C69_command i rest) (ex_intro _ c D)) as (t & -> & A). eauto.
Qed.

(** ** Examples *)
(** A search that is nested deeper than the decoder goes, and a command after it *)
Fixpoint nots (n : nat) : bytes := match n with O => bs "ALL" | S n => bs "NOT " ++ nots n end.
Lemma same_ex s : same_letters s s.
Proof. now apply same_letters_spec. Qed.
Lemma nots_documented m : forall n, @documented default_features (Ref (SearchKey n)) (nots m).
Proof.
  induction m as [| m IH]; intros n; apply d_ref; cbn [rules].
  - repeat apply d_or_l. apply d_str. apply same_ex.
  - apply d_or_l, d_or_l, d_or_l, d_or_l, d_or_l, d_or_l, d_or_l, d_or_l, d_or_l, d_or_l, d_or_r.
    destruct n as [| n]; cbn [deeper]; [apply d_beyond; [reflexivity |] |]; cbn [nots];
      (apply (d_cat _ _ _ _ (bs "NOT")); [apply d_str, same_ex |]; apply (d_cat _ _ _ _ (bs " ")); [apply d_str, same_ex | apply IH]).
Qed.
Definition deep_search (n : nat) : bytes := bs "a SEARCH " ++ nots n ++ [bCR; bLF].
Lemma tag_ex (b : byte) : TAG_CHAR b -> @documented default_features (Ref Tag) [b].
Proof. intros B. apply d_ref. cbn [rules]. apply (d_cat _ _ _ _ [b] []); [now apply d_chr | apply d_none]. Qed.
Lemma crlf_ex : @documented default_features (Ref CRLF) [bCR; bLF].
Proof. apply d_ref. cbn [rules]. apply d_or_l, d_str, same_ex. Qed.
Lemma tag_char_ex b : is_alpha b = true -> TAG_CHAR b.
Proof. intros H. apply is_tag_char_spec. revert H. apply (byte_impl is_alpha (fun b => is_astring_char b && negb (beq b "+"%byte))). vm_compute. reflexivity. Qed.
Lemma deep_documented n : @documented default_features (Ref Command) (deep_search n).
Proof.
  unfold deep_search. apply d_ref. cbn [rules]. change (bs "a SEARCH " ++ nots n ++ [bCR; bLF]) with (bs "a" ++ bs " " ++ (bs "SEARCH " ++ nots n ++ [bCR; bLF])).
  apply d_cat; [now apply tag_ex, tag_char_ex |]. apply d_cat; [apply d_str, same_ex |].
  rewrite app_assoc. apply d_cat; [| apply crlf_ex]. apply d_or_r, d_ref. cbn [rules].
  apply d_or_l, d_or_l, d_or_l, d_or_l, d_or_r, d_ref. cbn [rules].
  change (bs "SEARCH " ++ nots n) with (bs "SEARCH" ++ [] ++ (bs " " ++ nots n)).
  apply d_cat; [apply d_str, same_ex |]. apply d_cat; [apply d_or_l, d_eps |].
  rewrite <- (app_nil_r (bs " " ++ nots n)). apply d_cat; [| apply d_none]. apply d_cat; [apply d_str, same_ex | apply nots_documented].
Qed.
Definition noop : bytes := bs "b NOOP" ++ [bCR; bLF].
Lemma noop_documented : @documented default_features (Ref Command) noop.
Proof.
  unfold noop. apply d_ref. cbn [rules]. change (bs "b NOOP" ++ [bCR; bLF]) with (bs "b" ++ bs " " ++ bs "NOOP" ++ [bCR; bLF]).
  apply d_cat; [now apply tag_ex, tag_char_ex |]. apply d_cat; [apply d_str, same_ex |]. apply d_cat; [| apply crlf_ex].
  apply d_or_l, d_or_l, d_or_l, d_ref. cbn [rules]. apply d_or_l, d_or_r, d_str, same_ex.
Qed.
Example C73_command_ex : @documented default_features (Ref Command) (deep_search 12) /\ @decode_command default_features (deep_search 12) = Error CmdFailed /\
  message (deep_search 12).
Proof.
  split; [apply deep_documented |]. split; [vm_compute; reflexivity |].
  apply (@C73_command default_features false false); [intros _; discriminate | apply deep_documented].
Qed.
Example C73_server_ex : exists ops, feeds ops /\ Forall (@documented default_features (Ref Command)) [deep_search 12; noop] /\
  fed ops = concat [deep_search 12; noop] ++ bs "a SEARCH NOT" /\ @documented default_features (Ref Command) (bs "a SEARCH NOT" ++ bs " ALL" ++ [bCR; bLF]) /\
  snd (receive (@decode_command default_features) (frag_new None) ops) = [DMFailure CmdFailed; DMOk (mkCommand (bs "b") CNoop)].
Proof.
  exists ([Enqueue (firstn 15 (deep_search 12)); Progress; Progress; Enqueue (skipn 15 (deep_search 12) ++ noop ++ bs "a SEARCH NOT")] ++ repeat Progress 4).
  split; [repeat constructor |]. split; [apply Forall_cons; [apply deep_documented | apply Forall_cons; [apply noop_documented | apply Forall_nil]] |].
  split; [vm_compute; reflexivity |]. split; [exact (deep_documented 1) | vm_compute; reflexivity].
Qed.
Example C73_client_ex : exists t, @documented default_features (Ref Response) t /\ forall a, ~ announces t a.
Proof.
  exists (bs "* OK x" ++ [bCR; bLF]). split.
  - apply d_ref. cbn [rules]. apply d_or_l, d_or_r, d_ref. cbn [rules].
    apply (d_cat _ _ _ _ (bs "*")); [apply d_str, same_ex |].
    apply (d_cat _ _ _ _ (bs " ") (bs "OK x" ++ [bCR; bLF])); [apply d_str, same_ex |]. apply (d_cat _ _ _ _ (bs "OK x")); [| apply crlf_ex].
    repeat apply d_or_l. apply d_ref. cbn [rules].
    apply (d_cat _ _ _ _ (bs "OK")); [apply d_or_l, d_or_l, d_str, same_ex |]. apply (d_cat _ _ _ _ (bs " ")); [apply d_str, same_ex |].
    apply d_ref. cbn [rules]. apply d_or_l, d_or_l, d_limit; [| discriminate]. apply d_ref. cbn [rules].
    apply (d_cat _ _ _ _ (bs "x") []); [apply d_chr | apply d_none]. unfold TEXT_CHAR, CHAR. cbn. repeat split; (lia || discriminate).
  - intros a (pre & ds & el & H & _). assert (I : In "{"%byte (bs "* OK x" ++ [bCR; bLF])) by (rewrite H; apply in_or_app; right; now left).
    cbn in I. repeat (destruct I as [I | I]; [discriminate |]). exact I.
Qed.

Print Assumptions C73_command.
Print Assumptions C73_authenticate_data.
Print Assumptions C73_idle_done.
Print Assumptions C73_data.
Print Assumptions C73_greeting.
Print Assumptions C73_response.
Print Assumptions C73_decided.
Print Assumptions C73_stream.
Print Assumptions C73_server.
Print Assumptions C73_client.
Print Assumptions C73_text_refuted.
Print Assumptions C73_utf8_refuted.
