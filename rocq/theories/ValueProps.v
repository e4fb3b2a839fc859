(** The properties of the values of imap-types: C25-C27, C31-C35, C37, C41-C43.
    The specification is ValueSpec.v. *)

From Verif Require Import Bytes BytesFacts Dec Features Nom Types Utf8 Conv SeqSet Base64 Date
  EncodeCtx Encode EncodeFacts EncodeApi ParseCore ParseCmd ParseResp Decode DecodeSpec Valid ValidFacts
  ParserFacts QuotedFacts OkTac OkCore OkCmd OkResp DecodeFacts DecodeProps RtFacts RtTac RtCore RtCmd RtResp OtherCode RoundTripSpec
  WrittenFacts EncFragFacts RoundTripProps Ctors ValueSpec ValueFacts TagFacts NameFacts ReadFacts.
Open Scope nat_scope.

(** ** C25: escaping *)

(** The escaped text is the body of a quoted string that stands for [s]: no double quote or
    backslash stands in it without a backslash. *)
Theorem C25_escape : forall s, quoted_body (escape_quoted s) s.
Proof. intros s. now apply quoted_body_spec. Qed.
Theorem C25_unescape : forall w s, quoted_body w s -> unescape_quoted w = s.
Proof. intros w s H. apply quoted_body_spec in H as ->. apply unescape_escape. Qed.
Theorem C25_inverse : forall s, unescape_quoted (escape_quoted s) = s.
Proof. intros s. apply C25_unescape, C25_escape. Qed.
(** Only one text stands for [s]. *)
Theorem C25_unique : forall w w' s, quoted_body w s -> quoted_body w' s -> w = w'.
Proof. intros w w' s H H'. apply quoted_body_spec in H, H'. congruence. Qed.
Print Assumptions C25_escape.
Print Assumptions C25_unescape.
Print Assumptions C25_inverse.
Print Assumptions C25_unique.
Example C25_example :
  escape_quoted [x61; bDQ; bBS] = [x61; bBS; bDQ; bBS; bBS] /\
  quoted_body [x61; bBS; bDQ; bBS; bBS] [x61; bDQ; bBS].
Proof. split; [reflexivity |]. now apply quoted_body_spec. Qed.

(** ** C26: constructors *)
Theorem C26_atom : converts_some ATOM_CHAR (fun s => s) atom_from_bytes.
Proof. exact atom_conv. Qed.
Theorem C26_atom_ext : converts_some ASTRING_CHAR (fun s => s) atom_ext_from_bytes.
Proof. exact atom_ext_conv. Qed.
Theorem C26_tag : converts_some TAG_CHAR (fun s => s) tag_from_bytes.
Proof. exact tag_conv. Qed.
Theorem C26_text : converts_some TEXT_CHAR (fun s => s) text_from_bytes.
Proof. exact text_conv. Qed.
Theorem C26_list_char_string : converts_some LIST_CHAR (fun s => s) list_char_string_from_str.
Proof. exact list_char_conv. Qed.
Theorem C26_quoted : converts_many TEXT_CHAR (fun s => s) quoted_from_bytes.
Proof. exact quoted_conv. Qed.
Theorem C26_literal : converts_many CHAR8 (fun s => mkLit s Sync) literal_from_bytes.
Proof. exact literal_conv. Qed.
Theorem C26_quoted_char : forall c,
  (QUOTED_CHAR_VALUE c -> quoted_char_from c = COk c) /\
  (~ QUOTED_CHAR_VALUE c -> quoted_char_from c = CErr VInvalid).
Proof.
  intros c. unfold quoted_char_from, validate_quoted_char.
  assert (E : (N.leb c 0x7f && (is_any_text_char_except_quoted_specials (byte_trunc c)
      || N.eqb c (bN bBS) || N.eqb c (bN bDQ)))%bool = true <-> QUOTED_CHAR_VALUE c).
  { assert (K : forall b, (N.leb (bN b) 0x7f && (is_any_text_char_except_quoted_specials b
        || N.eqb (bN b) (bN bBS) || N.eqb (bN b) (bN bDQ)))%bool = is_text_char b)
      by (apply byte_eqb; vm_compute; reflexivity).
    assert (T : forall b, byte_trunc (bN b) = b).
    { intros b. unfold byte_trunc. rewrite N.mod_small by apply bN_lt. unfold bN.
      now rewrite Byte.of_to_N. }
    split.
    - intros H. assert (L : (c <= 0x7f)%N).
      { apply andb_true_iff in H as [H _]. now apply N.leb_le. }
      destruct (Byte.of_N c) as [b |] eqn:B.
      2:{ apply Byte.of_N_None_iff in B. lia. }
      apply Byte.to_of_N in B. change (Byte.to_N b) with (bN b) in B. subst c.
      rewrite T, K in H. exists b. split; [now apply is_text_char_spec | reflexivity].
    - intros (b & Hb & ->). rewrite T, K. now apply is_text_char_spec. }
  destruct (_ && _)%bool; cbn [cbind]; split; intros H; try reflexivity.
  - exfalso. now apply H, E.
  - exfalso. apply E in H. discriminate.
Qed.
(** [IString], [AString], [NString]: the bytes are kept, only NUL is refused, and the first NUL
    is named. *)
Theorem C26_istring : forall s,
  (many_of CHAR8 s -> exists v, istring_from_bytes s = COk v /\ bytes_of_istring v = s) /\
  (forall b i, first_wrong CHAR8 s b i -> istring_from_bytes s = CErr (VInvalidByteAt b i)).
Proof.
  intros s. destruct (istring_conv s) as (H1 & H2 & H3). split; [| exact H3]. intros H.
  destruct (converts_many_cases _ _ _ quoted_conv s) as [[Q _] | [Q _]].
  - exists (IQuoted s). auto.
  - exists (ILiteral (mkLit s Sync)). auto.
Qed.
Theorem C26_nstring : forall s,
  (many_of CHAR8 s -> exists v, nstring_from_bytes s = COk (Some v) /\ bytes_of_istring v = s) /\
  (forall b i, first_wrong CHAR8 s b i -> nstring_from_bytes s = CErr (VInvalidByteAt b i)).
Proof.
  intros s. unfold nstring_from_bytes. destruct (C26_istring s) as [H1 H2]. split.
  - intros H. destruct (H1 H) as (v & -> & E). exists v. now split.
  - intros b i H. now rewrite (H2 b i H).
Qed.
Theorem C26_astring : forall s,
  (many_of CHAR8 s -> exists a, astring_from_bytes s = COk a /\ bytes_of_astring a = s) /\
  (forall b i, first_wrong CHAR8 s b i -> astring_from_bytes s = CErr (VInvalidByteAt b i)).
Proof.
  intros s. destruct (astring_conv s) as (_ & _ & _ & H4). split; [| exact H4]. intros H.
  destruct (astring_cases s) as [[_ K] | (b & i & (l & r & -> & _ & _ & Hb) & _)]; [exact K |].
  exfalso. apply Forall_app in H as [_ H]. inversion H; subst; contradiction.
Qed.
(** Which of the forms is chosen: an atom if possible, else a quoted string, else a literal. *)
Theorem C26_astring_form : forall s,
  (some_of ASTRING_CHAR s -> astring_from_bytes s = COk (AAtom s)) /\
  (~ some_of ASTRING_CHAR s -> many_of TEXT_CHAR s ->
     astring_from_bytes s = COk (AString (IQuoted s))) /\
  (~ many_of TEXT_CHAR s -> many_of CHAR8 s ->
     astring_from_bytes s = COk (AString (ILiteral (mkLit s Sync)))).
Proof. intros s. destruct (astring_conv s) as (H1 & H2 & H3 & _). auto. Qed.
Theorem C26_charset : forall s,
  (many_of TEXT_CHAR s -> exists c, charset_from_bytes s = COk c /\ bytes_of_charset c = s) /\
  (forall b i, first_wrong TEXT_CHAR s b i -> charset_from_bytes s = CErr (VInvalidByteAt b i)).
Proof.
  intros s. destruct (charset_conv s) as (H1 & H2 & H3). split; [| exact H3]. intros H.
  destruct (converts_some_cases _ _ _ atom_conv s) as [[A _] | [A _]].
  - exists (CharsetAtom s). auto.
  - exists (CharsetQuoted s). auto.
Qed.
Theorem C26_list_mailbox : forall s,
  (many_of CHAR8 s -> exists m, list_mailbox_from_str s = COk m /\ bytes_of_list_mailbox m = s) /\
  (forall b i, first_wrong CHAR8 s b i -> list_mailbox_from_str s = CErr (VInvalidByteAt b i)).
Proof.
  intros s. destruct (list_mailbox_conv s) as (H0 & H1 & H2 & H3 & H4). split; [| exact H4]. intros H.
  destruct s as [| c s]; [exists (LMString (IQuoted [])); auto |].
  destruct (converts_some_cases _ _ _ list_char_conv (c :: s)) as [[A _] | [A _]].
  - exists (LMToken (c :: s)). auto.
  - destruct (converts_many_cases _ _ _ quoted_conv (c :: s)) as [[Q _] | [Q _]].
    + exists (LMString (IQuoted (c :: s))). split; [apply H2; auto; discriminate | reflexivity].
    + exists (LMString (ILiteral (mkLit (c :: s) Sync))). auto.
Qed.
(** [Vec1], [Vec2] *)
Theorem C26_vec_n : forall A n (l : list A),
  (n <= length l -> vec_n_from n l = COk l) /\
  (length l < n -> vec_n_from n l = CErr (VNotEnough n)).
Proof.
  intros A n l. unfold vec_n_from, validate_vec_n. destruct (Nat.ltb_spec (length l) n); split; intros; try lia; reflexivity.
Qed.
Print Assumptions C26_atom.
Print Assumptions C26_atom_ext.
Print Assumptions C26_tag.
Print Assumptions C26_text.
Print Assumptions C26_list_char_string.
Print Assumptions C26_quoted.
Print Assumptions C26_literal.
Print Assumptions C26_quoted_char.
Print Assumptions C26_istring.
Print Assumptions C26_nstring.
Print Assumptions C26_astring.
Print Assumptions C26_astring_form.
Print Assumptions C26_charset.
Print Assumptions C26_list_mailbox.
Print Assumptions C26_vec_n.
Example C26_example :
  atom_from_bytes (bs "abc") = COk (bs "abc") /\
  atom_from_bytes (bs "a]") = CErr (VInvalidByteAt "]"%byte 1) /\
  tag_from_bytes (bs "a]") = COk (bs "a]") /\ tag_from_bytes (bs "a+") = CErr (VInvalidByteAt "+"%byte 1) /\
  astring_from_bytes (bs "a b") = COk (AString (IQuoted (bs "a b"))) /\
  astring_from_bytes [bLF; xff] = COk (AString (ILiteral (mkLit [bLF; xff] Sync))) /\
  astring_from_bytes [x61; x00] = CErr (VInvalidByteAt x00 1) /\
  quoted_char_from 0x22 = COk 0x22%N /\ quoted_char_from 0x122 = CErr VInvalid.
Proof. repeat split. Qed.

(** ** C27: INBOX *)
Theorem C27_convert : forall s, many_of CHAR8 s ->
  exists m, mailbox_from_bytes s = COk m /\ names_mailbox s m.
Proof.
  intros s H. destruct (mailbox_conv s) as (H1 & H2 & _).
  destruct (proj1 (C26_astring s) H) as (a & Ea & Eb).
  destruct (eqi s (bs "inbox")) eqn:E.
  - assert (S0 : same_letters s (bs "inbox")).
    { apply same_letters_spec. unfold eqi in E. now apply beqs_eq in E. }
    exists MInbox. split; [now apply H1 | exact S0].
  - assert (S0 : ~ same_letters s (bs "inbox")).
    { intros S0. apply same_letters_spec in S0. unfold eqi in E. rewrite S0, beqs_refl in E. discriminate. }
    exists (MOther a). split; [now apply H2 | now split].
Qed.
Theorem C27_convert_error : forall s b i, first_wrong CHAR8 s b i ->
  mailbox_from_bytes s = CErr (VInvalidByteAt b i).
Proof. intros s. apply mailbox_conv. Qed.
(** A mailbox name is never both. *)
Theorem C27_unique : forall s t m m',
  mailbox_from_bytes s = COk m -> mailbox_from_bytes t = COk m' ->
  same_letters s (bs "inbox") -> (same_letters t (bs "inbox") <-> m = m').
Proof.
  intros s t m m' Hs Ht S0. destruct (mailbox_conv s) as (A & _ & _).
  destruct (mailbox_conv t) as (B & C & _). rewrite (A S0) in Hs. injection Hs as <-. split.
  - intros T. rewrite (B T) in Ht. now injection Ht as <-.
  - intros <-. destruct (eqi t (bs "inbox")) eqn:E.
    + apply same_letters_spec. now apply beqs_eq.
    + exfalso. assert (T : ~ same_letters t (bs "inbox")).
      { intros T. apply same_letters_spec in T. unfold eqi in E. rewrite T, beqs_refl in E. discriminate. }
      destruct (astring_cases t) as [[_ (a & Ea & _)] | (b & i & W & _)].
      * rewrite (C T a Ea) in Ht. discriminate.
      * destruct (mailbox_conv t) as (_ & _ & D). rewrite (D b i W) in Ht. discriminate.
Qed.
(** Every spelling is decoded to [Inbox], from an atom, a quoted string and a literal. *)
Section Inbox.
Context {F : features}.
Lemma select_inbox t a r : tag_ok t = true -> v_astring LExact a = true ->
  same_letters (bytes_of_astring a) (bs "inbox") ->
  decode_command (t ++ bSP :: dump (W (bs "SELECT ") ++ e_astring a) ++ bCR :: bLF :: r)
    = Decoded r (mkCommand t (CSelect MInbox [])).
Proof.
  intros T V S0. apply command_line; [exact T |]. apply P_select_any; [exact V |].
  assert (Eb : bytes_of_astring a = astring_bytes a) by (destruct a as [| [| | [? ?]]]; reflexivity).
  rewrite Eb in S0. unfold mailbox_from, eqi.
  rewrite (utf8_chars _ (same_letters_inbox_ascii _ S0)).
  apply same_letters_spec in S0. rewrite S0. reflexivity.
Qed.
Theorem C27_decode : forall tag s r, some_of TAG_CHAR tag -> same_letters s (bs "inbox") ->
  (forall form, In form [s; [bDQ] ++ s ++ [bDQ]; bs "{5}" ++ [bCR; bLF] ++ s; bs "{5+}" ++ [bCR; bLF] ++ s] ->
   decode_command (tag ++ bs " SELECT " ++ form ++ [bCR; bLF] ++ r)
     = Decoded r (mkCommand tag (CSelect MInbox []))).
Proof.
  intros tag s r T S0 form. apply tag_ok_spec in T.
  assert (K : forall a, v_astring LExact a = true -> bytes_of_astring a = s -> dump (e_astring a) = form ->
     decode_command (tag ++ bs " SELECT " ++ form ++ [bCR; bLF] ++ r)
     = Decoded r (mkCommand tag (CSelect MInbox []))).
  { intros a V E D. subst form s. pose proof (select_inbox tag a r T V S0) as L.
    rewrite dump_app, dump_W, <- app_assoc in L. exact L. }
  apply same_letters_spec in S0.
  assert (L5 : length s = 5).
  { apply (f_equal (@length byte)) in S0. unfold lowers in S0. rewrite !map_length in S0. exact S0. }
  assert (AE : atom_ext_ok s = true).
  { unfold atom_ext_ok. destruct s as [| c s]; [discriminate |].
    assert (Q : forall l, forallb is_astring_char (lowers l) = forallb is_astring_char l).
    { induction l as [| b l IH]; [reflexivity |]. cbn. f_equal; [| exact IH].
      revert b. apply byte_eqb. vm_compute. reflexivity. }
    rewrite <- Q, S0. reflexivity. }
  assert (QE : quoted_ok s = true).
  { apply quoted_ok_spec, some_ext_text. now apply atom_ext_ok_spec. }
  assert (EE : escape_quoted s = s).
  { symmetry. apply quoted_body_spec. apply atom_ext_ok_spec in AE as [_ A].
    clear - A. induction A as [| b l Hb A IH]; constructor; [| exact IH].
    rewrite <- is_quoted_specials_spec. apply is_astring_char_spec in Hb. revert b Hb.
    assert (Q : forall b, is_astring_char b = true -> negb (is_quoted_specials b) = true)
      by (apply byte_impl; vm_compute; reflexivity).
    intros b Hb E. apply Q in Hb. rewrite E in Hb. discriminate. }
  assert (LE : literal_ok s = true).
  { apply literal_ok_spec, text_char8, quoted_ok_spec. exact QE. }
  assert (V : forall m, v_astring LExact (AString (ILiteral (mkLit s m))) = true).
  { intros m. cbn. unfold v_literal. cbn [lit_data only_rt]. rewrite LE. unfold lenN. rewrite L5. reflexivity. }
  assert (D : forall m, dump (e_astring (AString (ILiteral (mkLit s m)))) = lit_header false m 5 ++ s).
  { intros m. cbn. unfold lenN. rewrite L5. change (N.of_nat 5) with 5%N. now rewrite app_nil_r. }
  intros [<- | [<- | [<- | [<- | []]]]].
  - apply (K (AAtom s)); auto. cbn [e_astring]. apply dump_W.
  - apply (K (AString (IQuoted s))); auto. cbn [e_astring e_istring]. unfold e_quoted.
    rewrite EE. change (dump (B bDQ :: ?x)) with (bDQ :: dump x). rewrite dump_app, dump_W. reflexivity.
  - apply (K (AString (ILiteral (mkLit s Sync)))); auto. apply D.
  - apply (K (AString (ILiteral (mkLit s NonSync)))); auto. apply D.
Qed.
End Inbox.
Print Assumptions C27_convert.
Print Assumptions C27_convert_error.
Print Assumptions C27_unique.
Print Assumptions C27_decode.
Example C27_example :
  mailbox_from_bytes (bs "iNbOx") = COk MInbox /\
  mailbox_from_bytes (bs "inbox ") = COk (MOther (AString (IQuoted (bs "inbox ")))) /\
  same_letters (bs "iNbOx") (bs "inbox").
Proof. repeat split. now apply same_letters_spec. Qed.

(** ** C31: continuation requests *)
Section Continuation.
Context {F : features}.
(** Whatever the constructor accepts is decoded again; with a code, the code has to be one that
    survives in front of this text (C10 says which). *)
Theorem C31_basic : forall c t x, continue_basic_new c t = Built (Some x) ->
  match c with Some c => v_code LDecoded other_name c t = true | None => True end ->
  x = CRBasic c t /\
  decodes_to encode_response decode_response (RContinue x) (w_response (RContinue x)).
Proof.
  intros c t x H Hc. unfold continue_basic_new in H.
  destruct (converts_some_cases _ _ _ text_conv t) as [[T E] | [_ [e E]]]; rewrite E in H; cbn [with_arg] in H; [| discriminate].
  apply text_ok_spec in T.
  assert (V : v_response LDecoded other_name (RContinue (CRBasic c t)) = true).
  { destruct c as [c |]; cbn [v_response v_continuation].
    - now rewrite T, Hc.
    - cbn [andb] in H. destruct (starts_with (bs "[") t); [discriminate |].
      destruct (b64_decode t); [discriminate |]. now rewrite T. }
  assert (x = CRBasic c t) as ->.
  { destruct c as [c |]; cbn [andb] in H; [congruence |].
    destruct (starts_with (bs "[") t); [discriminate |]. destruct (b64_decode t); [discriminate | congruence]. }
  split; [reflexivity |]. now apply C10_response.
Qed.
(** Without a code: accepted exactly if it is not ambiguous. *)
Theorem C31_basic_accepts : forall t,
  (some_of TEXT_CHAR t -> (forall r, t <> bs "[" ++ r) -> (forall p, ~ base64 p t) ->
     continue_basic_new None t = Built (Some (CRBasic None t))) /\
  (some_of TEXT_CHAR t -> (exists r, t = bs "[" ++ r) \/ (exists p, base64 p t) ->
     continue_basic_new None t = Built None) /\
  (~ some_of TEXT_CHAR t -> exists e, continue_basic_new None t = BadArg 0 e).
Proof.
  intros t. unfold continue_basic_new. cbn [andb].
  assert (S0 : starts_with (bs "[") t = true <-> exists r, t = bs "[" ++ r).
  { destruct t as [| b t].
    - split; [discriminate | intros (r & [=])].
    - unfold starts_with. rewrite beqs_eq. cbn. split; [intros [= ->]; now exists t | now intros (r & [= -> ->])]. }
  assert (S1 : match b64_decode t with Some _ => true | None => false end = true <-> exists p, base64 p t).
  { destruct (b64_decode t) as [p |] eqn:E.
    - split; [intros _ | reflexivity]. exists p. now apply base64_spec.
    - split; [discriminate | intros (p & Hp)]. apply base64_spec in Hp. congruence. }
  destruct (converts_some_cases _ _ _ text_conv t) as [[T E] | [T [e E]]]; rewrite E; cbn [with_arg].
  - repeat split; [intros _ H1 H2 | intros _ H | intros H; contradiction].
    + destruct (starts_with (bs "[") t); [exfalso; destruct (proj1 S0 eq_refl) as [r Hr]; now apply (H1 r) |].
      destruct (match b64_decode t with Some _ => true | None => false end);
        [exfalso; destruct (proj1 S1 eq_refl) as [p Hp]; now apply (H2 p) | reflexivity].
    + destruct H as [H | H].
      * now rewrite (proj2 S0 H).
      * rewrite (proj2 S1 H). now destruct (starts_with (bs "[") t).
  - repeat split; try (intros; contradiction). intros _. now exists e.
Qed.
Theorem C31_base64 : forall d,
  decodes_to encode_response decode_response (RContinue (continue_base64 d)) (RContinue (CRBase64 d)).
Proof. intros d. exact (C10_response (RContinue (CRBase64 d)) eq_refl eq_refl). Qed.
(** Whatever was decoded is accepted by the constructor. *)
Theorem C31_decoded : forall i rest c t, decode_response i = Decoded rest (RContinue (CRBasic c t)) ->
  continue_basic_new c t = Built (Some (CRBasic c t)).
Proof.
  intros i rest c t H. apply decoded_response_valid in H. cbn [v_response v_continuation] in H. unfold continue_basic_new.
  assert (T : text_ok t = true) by (destruct c; cbn [v_continuation] in H; rewrite ?andb_true_iff in H; tauto).
  apply text_ok_spec in T. rewrite (proj1 text_conv t T). cbn [with_arg].
  destruct c; [reflexivity |]. cbn [v_continuation] in H. rewrite !andb_true_iff, negb_true_iff in H. destruct H as [[_ H] H'].
  cbn [andb]. rewrite H. now destruct (b64_decode t).
Qed.
End Continuation.
Print Assumptions C31_basic.
Print Assumptions C31_basic_accepts.
Print Assumptions C31_base64.
Print Assumptions C31_decoded.
Example C31_example :
  continue_basic_new None (bs "Ready") = Built (Some (CRBasic None (bs "Ready"))) /\
  continue_basic_new None (bs "Read") = Built None /\ continue_basic_new None (bs "[a") = Built None /\
  continue_basic_new (Some CdAlert) (bs "Read") = Built (Some (CRBasic (Some CdAlert) (bs "Read"))) /\
  continue_basic_new None [] = BadArg 0 VEmpty.
Proof. repeat split. Qed.

(** ** C32: names *)

Lemma validate_atom_ok s : atom_ok s = true -> validate_atom s = COk tt.
Proof.
  intros H. apply atom_ok_spec in H. pose proof (proj1 atom_conv s H) as E. unfold atom_from_bytes in E.
  destruct (validate_atom s) as [[] | |]; [reflexivity | discriminate | discriminate].
Qed.
Lemma lower_bs b : lower b = bBS -> b = bBS.
Proof.
  intros H. destruct (beq_spec b bBS) as [E | E]; [exact E |]. exfalso.
  assert (K : forall b, (negb (beq (lower b) bBS) || beq b bBS)%bool = true)
    by (apply byte_forall; vm_compute; reflexivity).
  specialize (K b). rewrite H in K. cbn in K. apply beq_eq in K. contradiction.
Qed.
Lemma same_bs s l : same_letters s (bBS :: l) -> exists s', s = bBS :: s' /\ lowers s' = lowers l.
Proof.
  intros H. apply same_lowers in H. destruct s as [| c s]; [discriminate |]. cbn in H.
  injection H as Hc Hl. change (lower bBS) with bBS in Hc. apply lower_bs in Hc as ->. eauto.
Qed.
(** Known names are recognised in any letter case. *)
Theorem C32_known_names : forall s,
  (forall k, auth_known k -> same_letters s (auth_mechanism_str k) -> auth_mechanism_from s = k) /\
  (forall k, resource_known k -> same_letters s (resource_str k) -> resource_from s = k) /\
  (forall k, sort_known k -> same_letters s (sort_algorithm_str k) -> sort_algorithm_from s = k) /\
  (forall k, threading_known k -> same_letters s (threading_algorithm_str k) ->
     threading_algorithm_from s = k) /\
  (forall k, flag_known k -> same_letters s (flag_str k) -> flag_from_str s = COk k) /\
  (forall k, attribute_flag_known k -> same_letters s (attribute_flag_str k) ->
     attribute_flag_from_str s = COk k) /\
  (forall k, flag_name_known k -> same_letters (bBS :: s) (flag_name_attribute_str k) ->
     flag_name_attribute_from s = k).
Proof.
  intros s. repeat split.
  - intros k. apply auth_back.
  - intros k. apply resource_back.
  - intros k. apply sort_back.
  - intros k. apply threading_back.
  - intros k K H.
    assert (N : exists l, flag_str k = bBS :: l /\ atom_ok l = true)
      by (destruct k; try contradiction; eexists; split; reflexivity).
    destruct N as (l & El & Al). pose proof H as H'. rewrite El in H'. apply same_bs in H' as (s' & -> & E).
    cbn [flag_from_str]. change (beq bBS bBS) with true. cbv iota.
    rewrite validate_atom_ok by (now rewrite <- atom_ok_lowers, E, atom_ok_lowers).
    cbn [cmap cbind]. f_equal. now apply flag_sys_back.
  - intros k K H.
    assert (N : exists l, attribute_flag_str k = bBS :: bBS :: l /\ atom_ok l = true)
      by (destruct k; try contradiction; eexists; split; reflexivity).
    destruct N as (l & El & Al). pose proof H as H'. rewrite El in H'. apply same_bs in H' as (s' & -> & E).
    apply same_letters_spec in E. apply same_bs in E as (s1 & -> & E).
    cbn [attribute_flag_from_str]. change (beq bBS bBS && beq bBS bBS)%bool with true. cbv iota.
    rewrite validate_atom_ok by (now rewrite <- atom_ok_lowers, E, atom_ok_lowers).
    cbn [cmap cbind]. f_equal. now apply attribute_flag_sys_back.
  - intros k. apply flag_name_back.
Qed.
Theorem C32_known_capabilities : forall (F : features) s,
  (forall k, enable_known k -> same_letters s (capability_enable_str k) -> capability_enable_from s = k) /\
  (forall k, capability_known k -> same_letters s (capability_str k) -> capability_from s = k).
Proof. intros F s. split; intros k; [apply enable_back | apply capability_back]. Qed.
(** What is not known is kept as it is: ["Other"] holds exactly the text converted. *)
Theorem C32_other_keeps_text : forall (F : features) s a,
  (auth_mechanism_from s = AMOther a -> a = s) /\ (resource_from s = ROther a -> a = s) /\
  (sort_algorithm_from s = SAOther a -> a = s) /\ (threading_algorithm_from s = TAOther a -> a = s) /\
  (capability_enable_from s = CEOther a -> a = s) /\ (capability_from s = CapOther a -> a = s) /\
  (flag_from_str s = COk (FExtension a) -> s = bBS :: a) /\
  (flag_from_str s = COk (FKeyword a) -> s = a) /\
  (attribute_flag_from_str s = COk (AFExtension a) -> s = bBS :: bBS :: a) /\
  (attribute_flag_from_str s = COk (AFKeyword a) -> s = a) /\
  (flag_name_attribute_from s = FNExtension a -> a = s).
Proof.
  intros F s a.
  repeat match goal with |- _ /\ _ => split end;
    [apply auth_other | apply resource_other | apply sort_other | apply threading_other
    | apply enable_other | apply capability_other | | | | | apply flag_name_ext].
  - unfold flag_from_str. destruct s as [| c s]; [discriminate |]. destruct (beq_spec c bBS) as [-> |].
    + destruct (validate_atom s); try discriminate. cbn. intros [= E]. apply flag_ext in E as ->. reflexivity.
    + destruct (validate_atom (c :: s)); discriminate.
  - unfold flag_from_str. destruct s as [| c s]; [discriminate |]. destruct (beq_spec c bBS) as [-> |].
    + destruct (validate_atom s); try discriminate. cbn. intros [= E]. exfalso. revert E.
      unfold flag_system. repeat match goal with |- context [if ?b then _ else _] => destruct b end; discriminate.
    + destruct (validate_atom (c :: s)); try discriminate. cbn. now intros [= <-].
  - unfold attribute_flag_from_str. destruct s as [| c [| d s]]; try discriminate.
    { destruct (validate_atom [c]); discriminate. }
    destruct (beq_spec c bBS) as [-> |]; [destruct (beq_spec d bBS) as [-> |] |]; cbn [andb].
    + destruct (validate_atom s); try discriminate. cbn. intros [= E]. apply attribute_flag_ext in E as ->. reflexivity.
    + destruct (validate_atom _); discriminate.
    + destruct (validate_atom _); discriminate.
  - unfold attribute_flag_from_str. destruct s as [| c [| d s]]; try discriminate.
    { destruct (validate_atom [c]); try discriminate. cbn. now intros [= <-]. }
    destruct (beq_spec c bBS) as [-> |]; [destruct (beq_spec d bBS) as [-> |] |]; cbn [andb].
    + destruct (validate_atom s); try discriminate. cbn. intros [= E]. exfalso. revert E.
      unfold attribute_flag_system. repeat match goal with |- context [if ?b then _ else _] => destruct b end; discriminate.
    + destruct (validate_atom _); try discriminate. cbn. now intros [= <-].
    + destruct (validate_atom _); try discriminate. cbn. now intros [= <-].
Qed.
(** Hence an ["Other"] value that a conversion returns is no spelling of a known name. *)
Theorem C32_other_not_known : forall (F : features) s a,
  (auth_mechanism_from s = AMOther a -> forall k, auth_known k -> ~ same_letters a (auth_mechanism_str k)) /\
  (resource_from s = ROther a -> forall k, resource_known k -> ~ same_letters a (resource_str k)) /\
  (sort_algorithm_from s = SAOther a -> forall k, sort_known k -> ~ same_letters a (sort_algorithm_str k)) /\
  (threading_algorithm_from s = TAOther a ->
     forall k, threading_known k -> ~ same_letters a (threading_algorithm_str k)) /\
  (capability_enable_from s = CEOther a ->
     forall k, enable_known k -> ~ same_letters a (capability_enable_str k)) /\
  (capability_from s = CapOther a -> forall k, capability_known k -> ~ same_letters a (capability_str k)) /\
  (flag_from_str s = COk (FExtension a) -> forall k, flag_known k -> ~ same_letters (bBS :: a) (flag_str k)) /\
  (attribute_flag_from_str s = COk (AFExtension a) ->
     forall k, attribute_flag_known k -> ~ same_letters (bBS :: bBS :: a) (attribute_flag_str k)) /\
  (flag_name_attribute_from s = FNExtension a ->
     forall k, flag_name_known k -> ~ same_letters (bBS :: a) (flag_name_attribute_str k)).
Proof.
  intros F s a. destruct (C32_other_keeps_text F s a) as (H1 & H2 & H3 & H4 & H5 & H6 & H7 & _ & H8 & _ & H9).
  repeat match goal with |- _ /\ _ => split end; intros H k K S0.
  - pose proof (H1 H) as ->. rewrite (auth_back k s K S0) in H. now subst k.
  - pose proof (H2 H) as ->. rewrite (resource_back k s K S0) in H. now subst k.
  - pose proof (H3 H) as ->. rewrite (sort_back k s K S0) in H. now subst k.
  - pose proof (H4 H) as ->. rewrite (threading_back k s K S0) in H. now subst k.
  - pose proof (H5 H) as ->. rewrite (enable_back k s K S0) in H. now subst k.
  - pose proof (H6 H) as ->. rewrite (capability_back k s K S0) in H. now subst k.
  - pose proof (H7 H) as ->. destruct (C32_known_names (bBS :: a)) as (_ & _ & _ & _ & B & _ & _).
    rewrite (B k K S0) in H. injection H as ->. contradiction.
  - pose proof (H8 H) as ->. destruct (C32_known_names (bBS :: bBS :: a)) as (_ & _ & _ & _ & _ & B & _).
    rewrite (B k K S0) in H. injection H as ->. contradiction.
  - pose proof (H9 H) as ->. rewrite (flag_name_back k s K S0) in H. now subst k.
Qed.
(** The variants excluded from [.._known] are indeed printed in a form no conversion reads. *)
Theorem C32_sha3_refuted :
  auth_mechanism_from (auth_mechanism_str AMScramSha3_512) = AMOther (bs "SCRAM-SHA3-512") /\
  auth_mechanism_from (auth_mechanism_str AMScramSha3_512Plus) = AMOther (bs "SCRAM-SHA3-512-PLUS").
Proof. split; reflexivity. Qed.
Theorem C32_namespace_refuted : forall F : features,
  capability_from (capability_str CapNamespace) = CapOther (bs "NAMESPACE").
Proof. intros F. rewrite capability_fixed. destruct F. vm_compute. reflexivity. Qed.
Print Assumptions C32_known_names.
Print Assumptions C32_known_capabilities.
Print Assumptions C32_other_keeps_text.
Print Assumptions C32_other_not_known.
Print Assumptions C32_sha3_refuted.
Print Assumptions C32_namespace_refuted.
Example C32_example :
  same_letters (bs "scram-sha-1") (auth_mechanism_str AMScramSha1) /\
  auth_mechanism_from (bs "x-own") = AMOther (bs "x-own") /\
  flag_from_str (bs "\sEEN") = COk FSeen /\ flag_from_str (bs "\x") = COk (FExtension (bs "x")) /\
  @capability_from default_features (bs "auth=plain") = CapAuth AMPlain.
Proof. repeat split. now apply same_letters_spec. Qed.

(** ** C33: base64 *)
Theorem C33_encode : forall p, base64 p (b64_encode p).
Proof. exact base64_encode. Qed.
Theorem C33_decode : forall p t, b64_decode t = Some p <-> base64 p t.
Proof. intros p t. symmetry. apply base64_spec. Qed.
Theorem C33_canonical : forall p t t', base64 p t -> base64 p t' -> t = t'.
Proof. intros p t t' H H'. exact (base64_inj p t' H' t H). Qed.
Theorem C33_function : forall p p' t, base64 p t -> base64 p' t -> p = p'.
Proof. intros p p' t H H'. apply base64_spec in H, H'. congruence. Qed.
Section Base64Api.
Context {F : features}.
(** Texts with the base64 of [p] are read as [p], as authenticate data and continuation. *)
Theorem C33_read : forall p t r, base64 p t ->
  decode_authenticate_data (t ++ [bCR; bLF] ++ r) = Decoded r (ADContinue p) /\
  decode_response (bs "+ " ++ t ++ [bCR; bLF] ++ r) = Decoded r (RContinue (CRBase64 p)).
Proof.
  intros p t r H. apply base64_spec, b64_decode_encode in H as ->. split.
  - pose proof (C12_authenticate_data (ADContinue p) r) as D. unfold encode_authenticate_data in D.
    rewrite dump_fragments_eq in D. cbn [e_authenticate_data] in D. rewrite dump_app, dump_W in D.
    rewrite <- app_assoc in D. exact D.
  - pose proof (C31_base64 p r) as D. unfold encode_response, continue_base64 in D. rewrite dump_fragments_eq in D.
    cbn [e_response e_continuation] in D. rewrite !dump_app, !dump_W in D.
    rewrite <- !app_assoc in D. exact D.
Qed.
End Base64Api.
Print Assumptions C33_encode.
Print Assumptions C33_decode.
Print Assumptions C33_canonical.
Print Assumptions C33_function.
Print Assumptions C33_read.
Example C33_example :
  base64 (bs "foob") (bs "Zm9vYg==") /\ b64_decode (bs "Zm9vYg==") = Some (bs "foob") /\
  b64_decode (bs "Zm9vYh==") = None /\ b64_decode (bs "Zm9vYg") = None.
Proof. split; [now apply base64_spec |]. repeat split. Qed.

(** ** C34: dates *)
Section Dates.
Context {F : features}.
Ltac ands := repeat match goal with H : (_ && _)%bool = true |- _ => apply andb_true_iff in H as [? ?] end.
Lemma search_dates lv : forall k, v_search_tree lv k = true -> Forall real_date (dates_of_search_key k).
Proof.
  fix IH 1. intros k. destruct k; cbn [v_search_tree dates_of_search_key]; intros V;
    try (apply Forall_nil); try (apply Forall_cons; [now apply v_date_spec | apply Forall_nil]).
  - apply andb_true_iff in V as [_ V]. revert V. clear - IH.
    match goal with |- forallb _ ?l = true -> _ => induction l as [| k l IHl] end; cbn; intros V; [constructor |].
    apply andb_true_iff in V as [V1 V2]. apply Forall_app. split; [now apply IH | now apply IHl].
  - now apply IH.
  - apply andb_true_iff in V as [V1 V2]. apply Forall_app. split; now apply IH.
Qed.
Lemma keys_dates l : v1 (v_search_key LDecoded) l = true -> Forall real_date (flat_map dates_of_search_key l).
Proof.
  intros H. apply v1_forallb in H. rewrite forallb_forall in H. apply Forall_forall. intros d Hd.
  apply in_flat_map in Hd as (k & Hk & Hd). specialize (H _ Hk). unfold v_search_key in H.
  apply andb_true_iff in H as [H _]. apply search_dates in H. rewrite Forall_forall in H. auto.
Qed.
(** Only real dates and times are decoded. *)
Theorem C34_decoded_dates : forall i r c, decode_command i = Decoded r c ->
  Forall real_date (dates_of_command c) /\ Forall real_date_time (times_of_command c).
Proof.
  intros i r c H. apply decoded_command_valid in H. unfold v_command in H.
  apply andb_true_iff in H as [_ H]. unfold dates_of_command, times_of_command.
  destruct (cmd_body c);
    cbn [v_command_body] in H; split; try apply Forall_nil; ands; try (now apply keys_dates).
  destruct date as [t |]; [| constructor]. constructor; [now apply v_date_time_spec | constructor].
Qed.
Theorem C34_decoded_times : forall i r m, decode_response i = Decoded r m ->
  Forall real_date_time (times_of_response m).
Proof.
  intros i r m H. apply decoded_response_valid in H. destruct m as [| d |]; try apply Forall_nil.
  destruct d; try apply Forall_nil. cbn [v_response v_data times_of_response] in *. ands.
  match goal with H : v1 _ _ = true |- _ => apply v1_forallb in H; rewrite forallb_forall in H; rename H into K end.
  apply Forall_forall. intros t Ht. apply in_flat_map in Ht as (x & Hx & Ht). specialize (K _ Hx).
  destruct x; try contradiction. destruct Ht as [<- | []]. now apply v_date_time_spec.
Qed.
(** Every real date, time and offset survives. *)
Theorem C34_date_survives : forall tag d, some_of TAG_CHAR tag -> real_date d ->
  forall k, In k [KBefore d; KOn d; KSince d; KSentBefore d; KSentOn d; KSentSince d] ->
  let c := mkCommand tag (CSearch None [k] false) in decodes_to encode_command decode_command c c.
Proof.
  intros tag d T D k Hk. apply tag_ok_spec in T. apply v_date_spec in D. cbv zeta.
  apply C09_command_exact. unfold v_command. cbn [cmd_tag cmd_body v_command_body vopt]. rewrite T.
  repeat destruct Hk as [<- | Hk]; [.. | contradiction];
    unfold v1, v_search_key; cbn [nonempty forallb andb v_search_tree]; rewrite D; reflexivity.
Qed.
Theorem C34_time_survives : forall tag t, some_of TAG_CHAR tag -> real_date_time t ->
  let c := mkCommand tag (CAppend MInbox [] (Some t) (LLiteral (mkLit (bs "x") Sync))) in
  decodes_to encode_command decode_command c c.
Proof.
  intros tag t T D. apply tag_ok_spec in T. apply v_date_time_spec in D. cbv zeta.
  apply C09_command_exact. unfold v_command. cbn [cmd_tag cmd_body v_command_body vopt v_mailbox]. now rewrite T, D.
Qed.
Theorem C34_internal_date_survives : forall n t, (0 < n <= u32_max)%N -> real_date_time t ->
  let m := RData (DFetch n [MDInternalDate t]) in decodes_to encode_response decode_response m m.
Proof.
  intros n t L D. apply v_date_time_spec in D. cbv zeta.
  apply (C10_response (RData (DFetch n [MDInternalDate t]))); [| reflexivity].
  cbn [v_response v_data]. unfold v1. cbn [nonempty forallb v_message_data_item andb]. rewrite D. unfold v_nz32.
  destruct (N.eqb_spec n 0) as [-> |]; [lia |]. destruct (N.leb_spec n u32_max); [reflexivity | lia].
Qed.
End Dates.
(** The constructors refuse exactly what cannot be written. *)
Theorem C34_validate : forall year nanos offset,
  (validate_date_time year nanos offset = None <->
   (0 <= year <= 9999)%Z /\ nanos = 0%N /\ exists k, offset = (60 * k)%Z) /\
  (validate_naive_date year = None <-> (0 <= year <= 9999)%Z).
Proof.
  intros y n o. unfold validate_date_time, validate_naive_date.
  assert (Y : (Z.leb 0 y && Z.leb y 9999)%bool = true <-> (0 <= y <= 9999)%Z)
    by (rewrite andb_true_iff, !Z.leb_le; reflexivity).
  assert (O : Z.eqb (Z.rem o 60) 0 = true <-> exists k, o = (60 * k)%Z).
  { rewrite Z.eqb_eq, Z.rem_divide by lia. split; intros [z ->]; exists z; lia. }
  destruct (Z.leb 0 y && Z.leb y 9999)%bool; cbn [negb].
  - destruct (N.eqb_spec n 0) as [-> | Hn]; cbn [negb].
    + destruct (Z.eqb (Z.rem o 60) 0); cbn [negb]; intuition (try discriminate; auto).
    + intuition (try discriminate; try contradiction).
  - intuition (try discriminate; try contradiction).
Qed.
Print Assumptions C34_decoded_dates.
Print Assumptions C34_decoded_times.
Print Assumptions C34_date_survives.
Print Assumptions C34_time_survives.
Print Assumptions C34_internal_date_survives.
Print Assumptions C34_validate.
Example C34_example :
  real_date (mkDate 2000 2 29) /\ ~ real_date (mkDate 1900 2 29) /\
  real_date_time (mkDateTime (mkDate 2024 12 31) 23 59 59 (-12600)) /\
  dump_fragments (@encode_command default_features
    (mkCommand (bs "a") (CSearch None [KBefore (mkDate 2000 2 29)] false))) =
    bs "a SEARCH BEFORE " ++ [bDQ] ++ bs "29-Feb-2000" ++ [bDQ; bCR; bLF].
Proof.
  split; [now apply v_date_spec |]. split; [intros H; apply v_date_spec in H; discriminate |].
  split; [now apply v_date_time_spec | reflexivity].
Qed.

(** ** C35: numbers *)
Theorem C35_digits : forall max i r n, p_digits max i = ROk r n <->
  exists d, i = d ++ r /\ d <> [] /\ digits d n /\ (n <= max)%N /\
    exists b r', r = b :: r' /\ ~ (0x30 <= bN b <= 0x39)%N.
Proof.
  intros max i r n. split.
  - intros H. apply bind_inv in H as (r1 & s & H1 & H).
    apply bind_inv in H1 as (r2 & s' & H1 & H2). apply take_while1_inv in H1 as (-> & N & D & b & r' & Er & Hb).
    destruct (utf8_ok s'); [| discriminate]. injection H2 as <- <-.
    destruct (parse_max max s') as [m |] eqn:E; [| discriminate]. injection H as <- <-.
    apply parse_max_some in E as (_ & _ & E & L). exists s'. repeat split; auto.
    + now apply digits_spec.
    + exists b, r'. split; [exact Er |]. rewrite <- is_digit_spec. congruence.
  - intros (d & -> & N & D & L & b & r' & -> & Hb).
    pose proof (P_full _ _ _ _ (P_digits max d n N D L) (b :: r')) as E. rewrite dump_W in E. apply E.
    cbn. destruct (is_digit b) eqn:K; [| reflexivity]. apply is_digit_spec in K. contradiction.
Qed.
Section Numbers.
Context {F : features}.
Theorem C35_number : p_number = p_digits u32_max /\ p_number64 = p_digits u64_max /\
  p_nz_number = map_res (p_digits u32_max) nonzero /\
  p_mod_sequence_value = map_res (p_digits u64_max) nonzero.
Proof. repeat split. Qed.
(** A count: any number of digits, up to 2^32-1, and nothing above. *)
Theorem C35_exists : forall d n r, d <> [] -> digits d n ->
  decode_response (bs "* " ++ d ++ bs " EXISTS" ++ [bCR; bLF] ++ r) =
    if (n <=? u32_max)%N then Decoded r (RData (DExists n)) else Error RspFailed.
Proof.
  intros d n r N D. pose proof (dump_app (W d) (W (bs " EXISTS"))) as E. rewrite !dump_W in E.
  destruct (N.leb_spec n u32_max) as [L | L].
  - pose proof (response_line _ _ r (P_exists d n N D L)) as H. rewrite E, <- !app_assoc in H. exact H.
  - pose proof (response_line_error _ r (Rj_exists d n N D L)) as H. rewrite E, <- !app_assoc in H. exact H.
Qed.
(** A sequence number: not zero. *)
Theorem C35_expunge : forall d n r, d <> [] -> digits d n ->
  decode_response (bs "* " ++ d ++ bs " EXPUNGE" ++ [bCR; bLF] ++ r) =
    if ((0 <? n) && (n <=? u32_max))%N%bool then Decoded r (RData (DExpunge n)) else Error RspFailed.
Proof.
  intros d n r N D. pose proof (dump_app (W d) (W (bs " EXPUNGE"))) as E. rewrite !dump_W in E.
  destruct (N.ltb_spec 0 n) as [Z | Z]; [destruct (N.leb_spec n u32_max) as [L | L] |]; cbn [andb].
  - pose proof (response_line _ _ r (P_expunge d n N D (conj Z L))) as H. rewrite E, <- !app_assoc in H. exact H.
  - pose proof (response_line_error _ r (Rj_expunge d n N D (or_intror L))) as H. rewrite E, <- !app_assoc in H. exact H.
  - assert (n = 0%N) as -> by lia.
    pose proof (response_line_error _ r (Rj_expunge d 0 N D (or_introl eq_refl))) as H. rewrite E, <- !app_assoc in H. exact H.
Qed.
(** The length of an announced literal. *)
Theorem C35_literal_length : forall tag d n (m : lit_mode), some_of TAG_CHAR tag -> d <> [] -> digits d n ->
  decode_command (tag ++ bs " CREATE {" ++ d ++ match m with Sync => [] | NonSync => bs "+" end ++ bs "}" ++ [bCR; bLF]) =
    Error (if (n <=? u32_max)%N then CmdLiteralFound tag n m else CmdFailed).
Proof.
  intros t d n m T N D. apply tag_ok_spec in T. exact (create_announced t d n m T N D).
Qed.
End Numbers.
Print Assumptions C35_digits.
Print Assumptions C35_number.
Print Assumptions C35_exists.
Print Assumptions C35_expunge.
Print Assumptions C35_literal_length.
Example C35_example :
  digits (bs "004294967295") 4294967295 /\
  @decode_response default_features (bs "* 004294967295 EXISTS" ++ [bCR; bLF]) = Decoded [] (RData (DExists 4294967295)) /\
  @decode_response default_features (bs "* 4294967296 EXISTS" ++ [bCR; bLF]) = Error RspFailed /\
  @decode_response default_features (bs "* 0 EXPUNGE" ++ [bCR; bLF]) = Error RspFailed.
Proof. split; [now apply digits_spec | repeat split; vm_compute; reflexivity]. Qed.

(** ** C37: tags *)

(** [debug]: whether debug assertions are on (the tag then has no random token). A program may
    create 2^64 generators and take 2^64 tags from each of them. *)
Theorem C37_unique : forall debug l,
  only_existing 0 l -> debug = true \/ tokens_alnum l ->
  (count_events creates l <= 2 ^ 64)%N -> (forall i, (count_events (uses i) l <= 2 ^ 64)%N) ->
  exists w, tag_run debug tag_start l = Some w /\
    NoDup (tw_tags w) /\ Forall (some_of TAG_CHAR) (tw_tags w) /\
    N.of_nat (length (tw_tags w)) = count_events (fun e => negb (creates e)) l.
Proof.
  intros debug l E T C U.
  destruct (inv_run debug l 0 (fun _ => 0%N) tag_start (inv_start debug) E T) as (w & n & c & R & HI).
  - exact C.
  - intros i. cbn. apply U.
  - exists w. split; [exact R |]. split; [apply (i_nodup _ _ _ _ HI) |]. split.
    + apply Forall_forall. intros t Ht. now destruct (i_tags _ _ _ _ HI t Ht).
    + now rewrite (run_length _ _ _ _ R).
Qed.
(** The bound is needed: after 2^64 tags a generator starts again. *)
Theorem C37_wraps : forall g token,
  let w := mkWorld 1 [mkGen g u64_max] [] in
  option_map tw_tags (tag_run true w [TGenerate 0 token; TGenerate 0 token])
    = Some [dec g ++ bs "." ++ dec u64_max; dec g ++ bs "." ++ dec 0].
Proof.
  intros g token. cbn [tag_run tag_step tw_gens nth_error tw_tags tw_count].
  assert (V : forall c, tag_ok (tag_text true (mkGen g c) token) = true)
    by (intros c; apply tag_ok_spec, tag_text_valid; now left).
  rewrite !V. cbn [andb negb tag_run tag_step tw_gens nth_error replace_nth tw_tags tw_count tg_global tg_counter].
  rewrite !V. reflexivity.
Qed.
Print Assumptions C37_unique.
Print Assumptions C37_wraps.
Definition ex_threads : list tag_event :=
  [TNew; TGenerate 0 (bs "aZ"); TNew; TGenerate 1 (bs "aZ"); TGenerate 0 (bs "aZ"); TGenerate 1 (bs "b9")].
Example C37_example :
  only_existing 0 ex_threads /\ tokens_alnum ex_threads /\
  option_map tw_tags (tag_run false tag_start ex_threads)
    = Some [bs "0.0.aZ"; bs "1.0.aZ"; bs "0.1.aZ"; bs "1.1.b9"].
Proof.
  assert (A : forall b, inb 0x61 0x7a b || inb 0x41 0x5a b || inb 0x30 0x39 b = true -> ALNUM b).
  { intros b H. unfold ALNUM. rewrite !orb_true_iff, !inb_spec in H. tauto. }
  split; [cbn; auto 10 |]. split; [| reflexivity].
  cbn [tokens_alnum ex_threads]. repeat split; repeat (apply Forall_cons; [now apply A |]); apply Forall_nil.
Qed.

(** ** C42: byte strings are printed readably and unambiguously *)
Theorem C42_printable : forall s, Forall (fun b => (0x20 <= bN b <= 0x7e)%N) (escape_byte_string s).
Proof. exact escape_printable. Qed.
Theorem C42_injective : forall s t, escape_byte_string s = escape_byte_string t -> s = t.
Proof. exact escape_inj. Qed.
Print Assumptions C42_printable.
Print Assumptions C42_injective.
Example C42_example : escape_byte_string [x61; x00; bDQ; bBS; bLF; xff] = bs "a\x00\" ++ [bDQ] ++ bs "\\\n\xff".
Proof. reflexivity. Qed.

(** ** C43: commands and responses built from plain strings *)
Section Build.
Context {F : features}.
Notation fits s := (lenN s <= u32_max)%N.
Lemma astring_built s : many_of CHAR8 s -> fits s ->
  exists a, astring_from_bytes s = COk a /\ bytes_of_astring a = s /\ v_astring LExact a = true.
Proof.
  intros H L. destruct (proj1 (C26_astring s) H) as (a & Ea & Eb). exists a. repeat split; auto.
  destruct (C26_astring_form s) as (A1 & A2 & A3).
  destruct (converts_some_cases _ _ _ atom_ext_conv s) as [[A _] | [A _]].
  { rewrite (A1 A) in Ea. injection Ea as <-. now apply atom_ext_ok_spec. }
  destruct (converts_many_cases _ _ _ quoted_conv s) as [[Q _] | [Q _]].
  { rewrite (A2 A Q) in Ea. injection Ea as <-. now apply quoted_ok_spec. }
  rewrite (A3 Q H) in Ea. injection Ea as <-. cbn. unfold v_literal. cbn [lit_data only_rt].
  rewrite (proj2 (literal_ok_spec s) H). now apply N.leb_le.
Qed.
Lemma mailbox_built s : many_of CHAR8 s -> fits s ->
  exists m, mailbox_from_bytes s = COk m /\ names_mailbox s m /\ v_mailbox LExact m = true.
Proof.
  intros H L. destruct (C27_convert s H) as (m & Em & Nm). exists m. repeat split; auto.
  destruct m as [| a]; [reflexivity |]. destruct Nm as [Eb Ni].
  destruct (astring_built s H L) as (a' & Ea & Eb' & V). destruct (mailbox_conv s) as (_ & M & _).
  rewrite (M Ni a' Ea) in Em. injection Em as ->. cbn. rewrite V. cbn. unfold mailbox_other_ok.
  assert (E : bytes_of_astring a = astring_bytes a) by (destruct a as [| [| | [? ?]]]; reflexivity).
  rewrite <- E, Eb. destruct (eqi s (bs "inbox")) eqn:Q; [| reflexivity].
  exfalso. apply Ni, same_letters_spec. now apply beqs_eq.
Qed.
Lemma list_mailbox_built s : many_of CHAR8 s -> fits s ->
  exists m, list_mailbox_from_str s = COk m /\ bytes_of_list_mailbox m = s /\ v_list_mailbox LExact m = true.
Proof.
  intros H L. destruct (list_mailbox_conv s) as (H0 & H1 & H2 & H3 & _).
  destruct s as [| c s]; [exists (LMString (IQuoted [])); auto |].
  destruct (converts_some_cases _ _ _ list_char_conv (c :: s)) as [[A _] | [A _]].
  - exists (LMToken (c :: s)). repeat split; auto. now apply list_char_string_ok_spec.
  - destruct (converts_many_cases _ _ _ quoted_conv (c :: s)) as [[Q _] | [Q _]].
    + exists (LMString (IQuoted (c :: s))). repeat split; [apply H2; auto; discriminate |]. now apply quoted_ok_spec.
    + exists (LMString (ILiteral (mkLit (c :: s) Sync))). repeat split; auto. cbn. unfold v_literal. cbn [lit_data only_rt].
      rewrite (proj2 (literal_ok_spec _) H). now apply N.leb_le.
Qed.
Definition then_tag (tag : bytes) (b : built command_body) : built command :=
  match b with Built b => command_new tag b | BadArg i e => BadArg i e | BuildPanic => BuildPanic end.
Definition sent (c : command) : Prop := decodes_to encode_command decode_command c c.
Lemma tagged tag b : some_of TAG_CHAR tag -> v_command_body LExact b = true ->
  command_new tag b = Built (mkCommand tag b) /\ sent (mkCommand tag b).
Proof.
  intros T V. unfold command_new. rewrite (proj1 tag_conv tag T). split; [reflexivity |].
  apply C09_command_exact. unfold v_command. cbn [cmd_tag cmd_body]. rewrite V. apply andb_true_iff. split; [| reflexivity].
  now apply tag_ok_spec.
Qed.
(** LOGIN: built, with the bytes given, and decoded back. *)
Theorem C43_login : forall tag u p, some_of TAG_CHAR tag ->
  many_of CHAR8 u -> many_of CHAR8 p -> fits u -> fits p ->
  exists a b, then_tag tag (cb_login u p) = Built (mkCommand tag (CLogin a b)) /\
    bytes_of_astring a = u /\ bytes_of_astring b = p /\ sent (mkCommand tag (CLogin a b)).
Proof.
  intros tag u p T Hu Hp Lu Lp. destruct (astring_built u Hu Lu) as (a & Ea & Ba & Va).
  destruct (astring_built p Hp Lp) as (b & Eb & Bb & Vb). exists a, b.
  unfold cb_login. rewrite Ea, Eb. cbn [with_arg then_tag].
  destruct (tagged tag (CLogin a b) T) as [-> S0]; [| auto]. cbn. now rewrite Va, Vb.
Qed.
(** The wrong argument is named. *)
Theorem C43_login_error : forall u p b i,
  (first_wrong CHAR8 u b i -> cb_login u p = BadArg 0 (VInvalidByteAt b i)) /\
  (many_of CHAR8 u -> first_wrong CHAR8 p b i -> cb_login u p = BadArg 1 (VInvalidByteAt b i)).
Proof.
  intros u p b i. unfold cb_login. split.
  - intros H. now rewrite (proj2 (C26_astring u) b i H).
  - intros Hu H. destruct (proj1 (C26_astring u) Hu) as (a & -> & _). cbn [with_arg].
    now rewrite (proj2 (C26_astring p) b i H).
Qed.
(** The commands with one mailbox *)
Theorem C43_mailbox : forall tag s, some_of TAG_CHAR tag -> many_of CHAR8 s -> fits s ->
  exists m, names_mailbox s m /\ forall make build, In (make, build)
    [(cb_select, fun m => CSelect m []); (cb_examine, fun m => CExamine m []); (cb_create, CCreate);
     (cb_delete, CDelete); (cb_subscribe, CSubscribe); (cb_unsubscribe, CUnsubscribe);
     (cb_get_quota_root, CGetQuotaRoot)] ->
    then_tag tag (make s) = Built (mkCommand tag (build m)) /\ sent (mkCommand tag (build m)).
Proof.
  intros tag s T H L. destruct (mailbox_built s H L) as (m & Em & Nm & Vm). exists m. split; [exact Nm |].
  intros make build Hin.
  repeat destruct Hin as [Hin | Hin]; try contradiction; injection Hin as <- <-;
    unfold cb_select, cb_examine, cb_create, cb_delete, cb_subscribe, cb_unsubscribe, cb_get_quota_root, cb_mailbox;
    rewrite Em; cbn [with_arg then_tag]; apply tagged; auto; cbn [v_command_body]; rewrite Vm;
    try reflexivity; unfold v_gated; cbn; now rewrite orb_true_r.
Qed.
Theorem C43_rename : forall tag s t, some_of TAG_CHAR tag ->
  many_of CHAR8 s -> many_of CHAR8 t -> fits s -> fits t ->
  exists a b, then_tag tag (cb_rename s t) = Built (mkCommand tag (CRename a b)) /\
    names_mailbox s a /\ names_mailbox t b /\ sent (mkCommand tag (CRename a b)).
Proof.
  intros tag s t T Hs Ht Ls Lt. destruct (mailbox_built s Hs Ls) as (a & Ea & Na & Va).
  destruct (mailbox_built t Ht Lt) as (b & Eb & Nb & Vb). exists a, b.
  unfold cb_rename. rewrite Ea, Eb. cbn [with_arg then_tag].
  destruct (tagged tag (CRename a b) T) as [-> S0]; [| auto]. cbn [v_command_body]. now rewrite Va, Vb.
Qed.
Theorem C43_list : forall tag s t, some_of TAG_CHAR tag ->
  many_of CHAR8 s -> many_of CHAR8 t -> fits s -> fits t ->
  exists a b, names_mailbox s a /\ bytes_of_list_mailbox b = t /\
    then_tag tag (cb_list s t) = Built (mkCommand tag (CList a b)) /\ sent (mkCommand tag (CList a b)) /\
    then_tag tag (cb_lsub s t) = Built (mkCommand tag (CLsub a b)) /\ sent (mkCommand tag (CLsub a b)).
Proof.
  intros tag s t T Hs Ht Ls Lt. destruct (mailbox_built s Hs Ls) as (a & Ea & Na & Va).
  destruct (list_mailbox_built t Ht Lt) as (b & Eb & Nb & Vb). exists a, b.
  unfold cb_list, cb_lsub. rewrite Ea, Eb. cbn [with_arg then_tag].
  destruct (tagged tag (CList a b) T) as [-> S0]; [cbn [v_command_body]; now rewrite Va, Vb |].
  destruct (tagged tag (CLsub a b) T) as [-> S1]; [cbn [v_command_body]; now rewrite Va, Vb |]. auto 10.
Qed.
(** APPEND: the message is kept byte for byte. *)
Theorem C43_append : forall tag s flags date msg, some_of TAG_CHAR tag ->
  many_of CHAR8 s -> fits s -> many_of CHAR8 msg -> fits msg ->
  Forall (fun f => v_flag f = true) flags -> match date with Some t => real_date_time t | None => True end ->
  exists m, names_mailbox s m /\
    let c := mkCommand tag (CAppend m flags date (LLiteral (mkLit msg Sync))) in
    then_tag tag (cb_append s flags date msg) = Built c /\ sent c.
Proof.
  intros tag s flags date msg T Hs Ls Hm Lm Hf Hd. destruct (mailbox_built s Hs Ls) as (a & Ea & Na & Va).
  exists a. split; [exact Na |]. cbv zeta. unfold cb_append. rewrite Ea, (proj1 literal_conv msg Hm). cbn [with_arg then_tag].
  apply tagged; [exact T |]. cbn [v_command_body]. rewrite Va. cbn [andb].
  assert (forallb v_flag flags = true) as -> by (rewrite forallb_forall; rewrite Forall_forall in Hf; exact Hf).
  assert (vopt v_date_time date = true) as -> by (destruct date; [now apply v_date_time_spec | reflexivity]).
  cbn. unfold v_literal. cbn [lit_data only_rt]. rewrite (proj2 (literal_ok_spec _) Hm). now apply N.leb_le.
Qed.
Theorem C43_get_quota : forall tag s, some_of TAG_CHAR tag -> many_of CHAR8 s -> fits s ->
  exists a, then_tag tag (cb_get_quota s) = Built (mkCommand tag (CGetQuota a)) /\ bytes_of_astring a = s /\
    sent (mkCommand tag (CGetQuota a)).
Proof.
  intros tag s T H L. destruct (astring_built s H L) as (a & Ea & Ba & Va). exists a.
  unfold cb_get_quota. rewrite Ea. cbn [with_arg then_tag].
  destruct (tagged tag (CGetQuota a) T) as [-> S0]; auto.
Qed.
(** [name] is what stands on the wire, after "UID " if the command has it. *)
Theorem C43_name : forall c, exists rest,
  dump_fragments (encode_command c) = cmd_tag c ++ bs " " ++ command_name (cmd_body c) ++ rest \/
  dump_fragments (encode_command c) = cmd_tag c ++ bs " UID " ++ command_name (cmd_body c) ++ rest.
Proof.
  intros [t b]. unfold encode_command. rewrite dump_fragments_eq. unfold e_command. cbn [cmd_tag cmd_body].
  rewrite dump_app. unfold e_bytes. rewrite dump_W, dump_app. change (dump spc) with (bs " "). rewrite dump_app.
  assert (K : exists r, dump (e_command_body b) = command_name b ++ r \/ dump (e_command_body b) = bs "UID " ++ command_name b ++ r).
  { destruct b; cbn [e_command_body command_name]; try (eexists; left; reflexivity);
      try (destruct uid); try (eexists; left; reflexivity); try (eexists; right; reflexivity). }
  destruct K as [r [-> | ->]]; exists (r ++ dump e_crlf); [left | right]; now rewrite <- !app_assoc.
Qed.
End Build.
Print Assumptions C43_login.
Print Assumptions C43_login_error.
Print Assumptions C43_mailbox.
Print Assumptions C43_rename.
Print Assumptions C43_list.
Print Assumptions C43_append.
Print Assumptions C43_get_quota.
Print Assumptions C43_name.
Example C43_example :
  then_tag (bs "a") (cb_login (bs "al ice") (bs "")) =
    Built (mkCommand (bs "a") (CLogin (AString (IQuoted (bs "al ice"))) (AString (IQuoted [])))) /\
  cb_login (bs "a") [x61; x00] = BadArg 1 (VInvalidByteAt x00 1).
Proof. split; reflexivity. Qed.
