(** The parsers of Profile.v give the results of those of a debug build, unless these panic. *)

From Verif Require Import Bytes Dec Features Nom Types Utf8 Conv Base64 Date ParseCore ParseBody
  ParseCmd ParseResp Decode Profile.

(** [q] does what [p] does whenever [p] does not panic. *)
Definition same {A} (q p : parser A) : Prop := forall i, p i = RPanic \/ q i = p i.

Ltac same_at H i :=
  let E := fresh "E" in
  destruct (H i) as [E | E]; [left; rewrite E; reflexivity | rewrite E; clear E].

Section Same.
Context {A C : Type}.

Lemma same_refl (p : parser A) : same p p.
Proof. intros i. now right. Qed.
Lemma same_bind (q p : parser A) (g f : A -> parser C) :
  same q p -> (forall a, same (g a) (f a)) -> same (bind q g) (bind p f).
Proof.
  intros H K i. unfold bind. same_at H i. destruct (p i) as [r a | | | |]; try (now right). apply K.
Qed.
Lemma same_pmap (f : A -> C) (q p : parser A) : same q p -> same (pmap f q) (pmap f p).
Proof. intros H. apply same_bind; [exact H | intros a i; now right]. Qed.
Lemma same_value (c : C) (q p : parser A) : same q p -> same (value c q) (value c p).
Proof. intros H. apply same_bind; [exact H | intros a i; now right]. Qed.
Lemma same_map_res (f : A -> option C) (q p : parser A) : same q p -> same (map_res q f) (map_res p f).
Proof. intros H. apply same_bind; [exact H | intros a i; now right]. Qed.
(** the conversion of [q] may succeed where that of [p] fails, and so panics *)
Lemma same_expect (g f : A -> option C) (q p : parser A) :
  same q p -> (forall a, f a = None \/ g a = f a) -> same (expect q g) (expect p f).
Proof.
  intros H K. apply same_bind; [exact H |]. intros a i. destruct (K a) as [E | E]; rewrite E; [now left | now right].
Qed.
Lemma same_alt (qs ps : list (parser A)) : Forall2 same qs ps -> same (alt qs) (alt ps).
Proof.
  induction 1 as [| q p qs ps H H' IH]; [apply same_refl |]. cbn [alt].
  destruct H' as [| q' p' qs ps H0 H']; [exact H |]. intros i. unfold orp. same_at H i.
  destruct (p i); try (now right). apply IH.
Qed.
Lemma same_gate b (q p : parser A) : same q p -> same (gate b q) (gate b p).
Proof. destruct b; [easy | intros _; apply same_refl]. Qed.
Lemma same_if (b : bool) (q p q' p' : parser A) :
  same q p -> same q' p' -> same (if b then q else q') (if b then p else p').
Proof. now destruct b. Qed.
Lemma same_opt (q p : parser A) : same q p -> same (opt q) (opt p).
Proof. intros H i. unfold opt. same_at H i. now right. Qed.
Lemma same_recognize (q p : parser A) : same q p -> same (recognize q) (recognize p).
Proof. intros H i. unfold recognize. same_at H i. now right. Qed.
Lemma same_many0 (q p : parser A) : same q p -> same (many0 q) (many0 p).
Proof.
  intros H i. unfold many0. generalize (S (length i)). intros n. revert i.
  induction n as [| n IH]; intros i; [now left |]. cbn [many0_f]. same_at H i.
  destruct (p i) as [r a | | | |]; try (now right). destruct (Nat.ltb (length r) (length i)); [| now right].
  same_at IH r. now right.
Qed.
End Same.
Lemma same_many1 {A} (q p : parser A) : same q p -> same (many1 q) (many1 p).
Proof.
  intros H. apply same_bind; [exact H |]. intros a.
  apply same_bind; [now apply same_many0 | intros l; apply same_refl].
Qed.
Lemma same_many_m {A} m (q p : parser A) : same q p -> same (many_m m q) (many_m m p).
Proof.
  intros H. induction m as [| m IH]; [now apply same_many0 |]. intros i. cbn [many_m]. same_at H i.
  destruct (p i) as [r a | | | |]; try (now right). destruct (Nat.ltb (length r) (length i)); [| now right].
  same_at IH r. now right.
Qed.
Lemma same_sep_loop {A C} (s : parser C) (q p : parser A) : same q p -> same (sep_loop s q) (sep_loop s p).
Proof.
  intros H i. unfold sep_loop. generalize (S (length i)). intros n. revert i.
  induction n as [| n IH]; intros i; [now left |]. cbn [sep_loop_f].
  destruct (s i) as [r a | | | |]; try (now right). destruct (Nat.ltb (length r) (length i)); [| now right].
  same_at H r. destruct (p r) as [r' a' | | | |]; try (now right).
  destruct (Nat.leb (length r') (length r)); [| now right]. same_at IH r'. now right.
Qed.
Lemma same_sep_list1 {A C} (s : parser C) (q p : parser A) : same q p -> same (sep_list1 s q) (sep_list1 s p).
Proof.
  intros H. apply same_bind; [exact H |]. intros a.
  apply same_bind; [now apply same_sep_loop | intros l; apply same_refl].
Qed.
Lemma same_sep_list0 {A C} (s : parser C) (q p : parser A) : same q p -> same (sep_list0 s q) (sep_list0 s p).
Proof.
  intros H i. unfold sep_list0. same_at H i. destruct (p i) as [r a | | | |]; try (now right).
  same_at (same_sep_loop s q p H) r. now right.
Qed.

Section Unvalidated.
Context {B : build}.
Lemma unvalidated_cases {A} (ok : A -> bool) a :
  (if ok a then Some a else None) = None \/ unvalidated ok a = (if ok a then Some a else None).
Proof. unfold unvalidated. destruct (ok a); destruct debug_build; auto. Qed.
Lemma str_of_cases ok s : str_of ok s = None \/ b_str_of ok s = str_of ok s.
Proof.
  unfold str_of, b_str_of. destruct (utf8_ok s); [| now right]. cbn [andb]. apply unvalidated_cases.
Qed.
Lemma unvalidated_str_of ok s : str_of ok s = None \/ unvalidated ok s = str_of ok s.
Proof.
  unfold str_of. destruct (utf8_ok s); [| now left]. cbn [andb]. apply unvalidated_cases.
Qed.
Lemma same_validated ok q p : same q p -> same (b_validated ok q) (validated ok p).
Proof. intros H. apply same_expect; [exact H | intros s; apply str_of_cases]. Qed.
Lemma same_b_vecn {A} n (q p : parser (list A)) : same q p -> same (b_vecn n q) (vecn n p).
Proof. intros H. apply same_expect; [exact H |]. intros l. apply (unvalidated_cases (fun l => Nat.leb n (length l))). Qed.
Lemma same_vecn {A} n (q p : parser (list A)) : same q p -> same (vecn n q) (vecn n p).
Proof. intros H. apply same_expect; [exact H |]. intros l. now right. Qed.
End Unvalidated.

Create HintDb same discriminated.
#[local] Hint Constants Opaque : same.
#[local] Hint Transparent atom_t nstring sequence_set bytes : same.
Ltac same_step :=
  first
    [ lazymatch goal with |- same ?p ?q => constr_eq p q; apply same_refl end
    | solve [eauto 2 with same nocore]
    | lazymatch goal with
      | |- same (bind _ _) _ => apply same_bind; [|intros ?]
      | |- same (delimited _ _ _) _ => apply same_bind; [|intros ?]
      | |- same (terminated _ _) _ => apply same_bind; [|intros ?]
      | |- same (pmap _ _) _ => apply same_pmap
      | |- same (value _ _) _ => apply same_value
      | |- same (map_res _ _) _ => apply same_map_res
      | |- same (b_validated _ _) _ => apply same_validated
      | |- same (b_vec1 _) _ => apply same_b_vecn
      | |- same (b_vec2 _) _ => apply same_b_vecn
      | |- same (vec1 _) _ => apply same_vecn
      | |- same (expect _ _) _ => apply same_expect; [| intros ?; try (now right)]
      | |- same (gate _ _) _ => apply same_gate
      | |- same (opt _) _ => apply same_opt
      | |- same (recognize _) _ => apply same_recognize
      | |- same (many1 _) _ => apply same_many1
      | |- same (many0 _) _ => apply same_many0
      | |- same (many_m _ _) _ => apply same_many_m
      | |- same (sep_list1 _ _) _ => apply same_sep_list1
      | |- same (sep_list0 _ _) _ => apply same_sep_list0
      | |- same (alt _) _ => apply same_alt
      | |- Forall2 same _ _ => constructor
      | |- same (if _ then _ else _) _ => apply same_if
      | |- same (match ?x with (_, _) => _ end) _ => destruct x
      end ].
Ltac same := repeat same_step.

Section Parsers.
Context {F : features} {B : build}.

Lemma same_quoted : same b_quoted p_quoted.
Proof.
  unfold b_quoted, p_quoted. same. apply (unvalidated_cases quoted_ok).
Qed.
#[local] Hint Resolve same_quoted : same.
Lemma same_string : same b_string p_string.
Proof. unfold b_string, p_string; same. Qed.
#[local] Hint Resolve same_string : same.
Lemma same_quoted_char : same b_quoted_char p_quoted_char.
Proof.
  unfold b_quoted_char, p_quoted_char. same. apply (unvalidated_cases quoted_char_ok).
Qed.
#[local] Hint Resolve same_quoted_char : same.
Lemma same_astring : same b_astring p_astring.
Proof. unfold b_astring, p_astring; same. Qed.
#[local] Hint Resolve same_astring : same.
Lemma same_atom : same b_atom p_atom.
Proof. unfold b_atom, p_atom; same. Qed.
#[local] Hint Resolve same_atom : same.
Lemma same_nstring : same b_nstring p_nstring.
Proof. unfold b_nstring, p_nstring; same. Qed.
#[local] Hint Resolve same_nstring : same.
Lemma same_text : same b_text p_text.
Proof. unfold b_text, p_text; same. Qed.
#[local] Hint Resolve same_text : same.
Lemma same_charset : same b_charset p_charset.
Proof. unfold b_charset, p_charset; same. Qed.
#[local] Hint Resolve same_charset : same.
Lemma same_tag_imap : same b_tag_imap p_tag_imap.
Proof. unfold b_tag_imap, p_tag_imap; same. Qed.
#[local] Hint Resolve same_tag_imap : same.
Lemma same_sequence_set : same b_sequence_set p_sequence_set.
Proof. unfold b_sequence_set, p_sequence_set; same. Qed.
#[local] Hint Resolve same_sequence_set : same.
Lemma same_list_mailbox : same b_list_mailbox p_list_mailbox.
Proof. unfold b_list_mailbox, p_list_mailbox; same. Qed.
#[local] Hint Resolve same_list_mailbox : same.
Lemma same_mailbox : same b_mailbox p_mailbox.
Proof. unfold b_mailbox, p_mailbox; same. Qed.
#[local] Hint Resolve same_mailbox : same.
Lemma same_flag : same b_flag p_flag.
Proof. unfold b_flag, p_flag; same. Qed.
#[local] Hint Resolve same_flag : same.
Lemma same_flag_list : same b_flag_list p_flag_list.
Proof. unfold b_flag_list, p_flag_list; same. Qed.
#[local] Hint Resolve same_flag_list : same.
Lemma same_flag_fetch : same b_flag_fetch p_flag_fetch.
Proof.
  intros i. unfold b_flag_fetch, p_flag_fetch.
  assert (H : same (recognize (char bBS ;;; b_atom)) (recognize (char bBS ;;; p_atom))) by same.
  assert (K : same (pmap FFFlag b_flag) (pmap FFFlag p_flag)) by same.
  same_at H i. destruct (recognize (char bBS ;;; p_atom) i) as [r s | | | |]; try apply K; [| now left].
  destruct (eqi s (bs "\recent")); [now right | apply K].
Qed.
#[local] Hint Resolve same_flag_fetch : same.
Lemma same_flag_perm : same b_flag_perm p_flag_perm.
Proof. unfold b_flag_perm, p_flag_perm; same. Qed.
#[local] Hint Resolve same_flag_perm : same.
Lemma same_mbx_list_flags : same b_mbx_list_flags p_mbx_list_flags.
Proof. unfold b_mbx_list_flags, p_mbx_list_flags; same. Qed.
#[local] Hint Resolve same_mbx_list_flags : same.
Lemma same_date_text : same b_date_text p_date_text.
Proof.
  unfold b_date_text, p_date_text. same. destruct (from_ymd_opt a3 a1 a) as [dt |]; [| same].
  intros i. unfold expect, bind, ret, unvalidated. destruct (N.leb a3 9999), debug_build; auto.
Qed.
#[local] Hint Resolve same_date_text : same.
Lemma same_date_opt : same b_date_opt p_date_opt.
Proof. unfold b_date_opt, p_date_opt; same. Qed.
#[local] Hint Resolve same_date_opt : same.
Lemma same_date : same b_date p_date.
Proof. unfold b_date, p_date; same. Qed.
#[local] Hint Resolve same_date : same.
Lemma same_date_time : same b_date_time p_date_time.
Proof.
  unfold b_date_time, p_date_time. same.
  destruct (from_ymd_opt a4 a2 a0) as [dt |]; [| same]. destruct a6 as [[[hh mm] ss] |]; [| same].
  destruct a8 as [o |]; [| same].
  intros i. unfold expect, bind, ret, unvalidated.
  destruct (N.leb a4 9999 && Z.eqb (Z.rem o 60) 0)%bool, debug_build; auto.
Qed.
#[local] Hint Resolve same_date_time : same.
Lemma same_attr_flag : same b_attr_flag p_attr_flag.
Proof. unfold b_attr_flag, p_attr_flag; same. Qed.
#[local] Hint Resolve same_attr_flag : same.
Lemma same_entry_flag_name : same b_entry_flag_name p_entry_flag_name.
Proof. unfold b_entry_flag_name, p_entry_flag_name; same. Qed.
#[local] Hint Resolve same_entry_flag_name : same.
Lemma same_search_modseq_ext : same b_search_modseq_ext p_search_modseq_ext.
Proof. unfold b_search_modseq_ext, p_search_modseq_ext; same. Qed.
#[local] Hint Resolve same_search_modseq_ext : same.
Lemma same_search_modsequence : same b_search_modsequence p_search_modsequence.
Proof. unfold b_search_modsequence, p_search_modsequence; same. Qed.
#[local] Hint Resolve same_search_modsequence : same.
Lemma same_address : same b_address p_address.
Proof. unfold b_address, p_address; same. Qed.
#[local] Hint Resolve same_address : same.
Lemma same_addresses : same b_addresses p_addresses.
Proof. unfold b_addresses, p_addresses; same. Qed.
#[local] Hint Resolve same_addresses : same.
Lemma same_envelope : same b_envelope p_envelope.
Proof. unfold b_envelope, p_envelope; same. Qed.
#[local] Hint Resolve same_envelope : same.
Lemma same_pair : same b_pair p_pair.
Proof. unfold b_pair, p_pair; same. Qed.
#[local] Hint Resolve same_pair : same.
Lemma same_body_fld_param : same b_body_fld_param p_body_fld_param.
Proof. unfold b_body_fld_param, p_body_fld_param; same. Qed.
#[local] Hint Resolve same_body_fld_param : same.
Lemma same_body_fld_enc : same b_body_fld_enc p_body_fld_enc.
Proof. unfold b_body_fld_enc, p_body_fld_enc; same. Qed.
#[local] Hint Resolve same_body_fld_enc : same.
Lemma same_body_fields : same b_body_fields p_body_fields.
Proof. unfold b_body_fields, p_body_fields; same. Qed.
#[local] Hint Resolve same_body_fields : same.
Lemma same_body_extension : forall n, same (b_body_extension n) (p_body_extension n).
Proof. induction n as [| n IH]; cbn [b_body_extension p_body_extension]; same. Qed.
#[local] Hint Resolve same_body_extension : same.
Lemma same_body_fld_dsp : same b_body_fld_dsp p_body_fld_dsp.
Proof. unfold b_body_fld_dsp, p_body_fld_dsp; same. Qed.
#[local] Hint Resolve same_body_fld_dsp : same.
Lemma same_body_fld_lang : same b_body_fld_lang p_body_fld_lang.
Proof. unfold b_body_fld_lang, p_body_fld_lang; same. Qed.
#[local] Hint Resolve same_body_fld_lang : same.
Lemma same_location : same b_location p_location.
Proof. unfold b_location, p_location; same. Qed.
#[local] Hint Resolve same_location : same.
Lemma same_language : same b_language p_language.
Proof. unfold b_language, p_language; same. Qed.
#[local] Hint Resolve same_language : same.
Lemma same_disposition : same b_disposition p_disposition.
Proof. unfold b_disposition, p_disposition; same. Qed.
#[local] Hint Resolve same_disposition : same.
Lemma same_body_ext_1part : same b_body_ext_1part p_body_ext_1part.
Proof. unfold b_body_ext_1part, p_body_ext_1part; same. Qed.
#[local] Hint Resolve same_body_ext_1part : same.
Lemma same_body_ext_mpart : same b_body_ext_mpart p_body_ext_mpart.
Proof. unfold b_body_ext_mpart, p_body_ext_mpart; same. Qed.
#[local] Hint Resolve same_body_ext_mpart : same.
Lemma same_body_type_basic : same b_body_type_basic p_body_type_basic.
Proof. unfold b_body_type_basic, p_body_type_basic; same. Qed.
#[local] Hint Resolve same_body_type_basic : same.
Lemma same_media_text : same b_media_text p_media_text.
Proof. unfold b_media_text, p_media_text; same. Qed.
#[local] Hint Resolve same_media_text : same.
Lemma same_body_type_text : same b_body_type_text p_body_type_text.
Proof. unfold b_body_type_text, p_body_type_text; same. Qed.
#[local] Hint Resolve same_body_type_text : same.
Lemma same_body_type_msg qb pb : (forall n, same (qb n) (pb n)) ->
  same (b_body_type_msg qb) (p_body_type_msg pb).
Proof. intros H. unfold b_body_type_msg, p_body_type_msg. same. Qed.
#[local] Hint Resolve same_body_type_msg : same.
Lemma same_body_type_1part qb pb n : (forall n, same (qb n) (pb n)) ->
  same (b_body_type_1part qb n) (p_body_type_1part pb n).
Proof. intros H. unfold b_body_type_1part, p_body_type_1part. destruct n; same. Qed.
#[local] Hint Resolve same_body_type_1part : same.
Lemma same_body_type_mpart qb pb n : (forall n, same (qb n) (pb n)) ->
  same (b_body_type_mpart qb n) (p_body_type_mpart pb n).
Proof. intros H. unfold b_body_type_mpart, p_body_type_mpart. destruct n; same. Qed.
#[local] Hint Resolve same_body_type_mpart : same.
Lemma same_body_f : forall fuel n, same (b_body_f fuel n) (p_body_f fuel n).
Proof.
  induction fuel as [| fuel IH]; intros n; cbn [b_body_f p_body_f]; [same |]. destruct n; same.
Qed.
#[local] Hint Resolve same_body_f : same.
Lemma same_body n : same (b_body n) (p_body n).
Proof. intros i. apply same_body_f. Qed.
#[local] Hint Resolve same_body : same.
Lemma same_header_list : same b_header_list p_header_list.
Proof. unfold b_header_list, p_header_list; same. Qed.
#[local] Hint Resolve same_header_list : same.
Lemma same_section_part : same b_section_part p_section_part.
Proof. unfold b_section_part, p_section_part; same. Qed.
#[local] Hint Resolve same_section_part : same.
Lemma same_section_msgtext : same b_section_msgtext p_section_msgtext.
Proof. unfold b_section_msgtext, p_section_msgtext; same. Qed.
#[local] Hint Resolve same_section_msgtext : same.
Lemma same_section_text : same b_section_text p_section_text.
Proof. unfold b_section_text, p_section_text; same. Qed.
#[local] Hint Resolve same_section_text : same.
Lemma same_section_spec : same b_section_spec p_section_spec.
Proof. unfold b_section_spec, p_section_spec; same. Qed.
#[local] Hint Resolve same_section_spec : same.
Lemma same_section : same b_section p_section.
Proof. unfold b_section, p_section; same. Qed.
#[local] Hint Resolve same_section : same.
Lemma same_section_binary : same b_section_binary p_section_binary.
Proof. unfold b_section_binary, p_section_binary; same. Qed.
#[local] Hint Resolve same_section_binary : same.
Lemma same_fetch_att : same b_fetch_att p_fetch_att.
Proof. unfold b_fetch_att, p_fetch_att; same. Qed.
#[local] Hint Resolve same_fetch_att : same.
Lemma same_msg_att_dynamic : same b_msg_att_dynamic p_msg_att_dynamic.
Proof. unfold b_msg_att_dynamic, p_msg_att_dynamic; same. Qed.
#[local] Hint Resolve same_msg_att_dynamic : same.
Lemma same_nstring8 : same b_nstring8 p_nstring8.
Proof. unfold b_nstring8, p_nstring8; same. Qed.
#[local] Hint Resolve same_nstring8 : same.
Lemma same_msg_att_static : same b_msg_att_static p_msg_att_static.
Proof. unfold b_msg_att_static, p_msg_att_static; same. Qed.
#[local] Hint Resolve same_msg_att_static : same.
Lemma same_msg_att : same b_msg_att p_msg_att.
Proof. unfold b_msg_att, p_msg_att; same. Qed.
#[local] Hint Resolve same_msg_att : same.
Lemma same_search_key : forall n, same (b_search_key n) (p_search_key n).
Proof. induction n as [| n IH]; cbn [b_search_key p_search_key]; same. Qed.
#[local] Hint Resolve same_search_key : same.
Lemma same_search_keys : same b_search_keys p_search_keys.
Proof. unfold b_search_keys, p_search_keys; same. Qed.
#[local] Hint Resolve same_search_keys : same.
Lemma same_search : same b_search p_search.
Proof. unfold b_search, p_search; same. Qed.
#[local] Hint Resolve same_search : same.
Lemma same_search_criteria : same b_search_criteria p_search_criteria.
Proof. unfold b_search_criteria, p_search_criteria; same. Qed.
#[local] Hint Resolve same_search_criteria : same.
Lemma same_id_param : same b_id_param p_id_param.
Proof. unfold b_id_param, p_id_param; same. Qed.
#[local] Hint Resolve same_id_param : same.
Lemma same_id_params_list : same b_id_params_list p_id_params_list.
Proof. unfold b_id_params_list, p_id_params_list; same. Qed.
#[local] Hint Resolve same_id_params_list : same.
Lemma same_id : same b_id p_id.
Proof. unfold b_id, p_id; same. Qed.
#[local] Hint Resolve same_id : same.
Lemma same_capability_enable : same b_capability_enable p_capability_enable.
Proof. unfold b_capability_enable, p_capability_enable; same. Qed.
#[local] Hint Resolve same_capability_enable : same.
Lemma same_enable : same b_enable p_enable.
Proof. unfold b_enable, p_enable; same. Qed.
#[local] Hint Resolve same_enable : same.
Lemma same_getquota : same b_getquota p_getquota.
Proof. unfold b_getquota, p_getquota; same. Qed.
#[local] Hint Resolve same_getquota : same.
Lemma same_getquotaroot : same b_getquotaroot p_getquotaroot.
Proof. unfold b_getquotaroot, p_getquotaroot; same. Qed.
#[local] Hint Resolve same_getquotaroot : same.
Lemma same_resource_name : same b_resource_name p_resource_name.
Proof. unfold b_resource_name, p_resource_name; same. Qed.
#[local] Hint Resolve same_resource_name : same.
Lemma same_setquota_resource : same b_setquota_resource p_setquota_resource.
Proof. unfold b_setquota_resource, p_setquota_resource; same. Qed.
#[local] Hint Resolve same_setquota_resource : same.
Lemma same_setquota : same b_setquota p_setquota.
Proof. unfold b_setquota, p_setquota; same. Qed.
#[local] Hint Resolve same_setquota : same.
Lemma same_entry_value : same b_entry_value p_entry_value.
Proof. unfold b_entry_value, p_entry_value; same. Qed.
#[local] Hint Resolve same_entry_value : same.
Lemma same_entry_values : same b_entry_values p_entry_values.
Proof. unfold b_entry_values, p_entry_values; same. Qed.
#[local] Hint Resolve same_entry_values : same.
Lemma same_setmetadata : same b_setmetadata p_setmetadata.
Proof. unfold b_setmetadata, p_setmetadata; same. Qed.
#[local] Hint Resolve same_setmetadata : same.
Lemma same_getmetadata_options : same b_getmetadata_options p_getmetadata_options.
Proof. unfold b_getmetadata_options, p_getmetadata_options; same. Qed.
#[local] Hint Resolve same_getmetadata_options : same.
Lemma same_entries : same b_entries p_entries.
Proof. unfold b_entries, p_entries; same. Qed.
#[local] Hint Resolve same_entries : same.
Lemma same_getmetadata : same b_getmetadata p_getmetadata.
Proof. unfold b_getmetadata, p_getmetadata; same. Qed.
#[local] Hint Resolve same_getmetadata : same.
Lemma same_uid_expunge : same b_uid_expunge p_uid_expunge.
Proof. unfold b_uid_expunge, p_uid_expunge; same. Qed.
#[local] Hint Resolve same_uid_expunge : same.
Lemma same_move : same b_move p_move.
Proof. unfold b_move, p_move; same. Qed.
#[local] Hint Resolve same_move : same.
Lemma same_sort_criteria : same b_sort_criteria p_sort_criteria.
Proof. unfold b_sort_criteria, p_sort_criteria; same. Qed.
#[local] Hint Resolve same_sort_criteria : same.
Lemma same_sort : same b_sort p_sort.
Proof. unfold b_sort, p_sort; same. Qed.
#[local] Hint Resolve same_sort : same.
Lemma same_thread : same b_thread p_thread.
Proof. unfold b_thread, p_thread; same. Qed.
#[local] Hint Resolve same_thread : same.
Lemma same_command_any : same b_command_any p_command_any.
Proof. unfold b_command_any, p_command_any; same. Qed.
#[local] Hint Resolve same_command_any : same.
Lemma same_select_param : same b_select_param p_select_param.
Proof. unfold b_select_param, p_select_param; same. Qed.
#[local] Hint Resolve same_select_param : same.
Lemma same_select_params : same b_select_params p_select_params.
Proof. unfold b_select_params, p_select_params; same. Qed.
#[local] Hint Resolve same_select_params : same.
Lemma same_append : same b_append p_append.
Proof. unfold b_append, p_append; same. Qed.
#[local] Hint Resolve same_append : same.
Lemma same_create : same b_create p_create.
Proof. unfold b_create, p_create; same. Qed.
#[local] Hint Resolve same_create : same.
Lemma same_delete : same b_delete p_delete.
Proof. unfold b_delete, p_delete; same. Qed.
#[local] Hint Resolve same_delete : same.
Lemma same_examine : same b_examine p_examine.
Proof. unfold b_examine, p_examine; same. Qed.
#[local] Hint Resolve same_examine : same.
Lemma same_list : same b_list p_list.
Proof. unfold b_list, p_list; same. Qed.
#[local] Hint Resolve same_list : same.
Lemma same_lsub : same b_lsub p_lsub.
Proof. unfold b_lsub, p_lsub; same. Qed.
#[local] Hint Resolve same_lsub : same.
Lemma same_rename : same b_rename p_rename.
Proof. unfold b_rename, p_rename; same. Qed.
#[local] Hint Resolve same_rename : same.
Lemma same_select : same b_select p_select.
Proof. unfold b_select, p_select; same. Qed.
#[local] Hint Resolve same_select : same.
Lemma same_status : same b_status p_status.
Proof. unfold b_status, p_status; same. Qed.
#[local] Hint Resolve same_status : same.
Lemma same_subscribe : same b_subscribe p_subscribe.
Proof. unfold b_subscribe, p_subscribe; same. Qed.
#[local] Hint Resolve same_subscribe : same.
Lemma same_unsubscribe : same b_unsubscribe p_unsubscribe.
Proof. unfold b_unsubscribe, p_unsubscribe; same. Qed.
#[local] Hint Resolve same_unsubscribe : same.
Lemma same_command_auth : same b_command_auth p_command_auth.
Proof. unfold b_command_auth, p_command_auth; same. Qed.
#[local] Hint Resolve same_command_auth : same.
Lemma same_auth_type : same b_auth_type p_auth_type.
Proof. unfold b_auth_type, p_auth_type; same. Qed.
#[local] Hint Resolve same_auth_type : same.
Lemma same_login : same b_login p_login.
Proof. unfold b_login, p_login; same. Qed.
#[local] Hint Resolve same_login : same.
Lemma same_authenticate : same b_authenticate p_authenticate.
Proof. unfold b_authenticate, p_authenticate; same. Qed.
#[local] Hint Resolve same_authenticate : same.
Lemma same_command_nonauth : same b_command_nonauth p_command_nonauth.
Proof. unfold b_command_nonauth, p_command_nonauth; same. Qed.
#[local] Hint Resolve same_command_nonauth : same.
Lemma same_copy : same b_copy p_copy.
Proof. unfold b_copy, p_copy; same. Qed.
#[local] Hint Resolve same_copy : same.
Lemma same_macro_or_items : same b_macro_or_items p_macro_or_items.
Proof. unfold b_macro_or_items, p_macro_or_items; same. Qed.
#[local] Hint Resolve same_macro_or_items : same.
Lemma same_fetch : same b_fetch p_fetch.
Proof. unfold b_fetch, p_fetch; same. Qed.
#[local] Hint Resolve same_fetch : same.
Lemma same_store_att_flags : same b_store_att_flags p_store_att_flags.
Proof. unfold b_store_att_flags, p_store_att_flags; same. Qed.
#[local] Hint Resolve same_store_att_flags : same.
Lemma same_store : same b_store p_store.
Proof. unfold b_store, p_store; same. Qed.
#[local] Hint Resolve same_store : same.
Lemma same_uid : same b_uid p_uid.
Proof. unfold b_uid, p_uid; same. Qed.
#[local] Hint Resolve same_uid : same.
Lemma same_command_select : same b_command_select p_command_select.
Proof. unfold b_command_select, p_command_select; same. Qed.
#[local] Hint Resolve same_command_select : same.
Lemma same_command_body : same b_command_body p_command_body.
Proof. unfold b_command_body, p_command_body; same. Qed.
#[local] Hint Resolve same_command_body : same.
Lemma same_command : same b_command p_command.
Proof.
  unfold b_command, p_command. same. intros i.
  assert (H : same (pmap (mkCommand a) b_command_body) (pmap (mkCommand a) p_command_body)) by same.
  destruct (H i) as [E | E]; [left | right]; rewrite E; reflexivity.
Qed.
#[local] Hint Resolve same_command : same.
Lemma same_metadata_resp : same b_metadata_resp p_metadata_resp.
Proof. unfold b_metadata_resp, p_metadata_resp; same. Qed.
#[local] Hint Resolve same_metadata_resp : same.
Lemma same_delimiter : same b_delimiter p_delimiter.
Proof. unfold b_delimiter, p_delimiter; same. Qed.
#[local] Hint Resolve same_delimiter : same.
Lemma same_namespace_ext : same b_namespace_ext p_namespace_ext.
Proof. unfold b_namespace_ext, p_namespace_ext; same. Qed.
#[local] Hint Resolve same_namespace_ext : same.
Lemma same_namespace_descr : same b_namespace_descr p_namespace_descr.
Proof. unfold b_namespace_descr, p_namespace_descr; same. Qed.
#[local] Hint Resolve same_namespace_descr : same.
Lemma same_namespace : same b_namespace p_namespace.
Proof. unfold b_namespace, p_namespace; same. Qed.
#[local] Hint Resolve same_namespace : same.
Lemma same_namespace_response : same b_namespace_response p_namespace_response.
Proof. unfold b_namespace_response, p_namespace_response; same. Qed.
#[local] Hint Resolve same_namespace_response : same.
Lemma same_quota_resource : same b_quota_resource p_quota_resource.
Proof. unfold b_quota_resource, p_quota_resource; same. Qed.
#[local] Hint Resolve same_quota_resource : same.
Lemma same_quota_response : same b_quota_response p_quota_response.
Proof. unfold b_quota_response, p_quota_response; same. Qed.
#[local] Hint Resolve same_quota_response : same.
Lemma same_quotaroot_response : same b_quotaroot_response p_quotaroot_response.
Proof. unfold b_quotaroot_response, p_quotaroot_response; same. Qed.
#[local] Hint Resolve same_quotaroot_response : same.
Lemma same_thread_list : forall n, same (b_thread_list n) (p_thread_list n).
Proof. induction n as [| n IH]; cbn [b_thread_list p_thread_list]; same. Qed.
#[local] Hint Resolve same_thread_list : same.
Lemma same_thread_data : same b_thread_data p_thread_data.
Proof. unfold b_thread_data, p_thread_data; same. Qed.
#[local] Hint Resolve same_thread_data : same.
Lemma same_uid_set : same b_uid_set p_uid_set.
Proof. unfold b_uid_set, p_uid_set; same. Qed.
#[local] Hint Resolve same_uid_set : same.
Lemma same_resp_code_copy : same b_resp_code_copy p_resp_code_copy.
Proof. unfold b_resp_code_copy, p_resp_code_copy; same. Qed.
#[local] Hint Resolve same_resp_code_copy : same.
Lemma same_enable_data : same b_enable_data p_enable_data.
Proof. unfold b_enable_data, p_enable_data; same. Qed.
#[local] Hint Resolve same_enable_data : same.
Lemma same_mailbox_list : same b_mailbox_list p_mailbox_list.
Proof. unfold b_mailbox_list, p_mailbox_list; same. Qed.
#[local] Hint Resolve same_mailbox_list : same.
Lemma same_mailbox_data : same b_mailbox_data p_mailbox_data.
Proof. unfold b_mailbox_data, p_mailbox_data; same. Qed.
#[local] Hint Resolve same_mailbox_data : same.
Lemma same_capability : same b_capability p_capability.
Proof. unfold b_capability, p_capability; same. Qed.
#[local] Hint Resolve same_capability : same.
Lemma same_capability_data : same b_capability_data p_capability_data.
Proof. unfold b_capability_data, p_capability_data; same. Qed.
#[local] Hint Resolve same_capability_data : same.
Lemma same_resp_text_code : same b_resp_text_code p_resp_text_code.
Proof. unfold b_resp_text_code, p_resp_text_code; same. Qed.
#[local] Hint Resolve same_resp_text_code : same.
Lemma same_text_after_code : same b_text_after_code p_text_after_code.
Proof. unfold b_text_after_code, p_text_after_code; same. apply unvalidated_str_of. Qed.
#[local] Hint Resolve same_text_after_code : same.
Lemma same_resp_text : same b_resp_text p_resp_text.
Proof.
  intros i. unfold b_resp_text, p_resp_text. destruct (opt (tg "[") i) as [r [[] |] | | | |]; try (now right).
  - match goal with |- ?p _ = _ \/ ?q _ = _ => assert (H : same q p) by same; apply H end.
  - assert (H : same (pmap (fun t => (@None code, t)) b_text) (pmap (fun t => (@None code, t)) p_text)) by same.
    apply H.
Qed.
#[local] Hint Resolve same_resp_text : same.
Lemma same_resp_cond_auth : same b_resp_cond_auth p_resp_cond_auth.
Proof. unfold b_resp_cond_auth, p_resp_cond_auth; same. Qed.
#[local] Hint Resolve same_resp_cond_auth : same.
Lemma same_resp_cond_bye : same b_resp_cond_bye p_resp_cond_bye.
Proof. unfold b_resp_cond_bye, p_resp_cond_bye; same. Qed.
#[local] Hint Resolve same_resp_cond_bye : same.
Lemma same_greeting : same b_greeting p_greeting.
Proof. unfold b_greeting, p_greeting; same. Qed.
#[local] Hint Resolve same_greeting : same.
Lemma same_continue_req : same b_continue_req p_continue_req.
Proof. unfold b_continue_req, p_continue_req; same. Qed.
#[local] Hint Resolve same_continue_req : same.
Lemma same_resp_cond_state : same b_resp_cond_state p_resp_cond_state.
Proof. unfold b_resp_cond_state, p_resp_cond_state; same. Qed.
#[local] Hint Resolve same_resp_cond_state : same.
Lemma same_message_data : same b_message_data p_message_data.
Proof. unfold b_message_data, p_message_data; same. Qed.
#[local] Hint Resolve same_message_data : same.
Lemma same_response_data : same b_response_data p_response_data.
Proof. unfold b_response_data, p_response_data; same. Qed.
#[local] Hint Resolve same_response_data : same.
Lemma same_response_tagged : same b_response_tagged p_response_tagged.
Proof. unfold b_response_tagged, p_response_tagged; same. Qed.
#[local] Hint Resolve same_response_tagged : same.
Lemma same_response_fatal : same b_response_fatal p_response_fatal.
Proof. unfold b_response_fatal, p_response_fatal; same. Qed.
#[local] Hint Resolve same_response_fatal : same.
Lemma same_response_done : same b_response_done p_response_done.
Proof. unfold b_response_done, p_response_done; same. Qed.
#[local] Hint Resolve same_response_done : same.
Lemma same_response : same b_response p_response.
Proof. unfold b_response, p_response; same. Qed.
#[local] Hint Resolve same_response : same.

End Parsers.
