(** Every parser, except those of base64 texts, treats inputs that differ in letter case alike
    ([ci], CaseFacts.v). For C36. *)

From Verif Require Import Bytes BytesFacts Dec Features Nom Types Utf8 Conv Base64 Date
  ParseCore ParseBody ParseCmd ParseResp Traverse CaseFacts.
Open Scope nat_scope.

Section CaseParse.
Context {F : features}.
Notation idm := (fun m : lit_mode => m).
Notation xi := (x_istring lower idm).
Notation xn := (x_nstring lower idm).
Notation xa := (x_astring lower idm).
Notation xm := (x_mailbox lower idm).

Lemma ci_ext {A B} (p' : parser B) (p : parser A) h h' : ci p' p h -> (forall a, h a = h' a) -> ci p' p h'.
Proof. intros P E i. rewrite P. destruct (p i); cbn; try reflexivity. now rewrite E. Qed.
Lemma ci_list_id {A} (p' p : parser (list A)) : ci p' p (map id') -> ci p' p id'.
Proof. intros P. eapply ci_ext; [exact P |]. apply map_id. Qed.
Lemma ci_opt_id {A} (p' p : parser A) : ci p' p id' -> ci (opt p') (opt p) id'.
Proof. intros P. eapply ci_ext; [apply ci_opt, P |]. now intros []. Qed.

Ltac cig :=
  match goal with
  | |- ci (bind _ _) _ _ => eapply ci_bind; [cig | let a := fresh "a" in intros a; cbv beta; cig]
  | |- ci (pmap _ _) _ _ => eapply ci_pmap; [cig | intros; try reflexivity]
  | |- ci (value _ _) _ _ => eapply ci_value; [cig | try reflexivity]
  | |- ci (map_res _ _) _ _ => eapply ci_map_res; [cig | intros; try reflexivity]
  | |- ci (expect _ _) _ _ => eapply ci_expect; [cig | intros; try reflexivity]
  | |- ci (gate _ _) _ _ => apply ci_gate; cig
  | |- ci (delimited _ _ _) _ _ => eapply ci_delimited; [cig | cig | cig]
  | |- ci (terminated _ _) _ _ => eapply ci_terminated; [cig | cig]
  | |- ci (alt _) _ _ => apply ci_alt; alts
  | |- ci (vec1 _) _ _ => apply ci_vecn; cig
  | |- ci (vec2 _) _ _ => apply ci_vecn; cig
  | |- ci (many0 _) _ _ => apply ci_many0; cig
  | |- ci (many1 _) _ _ => apply ci_many1; cig
  | |- ci (many_m _ _) _ _ => apply ci_many_m; cig
  | |- ci (sep_list1 _ _) _ _ => eapply ci_sep_list1; [cig | cig]
  | |- ci (sep_list0 _ _) _ _ => eapply ci_sep_list0; [cig | cig]
  | |- ci (opt _) _ _ => first [apply ci_opt; cig | apply ci_opt_id; cig]
  | |- ci (peek _) _ _ => apply ci_peek; cig
  | |- ci (ret _) _ _ => apply ci_ret; try reflexivity
  | |- ci (tag _) _ _ => apply ci_tag; reflexivity
  | |- ci (tag_no_case _) _ _ => apply ci_kw
  | |- ci (char _) _ _ => apply ci_char; reflexivity
  | |- ci crlf _ _ => apply ci_crlf
  | |- ci sp _ _ => apply ci_sp
  | |- ci dquote _ _ => apply ci_dquote
  | |- ci pfail _ _ => apply ci_pfail
  | |- ci perr _ _ => apply ci_perr
  | |- ci (fun _ => RPanic) _ _ => apply ci_panic
  | |- ci (if ?b then _ else _) _ _ => apply ci_if; cig
  | |- _ => solve [eauto 2 with ci]
  | |- _ => idtac
  end
with alts := first [apply Forall2_nil | apply Forall2_cons; [cig | alts]].

(** core.rs *)
Lemma ci_digits max : ci (p_digits max) (p_digits max) id'.
Proof.
  eapply ci_map_res with (h := id').
  - eapply ci_expect; [apply ci_take_while1_id, nl_digit |]. intros s. now destruct (utf8_ok s).
  - intros s. now destruct (parse_max max s).
Qed.
Lemma ci_number : ci p_number p_number id'. Proof. apply ci_digits. Qed.
Lemma ci_number64 : ci p_number64 p_number64 id'. Proof. apply ci_digits. Qed.
Lemma ci_nz_number : ci p_nz_number p_nz_number id'.
Proof. eapply ci_map_res; [apply ci_number |]. intros n. unfold nonzero. now destruct (N.eqb n 0). Qed.
Lemma ci_mod_sequence_value : ci p_mod_sequence_value p_mod_sequence_value id'.
Proof. eapply ci_map_res; [apply ci_number64 |]. intros n. unfold nonzero. now destruct (N.eqb n 0). Qed.
Lemma low_replace2 c1 c2 to s : plain c1 = true -> plain c2 = true -> lowers to = to ->
  replace2 c1 c2 to (lowers s) = lowers (replace2 c1 c2 to s).
Proof.
  intros P1 P2 T. assert (K : forall n s, length s <= n -> replace2 c1 c2 to (lowers s) = lowers (replace2 c1 c2 to s)).
  { clear s. induction n as [| n IH]; intros [| x [| y s]] L; try reflexivity; cbn in L; try lia.
    assert (R : forall x y s, replace2 c1 c2 to (x :: y :: s) =
      if beq x c1 && beq y c2 then to ++ replace2 c1 c2 to s else x :: replace2 c1 c2 to (y :: s)) by reflexivity.
    change (lowers (x :: y :: s)) with (lower x :: lower y :: lowers s). rewrite !R, (plain_beq _ _ P1), (plain_beq _ _ P2).
    destruct (beq x c1 && beq y c2).
    - rewrite IH by lia. now rewrite lowers_app, T.
    - change (lower y :: lowers s) with (lowers (y :: s)). rewrite IH by (cbn; lia). reflexivity. }
  now apply (K (length s)).
Qed.
Lemma low_unescape s : unescape_quoted (lowers s) = lowers (unescape_quoted s).
Proof. unfold unescape_quoted. now rewrite !low_replace2. Qed.
Lemma ci_quoted : ci p_quoted p_quoted lowers.
Proof.
  unfold p_quoted. eapply ci_bind; [apply ci_dquote | intros _].
  eapply ci_bind with (h := lowers).
  - eapply ci_expect; [apply ci_escaped; [apply low_qchar | reflexivity | apply nl_qs] |].
    intros s. rewrite low_utf8. now destruct (utf8_ok s).
  - intros s. eapply ci_bind; [apply ci_dquote | intros _].
    eapply ci_expect with (h := lowers); [apply ci_ret, low_unescape |].
    intros u. unfold quoted_ok. rewrite (low_forallb _ _ low_text). now destruct (forallb _ u).
Qed.
Lemma ci_quoted_utf8 : ci p_quoted_utf8 p_quoted_utf8 lowers.
Proof.
  unfold p_quoted_utf8. eapply ci_bind; [apply ci_dquote | intros _].
  eapply ci_bind with (h := lowers).
  - eapply ci_map_res; [apply ci_escaped; [apply low_nqs | reflexivity | apply nl_qs] |].
    intros s. rewrite low_utf8. now destruct (utf8_ok s).
  - intros s. eapply ci_bind; [apply ci_dquote | intros _]. apply ci_ret, low_unescape.
Qed.
Lemma ci_lit_mode : ci p_lit_mode p_lit_mode id'.
Proof. eapply ci_pmap; [apply ci_opt, ci_char; reflexivity |]. now intros []. Qed.
Lemma ci_lit_header o : forallb plain o = true -> ci (p_lit_header o) (p_lit_header o) id'.
Proof.
  intros H. unfold p_lit_header. eapply ci_bind; [now apply ci_tag | intros _].
  eapply ci_bind; [apply ci_number | intros n]. eapply ci_bind; [apply ci_lit_mode | intros m]. cig.
Qed.
Lemma ci_lit_found n m : ci (p_lit_found n m) (p_lit_found n m) id'.
Proof. intros [| b i]; reflexivity. Qed.
Lemma ci_literal : ci p_literal p_literal (x_literal lower idm).
Proof.
  unfold p_literal. eapply ci_bind; [apply ci_lit_header; reflexivity | intros [n m]].
  eapply ci_bind; [apply ci_lit_found | intros _]. eapply ci_bind; [apply ci_take | intros d].
  unfold literal_ok. rewrite (low_forallb _ _ low_char8). apply ci_if; cig.
Qed.
Lemma ci_literal8 : ci p_literal8 p_literal8 (x_literal8 lower idm).
Proof.
  unfold p_literal8. eapply ci_bind; [apply ci_lit_header; reflexivity | intros [n m]].
  eapply ci_bind; [apply ci_lit_found | intros _]. eapply ci_bind; [apply ci_take | intros d]. cig.
Qed.
Hint Resolve ci_number ci_number64 ci_nz_number ci_mod_sequence_value ci_quoted ci_quoted_utf8 ci_literal ci_literal8 : ci.
Lemma ci_string : ci p_string p_string xi.
Proof. unfold p_string. cig. Qed.
Hint Resolve ci_string : ci.
Lemma ci_quoted_char : ci p_quoted_char p_quoted_char lower.
Proof.
  unfold p_quoted_char. assert (O : forall s, one_byte (lowers s) = option_map lower (one_byte s)) by now intros [| b [|]].
  eapply ci_expect with (h := lower).
  - apply ci_alt. repeat apply Forall2_cons; [| | apply Forall2_nil].
    + eapply ci_expect; [apply ci_take_while_m_n, low_qchar | exact O].
    + eapply ci_expect; [| exact O]. eapply ci_bind; [apply ci_tag; reflexivity | intros _].
      apply ci_take_while_m_n, no_letter_low, nl_qs.
  - intros b. assert (K : low_class quoted_char_ok) by (apply low_class_check; vm_compute; reflexivity).
    rewrite K. now destruct (quoted_char_ok b).
Qed.
Lemma low_ok f s : low_class f -> match lowers s with [] => false | _ => forallb f (lowers s) end
  = match s with [] => false | _ => forallb f s end.
Proof. intros H. destruct s as [| b s]; [reflexivity |]. exact (low_forallb f (b :: s) H). Qed.
Lemma low_atom_ok s : atom_ok (lowers s) = atom_ok s.
Proof. apply low_ok, low_atom. Qed.
Lemma ci_atom : ci p_atom p_atom lowers.
Proof. apply ci_validated; [apply ci_take_while1, low_atom |]. apply low_atom_ok. Qed.
Lemma ci_text : ci p_text p_text lowers.
Proof. apply ci_validated; [apply ci_take_while1, low_text |]. intros s. apply low_ok, low_text. Qed.
Lemma ci_tag_imap : ci p_tag_imap p_tag_imap lowers.
Proof. apply ci_validated; [apply ci_take_while1, low_tag |]. intros s. apply low_ok, low_tag. Qed.
Lemma ci_aatom : ci (validated atom_ext_ok (take_while1 is_astring_char)) (validated atom_ext_ok (take_while1 is_astring_char)) lowers.
Proof. apply ci_validated; [apply ci_take_while1, low_astring |]. intros s. apply low_ok, low_astring. Qed.
Lemma ci_list_chars : ci (validated list_char_string_ok (take_while1 is_list_char)) (validated list_char_string_ok (take_while1 is_list_char)) lowers.
Proof. apply ci_validated; [apply ci_take_while1, low_list |]. intros s. apply low_ok, low_list. Qed.
Hint Resolve ci_quoted_char ci_atom ci_text ci_tag_imap ci_aatom ci_list_chars : ci.
Lemma ci_astring : ci p_astring p_astring xa.
Proof. unfold p_astring. cig. Qed.
Lemma ci_nil : ci p_nil p_nil id'.
Proof. apply ci_kw. Qed.
Hint Resolve ci_astring ci_nil : ci.
Lemma ci_nstring : ci p_nstring p_nstring xn.
Proof. unfold p_nstring. cig. Qed.
Lemma ci_charset : ci p_charset p_charset (x_charset lower).
Proof. unfold p_charset. cig. Qed.
Lemma ci_seq_number : ci p_seq_number p_seq_number id'.
Proof. unfold p_seq_number. cig. Qed.
Hint Resolve ci_nstring ci_charset ci_seq_number : ci.
Lemma ci_sequence_set : ci p_sequence_set p_sequence_set id'.
Proof. apply ci_list_id. unfold p_sequence_set, p_seq_range. cig. Qed.
Lemma ci_list_mailbox : ci p_list_mailbox p_list_mailbox (x_list_mailbox lower idm).
Proof. unfold p_list_mailbox. cig. Qed.
Lemma low_istring_bytes s : istring_bytes (xi s) = lowers (istring_bytes s).
Proof. now destruct s. Qed.
Lemma low_astring_bytes s : astring_bytes (xa s) = lowers (astring_bytes s).
Proof. destruct s; [reflexivity | apply low_istring_bytes]. Qed.
Lemma ci_mailbox : ci p_mailbox p_mailbox xm.
Proof.
  unfold p_mailbox. eapply ci_expect; [apply ci_astring |]. intros a. unfold mailbox_from, mailbox_other_ok, eqi.
  rewrite low_astring_bytes, low_utf8, lowers_idem. destruct (_ && _); [reflexivity |]. now destruct (negb _).
Qed.
Hint Resolve ci_sequence_set ci_list_mailbox ci_mailbox : ci.
Lemma low_flag_system a : flag_system (lowers a) = x_flag lower (flag_system a).
Proof.
  unfold flag_system. rewrite lowers_idem. repeat (match goal with |- context [if ?b then _ else _] => destruct b end; try reflexivity).
Qed.
Lemma ci_flag : ci p_flag p_flag (x_flag lower).
Proof. unfold p_flag. cig. apply low_flag_system. Qed.
Hint Resolve ci_flag : ci.
Lemma ci_flag_list : ci p_flag_list p_flag_list (map (x_flag lower)).
Proof. unfold p_flag_list. cig. Qed.
Lemma ci_flag_fetch : ci p_flag_fetch p_flag_fetch (x_flag_fetch lower).
Proof.
  intros i. unfold p_flag_fetch.
  assert (R : ci (recognize (char bBS ;;; p_atom)) (recognize (char bBS ;;; p_atom)) lowers).
  { eapply ci_recognize with (h := lowers). cig. }
  assert (K : ci (pmap FFFlag p_flag) (pmap FFFlag p_flag) (x_flag_fetch lower)) by cig.
  rewrite R. destruct (recognize (char bBS ;;; p_atom) i) as [r s | | | |]; cbn [rmap]; try apply K; [| reflexivity].
  unfold eqi. rewrite lowers_idem. destruct (beqs _ _); [reflexivity | apply K].
Qed.
Lemma ci_flag_perm : ci p_flag_perm p_flag_perm (x_flag_perm lower).
Proof. unfold p_flag_perm. cig. Qed.
Lemma ci_mbx_list_flags : ci p_mbx_list_flags p_mbx_list_flags (map (x_flag_name lower)).
Proof.
  unfold p_mbx_list_flags. cig. unfold flag_name_attribute_from. rewrite lowers_idem.
  repeat (match goal with |- context [if ?b then _ else _] => destruct b end; try reflexivity).
Qed.
Hint Resolve ci_flag_list ci_flag_fetch ci_flag_perm ci_mbx_list_flags : ci.

(** datetime.rs *)
Lemma ci_digit_m_n m n max : ci (p_digit_m_n m n max) (p_digit_m_n m n max) id'.
Proof.
  eapply ci_map_res with (h := id').
  - eapply ci_expect; [apply ci_take_while_m_n_id, nl_digit |]. intros s. now destruct (utf8_ok s).
  - intros s. now destruct (parse_max max s).
Qed.
Lemma ci_digit_1_2 : ci p_digit_1_2 p_digit_1_2 id'. Proof. apply ci_digit_m_n. Qed.
Lemma ci_digit_2 : ci p_digit_2 p_digit_2 id'. Proof. apply ci_digit_m_n. Qed.
Lemma ci_digit_4 : ci p_digit_4 p_digit_4 id'. Proof. apply ci_digit_m_n. Qed.
Lemma ci_date_month : ci p_date_month p_date_month id'.
Proof. unfold p_date_month. cig. Qed.
Hint Resolve ci_digit_1_2 ci_digit_2 ci_digit_4 ci_date_month : ci.
Lemma ci_date_text : ci p_date_text p_date_text id'.
Proof.
  unfold p_date_text. cig. match goal with |- context [from_ymd_opt ?a ?b ?c] => destruct (from_ymd_opt a b c) end; cig.
Qed.
Hint Resolve ci_date_text : ci.
Lemma ci_date : ci p_date p_date id'.
Proof. unfold p_date, p_date_opt. eapply ci_map_res with (h := id'); [cig |]. now intros []. Qed.
Lemma ci_date_time : ci p_date_time p_date_time id'.
Proof.
  unfold p_date_time. eapply ci_bind; [apply ci_dquote | intros _].
  eapply ci_bind with (h := id').
  { unfold p_date_day_fixed. apply ci_alt. repeat apply Forall2_cons; [| apply ci_digit_2 | apply Forall2_nil].
    eapply ci_expect with (h := id').
    - eapply ci_bind; [apply ci_sp | intros _]. apply ci_take_while_m_n_id, nl_digit.
    - now intros [| b s]. }
  intros d. eapply ci_bind; [apply ci_tag; reflexivity | intros _]. eapply ci_bind; [apply ci_date_month | intros m].
  eapply ci_bind; [apply ci_tag; reflexivity | intros _]. eapply ci_bind; [apply ci_digit_4 | intros y].
  eapply ci_bind; [apply ci_sp | intros _].
  eapply ci_bind with (h := id'); [unfold p_time; cig | intros t]. eapply ci_bind; [apply ci_sp | intros _].
  eapply ci_bind with (h := id'). { unfold p_zone. cig. }
  intros z. eapply ci_bind; [apply ci_dquote | intros _]. cbv beta.
  destruct (from_ymd_opt y m d); [| cig]. destruct t as [[[hh mm] ss] |]; [| cig]. destruct z; [| cig].
  apply ci_if; cig.
Qed.
Hint Resolve ci_date ci_date_time : ci.

(** extensions/condstore_qresync.rs, status.rs *)
Lemma ci_mod_sequence_valzer : ci p_mod_sequence_valzer p_mod_sequence_valzer id'. Proof. apply ci_number64. Qed.
Hint Resolve ci_mod_sequence_valzer : ci.
Lemma ci_search_sort_mod_seq : ci p_search_sort_mod_seq p_search_sort_mod_seq id'.
Proof. unfold p_search_sort_mod_seq. cig. Qed.
Lemma ci_attr_flag : ci p_attr_flag p_attr_flag (x_attribute_flag lower).
Proof.
  unfold p_attr_flag. cig. unfold attribute_flag_system. rewrite lowers_idem.
  repeat (match goal with |- context [if ?b then _ else _] => destruct b end; try reflexivity).
Qed.
Hint Resolve ci_search_sort_mod_seq ci_attr_flag : ci.
Lemma ci_entry_type_req : ci p_entry_type_req p_entry_type_req id'.
Proof. unfold p_entry_type_req. cig. Qed.
Hint Resolve ci_entry_type_req : ci.
Lemma ci_search_modseq_ext : ci p_search_modseq_ext p_search_modseq_ext (fun p => (x_attribute_flag lower (fst p), snd p)).
Proof. unfold p_search_modseq_ext, p_entry_flag_name. cig. Qed.
Hint Resolve ci_search_modseq_ext : ci.
Notation xk := (x_search_key lower idm).
Lemma ci_search_modsequence : ci p_search_modsequence p_search_modsequence xk.
Proof. unfold p_search_modsequence. cig. Qed.
Hint Resolve ci_search_modsequence : ci.
Lemma ci_status_att : ci p_status_att p_status_att id'.
Proof. unfold p_status_att. cig. Qed.
Lemma ci_status_att_val : ci p_status_att_val p_status_att_val id'.
Proof. unfold p_status_att_val. cig. Qed.
Hint Resolve ci_status_att ci_status_att_val : ci.
Lemma ci_status_att_list : ci p_status_att_list p_status_att_list id'.
Proof. apply ci_list_id. unfold p_status_att_list. cig. Qed.
Hint Resolve ci_status_att_list : ci.

(** envelope.rs, body.rs *)
Lemma ci_address : ci p_address p_address (x_address lower idm).
Proof.
  unfold p_address. eapply ci_bind with (h := id'); [| intros _; cig].
  apply ci_if; [| now apply ci_ret]. eapply ci_bind; [apply ci_many0, ci_sp | intros _]. now apply ci_ret.
Qed.
Hint Resolve ci_address : ci.
Lemma ci_addresses : ci p_addresses p_addresses (map (x_address lower idm)).
Proof. unfold p_addresses. cig. Qed.
Hint Resolve ci_addresses : ci.
Lemma ci_envelope : ci p_envelope p_envelope (x_envelope lower idm).
Proof. unfold p_envelope. cig. Qed.
Lemma ci_pair : ci p_pair p_pair (x_param lower idm).
Proof. unfold p_pair. cig. Qed.
Hint Resolve ci_envelope ci_pair : ci.
Lemma ci_body_fld_param : ci p_body_fld_param p_body_fld_param (map (x_param lower idm)).
Proof. unfold p_body_fld_param. cig. Qed.
Lemma ci_body_fld_enc : ci p_body_fld_enc p_body_fld_enc xi.
Proof. unfold p_body_fld_enc. apply ci_if; [| cig]. eapply ci_pmap; [cig |]. now intros []. Qed.
Lemma ci_body_fld_octets : ci p_body_fld_octets p_body_fld_octets id'.
Proof. unfold p_body_fld_octets. cig. Qed.
Hint Resolve ci_body_fld_param ci_body_fld_enc ci_body_fld_octets : ci.
Lemma ci_body_fields : ci p_body_fields p_body_fields (x_basic lower idm).
Proof. unfold p_body_fields. cig. Qed.
Hint Resolve ci_body_fields : ci.
Lemma ci_body_extension n : ci (p_body_extension n) (p_body_extension n) (x_body_extension lower idm).
Proof. induction n as [| n IH]; cbn [p_body_extension]; cig. Qed.
Hint Resolve ci_body_extension : ci.
Lemma ci_body_fld_dsp : ci p_body_fld_dsp p_body_fld_dsp
  (option_map (fun p => (xi (fst p), map (x_param lower idm) (snd p)))).
Proof. unfold p_body_fld_dsp. cig. Qed.
Lemma ci_body_fld_lang : ci p_body_fld_lang p_body_fld_lang (map xi).
Proof.
  unfold p_body_fld_lang. apply ci_alt. repeat apply Forall2_cons; [| cig | apply Forall2_nil].
  eapply ci_pmap; [cig |]. now intros [].
Qed.
Hint Resolve ci_body_fld_dsp ci_body_fld_lang : ci.
Lemma ci_location : ci p_location p_location (x_location lower idm).
Proof. unfold p_location. cig. Qed.
Hint Resolve ci_location : ci.
Lemma ci_language : ci p_language p_language (x_language lower idm).
Proof. unfold p_language. cig. Qed.
Hint Resolve ci_language : ci.
Lemma ci_disposition : ci p_disposition p_disposition (x_disposition lower idm).
Proof. unfold p_disposition. cig. Qed.
Hint Resolve ci_disposition : ci.
Lemma ci_body_ext_1part : ci p_body_ext_1part p_body_ext_1part (x_single_ext lower idm).
Proof. unfold p_body_ext_1part. cig. Qed.
Lemma ci_body_ext_mpart : ci p_body_ext_mpart p_body_ext_mpart (x_multi_ext lower idm).
Proof. unfold p_body_ext_mpart. cig. Qed.
Hint Resolve ci_body_ext_1part ci_body_ext_mpart : ci.
Definition xspec (p : basic_fields * specific_fields) : basic_fields * specific_fields :=
  (x_basic lower idm (fst p),
   match snd p with
   | SFBasic t s => SFBasic (xi t) (xi s)
   | SFMessage e b n => SFMessage (x_envelope lower idm e) (x_body lower idm b) n
   | SFText s n => SFText (xi s) n
   end).
Lemma ci_body_f fuel : forall n, ci (p_body_f fuel n) (p_body_f fuel n) (x_body lower idm).
Proof.
  induction fuel as [| fuel IH]; intros n; cbn [p_body_f]; [apply ci_panic |]. destruct n as [| n]; [apply ci_pfail |].
  eapply ci_delimited; [apply ci_tag; reflexivity | | apply ci_tag; reflexivity].
  apply ci_alt. repeat apply Forall2_cons; [| | apply Forall2_nil].
  - destruct n as [| n]; cbn [p_body_type_1part]; [apply ci_pfail |].
    eapply ci_bind with (h := xspec).
    + apply ci_alt. repeat apply Forall2_cons; [| | | apply Forall2_nil].
      * unfold p_body_type_msg, p_media_message. cig.
      * unfold p_body_type_text, p_media_text. cig.
      * unfold p_body_type_basic. cig.
    + intros [b s]. unfold xspec. cbn [fst snd]. cig.
  - destruct n as [| n]; cbn [p_body_type_mpart]; [apply ci_pfail |]. cig.
Qed.
Lemma ci_body n : ci (p_body n) (p_body n) (x_body lower idm).
Proof. intros i. unfold p_body. rewrite lowers_length. apply ci_body_f. Qed.
Hint Resolve ci_body : ci.

(** fetch.rs, search.rs *)
Definition xps (p : part_specifier) : part_specifier :=
  match p with
  | PSHeaderFields l => PSHeaderFields (map xa l)
  | PSHeaderFieldsNot l => PSHeaderFieldsNot (map xa l)
  | p => p
  end.
Lemma ci_header_list : ci p_header_list p_header_list (map xa).
Proof. unfold p_header_list. cig. Qed.
Lemma ci_section_part : ci p_section_part p_section_part id'.
Proof. apply ci_list_id. unfold p_section_part. cig. Qed.
Hint Resolve ci_header_list ci_section_part : ci.
Lemma ci_section_msgtext : ci p_section_msgtext p_section_msgtext xps.
Proof. unfold p_section_msgtext. cig. Qed.
Hint Resolve ci_section_msgtext : ci.
Lemma ci_section_text : ci p_section_text p_section_text xps.
Proof. unfold p_section_text. cig. Qed.
Hint Resolve ci_section_text : ci.
Lemma ci_section_spec : ci p_section_spec p_section_spec (x_section lower idm).
Proof.
  unfold p_section_spec. apply ci_alt. repeat apply Forall2_cons; [| | apply Forall2_nil].
  - eapply ci_expect; [apply ci_section_msgtext |]. now intros [].
  - cig. destruct a0 as [[] |]; reflexivity.
Qed.
Hint Resolve ci_section_spec : ci.
Lemma ci_section : ci p_section p_section (option_map (x_section lower idm)).
Proof. unfold p_section. cig. Qed.
Lemma ci_section_binary : ci p_section_binary p_section_binary id'.
Proof.
  unfold p_section_binary. eapply ci_delimited; [cig | | cig]. eapply ci_pmap; [apply ci_opt; cig |]. now intros [].
Qed.
Lemma ci_partial : ci p_partial p_partial id'.
Proof. unfold p_partial. cig. Qed.
Hint Resolve ci_section ci_section_binary ci_partial : ci.
Lemma omap_id {A} (o : option A) : option_map id' o = o. Proof. now destruct o. Qed.
Lemma ci_fetch_att : ci p_fetch_att p_fetch_att (x_item_name lower idm).
Proof. unfold p_fetch_att. cig; rewrite omap_id; reflexivity. Qed.
Hint Resolve ci_fetch_att : ci.
Lemma ci_nstring8 : ci p_nstring8 p_nstring8 (x_nstring8 lower idm).
Proof. unfold p_nstring8. cig. Qed.
Hint Resolve ci_nstring8 : ci.
Lemma dflt_map {A B} (h : A -> B) o : dflt (option_map (map h) o) = map h (dflt o).
Proof. now destruct o. Qed.
Lemma ci_msg_att_dynamic : ci p_msg_att_dynamic p_msg_att_dynamic (x_message_data_item lower idm).
Proof. unfold p_msg_att_dynamic. cig. rewrite dflt_map. reflexivity. Qed.
Lemma ci_msg_att_static : ci p_msg_att_static p_msg_att_static (x_message_data_item lower idm).
Proof. unfold p_msg_att_static. cig. rewrite omap_id. reflexivity. Qed.
Hint Resolve ci_msg_att_dynamic ci_msg_att_static : ci.
Lemma ci_msg_att : ci p_msg_att p_msg_att (map (x_message_data_item lower idm)).
Proof. unfold p_msg_att. cig. Qed.
Hint Resolve ci_msg_att : ci.
Lemma ci_search_key n : ci (p_search_key n) (p_search_key n) xk.
Proof. induction n as [| n IH]; cbn [p_search_key]; cig. Qed.
Lemma ci_search_keys : ci p_search_keys p_search_keys (map xk).
Proof. apply ci_vecn. eapply ci_sep_list1; [apply ci_sp | apply ci_search_key]. Qed.
Hint Resolve ci_search_keys : ci.
Notation xc := (x_command_body lower idm).
Lemma ci_search : ci p_search p_search xc.
Proof. unfold p_search. cig. Qed.
Lemma ci_search_criteria : ci p_search_criteria p_search_criteria (fun p => (x_charset lower (fst p), map xk (snd p))).
Proof. unfold p_search_criteria. cig. Qed.
Hint Resolve ci_search ci_search_criteria : ci.

(** Commands *)
Lemma ci_id_param : ci p_id_param p_id_param (x_id_param lower idm).
Proof. unfold p_id_param. cig. Qed.
Hint Resolve ci_id_param : ci.
Lemma ci_id_params_list : ci p_id_params_list p_id_params_list (option_map (map (x_id_param lower idm))).
Proof. unfold p_id_params_list. cig. Qed.
Hint Resolve ci_id_params_list : ci.
Lemma ci_id : ci p_id p_id (option_map (map (x_id_param lower idm))).
Proof. unfold p_id. cig. Qed.
Lemma ci_idle_done : ci p_idle_done p_idle_done id'.
Proof. unfold p_idle_done. cig. Qed.
Lemma ci_capability_enable : ci p_capability_enable p_capability_enable (x_capability_enable lower).
Proof.
  unfold p_capability_enable. cig. unfold capability_enable_from. rewrite lowers_idem.
  repeat (match goal with |- context [if ?b then _ else _] => destruct b end; try reflexivity).
Qed.
Lemma low_resource a : resource_from (lowers a) = x_resource lower (resource_from a).
Proof.
  unfold resource_from. rewrite uppers_lowers.
  repeat (match goal with |- context [if ?b then _ else _] => destruct b end; try reflexivity).
Qed.
Lemma low_mech a : auth_mechanism_from (lowers a) = x_mech lower (auth_mechanism_from a).
Proof.
  unfold auth_mechanism_from. rewrite uppers_lowers.
  repeat (match goal with |- context [if ?b then _ else _] => destruct b end; try reflexivity).
Qed.
Lemma low_ta a : threading_algorithm_from (lowers a) = x_threading_algorithm lower (threading_algorithm_from a).
Proof.
  unfold threading_algorithm_from. rewrite lowers_idem.
  repeat (match goal with |- context [if ?b then _ else _] => destruct b end; try reflexivity).
Qed.
Lemma low_sa a : sort_algorithm_from (lowers a) = x_sort_algorithm lower (sort_algorithm_from a).
Proof.
  unfold sort_algorithm_from. rewrite lowers_idem.
  repeat (match goal with |- context [if ?b then _ else _] => destruct b end; try reflexivity).
Qed.
Lemma ci_resource_name : ci p_resource_name p_resource_name (x_resource lower).
Proof. unfold p_resource_name. cig. apply low_resource. Qed.
Hint Resolve ci_id ci_idle_done ci_capability_enable ci_resource_name : ci.
Lemma ci_setquota_resource : ci p_setquota_resource p_setquota_resource (x_quota_set lower).
Proof. unfold p_setquota_resource. cig. Qed.
Lemma ci_entry_value : ci p_entry_value p_entry_value (x_entry_value lower idm).
Proof. unfold p_entry_value. cig. Qed.
Hint Resolve ci_setquota_resource ci_entry_value : ci.
Lemma ci_entry_values : ci p_entry_values p_entry_values (map (x_entry_value lower idm)).
Proof. unfold p_entry_values. cig. Qed.
Lemma ci_getmetadata_option : ci p_getmetadata_option p_getmetadata_option id'.
Proof.
  unfold p_getmetadata_option. apply ci_alt. repeat apply Forall2_cons; [cig | | apply Forall2_nil].
  eapply ci_pmap with (h := id'); [cig | reflexivity].
Qed.
Hint Resolve ci_entry_values ci_getmetadata_option : ci.
Lemma ci_getmetadata_options : ci p_getmetadata_options p_getmetadata_options id'.
Proof. apply ci_list_id. unfold p_getmetadata_options. cig. Qed.
Lemma ci_entries : ci p_entries p_entries (map xa).
Proof. unfold p_entries. cig. Qed.
Lemma ci_sort_criterion : ci p_sort_criterion p_sort_criterion id'.
Proof.
  unfold p_sort_criterion. eapply ci_bind; [apply ci_opt_id, ci_kw | intros r].
  eapply ci_bind with (h := id'); [unfold p_sort_key; cig | intros k]. cig.
Qed.
Hint Resolve ci_getmetadata_options ci_entries ci_sort_criterion : ci.
Lemma ci_sort_criteria : ci p_sort_criteria p_sort_criteria id'.
Proof. apply ci_list_id. unfold p_sort_criteria. cig. Qed.
Hint Resolve ci_sort_criteria : ci.
Lemma ci_select_param : ci p_select_param p_select_param id'.
Proof.
  unfold p_select_param. apply ci_alt. repeat apply Forall2_cons; [cig | | apply Forall2_nil].
  eapply ci_bind; [apply ci_kw | intros _]. eapply ci_bind; [apply ci_nz_number | intros v].
  eapply ci_bind; [apply ci_sp | intros _]. eapply ci_bind; [apply ci_mod_sequence_value | intros m].
  eapply ci_bind with (h := id'); [apply ci_opt_id; cig | intros k].
  eapply ci_bind with (h := id'); [| intros d; cig]. apply ci_opt_id.
  eapply ci_bind; [apply ci_sp | intros _]. cig.
Qed.
Hint Resolve ci_select_param : ci.
Lemma ci_dflt {A} (p : parser (list A)) : ci p p (map id') -> ci (pmap dflt (opt p)) (pmap dflt (opt p)) id'.
Proof. intros P. eapply ci_pmap with (h := id'); [apply ci_opt_id; now apply ci_list_id | reflexivity]. Qed.
Lemma ci_select_params : ci p_select_params p_select_params id'.
Proof. unfold p_select_params. apply ci_if; [| now apply ci_ret]. apply ci_dflt. cig. Qed.
Lemma ci_fetch_modifiers : ci p_fetch_modifiers p_fetch_modifiers id'.
Proof.
  unfold p_fetch_modifiers. apply ci_if; [| now apply ci_ret]. apply ci_dflt.
  eapply ci_delimited; [cig | | cig]. eapply ci_sep_list1; [apply ci_sp |]. unfold p_fetch_modifier. cig.
Qed.
Lemma ci_store_modifiers : ci p_store_modifiers p_store_modifiers id'.
Proof.
  unfold p_store_modifiers. apply ci_if; [| now apply ci_ret]. apply ci_dflt.
  eapply ci_delimited; [cig | | cig]. eapply ci_sep_list1; [apply ci_sp |]. cig.
Qed.
Lemma ci_macro_or_items : ci p_macro_or_items p_macro_or_items (x_macro_or_items lower idm).
Proof. unfold p_macro_or_items. cig. Qed.
Hint Resolve ci_select_params ci_fetch_modifiers ci_store_modifiers ci_macro_or_items : ci.
Lemma ci_fetch : ci p_fetch p_fetch xc.
Proof. unfold p_fetch. cig. Qed.
Lemma ci_store_att_flags : ci p_store_att_flags p_store_att_flags (fun p => (fst p, map (x_flag lower) (snd p))).
Proof.
  unfold p_store_att_flags. eapply ci_bind with (h := id'); [apply ci_opt_id; cig | intros t].
  eapply ci_bind; [apply ci_kw | intros _]. eapply ci_bind with (h := id'); [apply ci_opt_id; cig | intros r]. cig.
Qed.
Hint Resolve ci_fetch ci_store_att_flags : ci.
Lemma ci_store : ci p_store p_store xc.
Proof.
  unfold p_store. do 4 (eapply ci_bind; [cig | intros ?]). eapply ci_bind; [cig | intros ?].
  eapply ci_bind; [apply ci_store_att_flags | intros [[t r] l]]. cbn [fst snd]. cig.
Qed.
Lemma ci_copy : ci p_copy p_copy xc.
Proof. unfold p_copy. cig. Qed.
Lemma ci_move : ci p_move p_move xc.
Proof. unfold p_move. cig. Qed.
Hint Resolve ci_store ci_copy ci_move : ci.
Lemma ci_uid : ci p_uid p_uid xc.
Proof.
  unfold p_uid. do 2 (eapply ci_bind; [cig | intros ?]). eapply ci_expect with (h := xc); [cig |]. now intros [].
Qed.
Lemma ci_sort : ci p_sort p_sort xc.
Proof.
  unfold p_sort. eapply ci_bind; [apply ci_opt_id, ci_kw | intros u]. do 3 (eapply ci_bind; [cig | intros ?]).
  eapply ci_bind; [apply ci_search_criteria | intros [cs ks]]. cbn [fst snd]. cig.
Qed.
Lemma ci_thread : ci p_thread p_thread xc.
Proof.
  unfold p_thread. eapply ci_bind; [apply ci_opt_id, ci_kw | intros u]. eapply ci_bind; [cig | intros ?].
  eapply ci_bind with (h := x_threading_algorithm lower).
  { eapply ci_pmap; [apply ci_atom | apply low_ta]. }
  intros alg. eapply ci_bind; [cig | intros ?].
  eapply ci_bind; [apply ci_search_criteria | intros [cs ks]]. cbn [fst snd]. cig.
Qed.
Hint Resolve ci_uid ci_sort ci_thread : ci.
Lemma ci_command_any : ci p_command_any p_command_any xc.
Proof. unfold p_command_any. cig. Qed.
Lemma ci_append : ci p_append p_append xc.
Proof.
  unfold p_append. eapply ci_bind; [cig | intros _]. eapply ci_bind; [apply ci_mailbox | intros m].
  eapply ci_bind with (h := option_map (map (x_flag lower))); [cig | intros fl].
  eapply ci_bind with (h := id'); [apply ci_opt_id; cig | intros d]. eapply ci_bind; [cig | intros ?].
  eapply ci_bind with (h := x_lit_or_lit8 lower idm); [cig | intros msg]. apply ci_ret. now rewrite dflt_map.
Qed.
Hint Resolve ci_append : ci.
Lemma ci_command_auth : ci p_command_auth p_command_auth xc.
Proof.
  unfold p_command_auth, p_create, p_delete, p_examine, p_list, p_lsub, p_rename, p_select, p_status, p_subscribe,
    p_unsubscribe, p_idle, p_enable, p_compress, p_getquota, p_getquotaroot, p_setquota, p_setmetadata, p_getmetadata,
    p_namespace_command.
  cig.
  all: first [rewrite map_id; reflexivity | match goal with |- context [option_map _ ?o] => destruct o; reflexivity end | reflexivity].
Qed.
Lemma ci_command_select : ci p_command_select p_command_select xc.
Proof. unfold p_command_select, p_uid_expunge. cig. Qed.
Lemma ci_login : ci p_login p_login xc.
Proof. unfold p_login. cig. Qed.

(** The same at one input *)
Definition ci_at {A B} (p' : parser B) (p : parser A) (h : A -> B) (i : bytes) : Prop := p' (lowers i) = rmap h (p i).
Definition authenticates (i : bytes) : Prop := exists r, kw "AUTHENTICATE " i = ROk r tt.
Lemma ci_authenticate i : ~ authenticates i -> ci_at p_authenticate p_authenticate xc i.
Proof.
  intros N. unfold ci_at, p_authenticate, bind. rewrite ci_kw.
  destruct (kw "AUTHENTICATE " i) as [r [] | | | |] eqn:E; try reflexivity. exfalso. apply N. now exists r.
Qed.
Lemma ci_at_orp {A A'} (p' q' : parser A') (p q : parser A) h i :
  ci_at p' p h i -> ci_at q' q h i -> ci_at (orp p' q') (orp p q) h i.
Proof. intros P Q. unfold ci_at, orp in *. rewrite P. destruct (p i); cbn; try reflexivity. exact Q. Qed.
Lemma ci_command_body i : ~ authenticates i -> ci_at p_command_body p_command_body xc i.
Proof.
  intros N.
  assert (K : ci_at (alt [p_command_any; p_command_auth; p_command_nonauth; p_command_select])
                    (alt [p_command_any; p_command_auth; p_command_nonauth; p_command_select]) xc i).
  { apply ci_at_orp; [apply ci_command_any |]. apply ci_at_orp; [apply ci_command_auth |].
    apply ci_at_orp; [| apply ci_command_select]. apply ci_at_orp; [apply ci_login |].
    apply ci_at_orp; [now apply ci_authenticate |].
    assert (S : ci (gate starttls (value CStartTls (kw "STARTTLS"))) (gate starttls (value CStartTls (kw "STARTTLS"))) xc) by cig.
    apply S. }
  unfold ci_at, p_command_body, terminated, bind in *. rewrite K.
  destruct (alt _ i) as [r a | | | |]; cbn [rmap]; try reflexivity.
  rewrite ci_crlf. now destruct (crlf r).
Qed.
Lemma rmap_fill {A B} (h : A -> B) t r : fill_tag (lowers t) (rmap h r) = rmap h (fill_tag t r).
Proof. destruct r as [| | | [t' n m |] |]; reflexivity. Qed.
(** The text after the tag and a space is not an AUTHENTICATE command. *)
Lemma ci_command i :
  (forall t r, terminated p_tag_imap sp i = ROk r t -> ~ authenticates r) ->
  ci_at p_command p_command (x_command lower idm) i.
Proof.
  intros N. unfold ci_at, p_command, bind.
  assert (T : ci (terminated p_tag_imap sp) (terminated p_tag_imap sp) lowers) by cig.
  rewrite T. destruct (terminated p_tag_imap sp i) as [r t | | | |] eqn:E; cbn [rmap]; try reflexivity.
  specialize (N _ _ eq_refl). pose proof (ci_command_body r N) as K. unfold ci_at in K.
  assert (K2 : pmap (mkCommand (lowers t)) p_command_body (lowers r) = rmap (x_command lower idm) (pmap (mkCommand t) p_command_body r)).
  { unfold pmap, bind. rewrite K. now destruct (p_command_body r). }
  rewrite K2. apply rmap_fill.
Qed.

(** Responses *)
Lemma ci_metadata_code : ci p_metadata_code p_metadata_code id'.
Proof. unfold p_metadata_code. cig. Qed.
Notation xd := (x_data lower idm).
Lemma ci_metadata_resp : ci p_metadata_resp p_metadata_resp xd.
Proof.
  unfold p_metadata_resp. do 4 (eapply ci_bind; [cig | intros ?]).
  eapply ci_bind with (h := x_metadata_response lower idm); [cig | intros it]. cig.
Qed.
Lemma ci_delimiter : ci p_delimiter p_delimiter (option_map lower).
Proof. unfold p_delimiter. cig. Qed.
Hint Resolve ci_metadata_code ci_metadata_resp ci_delimiter : ci.
Lemma ci_namespace_ext : ci p_namespace_ext p_namespace_ext (x_namespace_ext lower idm).
Proof. unfold p_namespace_ext. cig. Qed.
Hint Resolve ci_namespace_ext : ci.
Lemma ci_namespace_descr : ci p_namespace_descr p_namespace_descr (x_namespace lower idm).
Proof. unfold p_namespace_descr. cig. Qed.
Hint Resolve ci_namespace_descr : ci.
Lemma ci_namespace : ci p_namespace p_namespace (map (x_namespace lower idm)).
Proof. unfold p_namespace. cig. Qed.
Hint Resolve ci_namespace : ci.
Lemma ci_namespace_response : ci p_namespace_response p_namespace_response xd.
Proof. unfold p_namespace_response. cig. Qed.
Lemma ci_quota_sp : ci p_quota_sp p_quota_sp id'.
Proof. unfold p_quota_sp. apply ci_if; (eapply ci_value; [cig | reflexivity]). Qed.
Hint Resolve ci_namespace_response ci_quota_sp : ci.
Lemma ci_quota_resource : ci p_quota_resource p_quota_resource (x_quota_get lower).
Proof. unfold p_quota_resource. cig. Qed.
Hint Resolve ci_quota_resource : ci.
Lemma ci_quota_response : ci p_quota_response p_quota_response xd.
Proof. unfold p_quota_response. cig. Qed.
Lemma ci_quotaroot_response : ci p_quotaroot_response p_quotaroot_response xd.
Proof. unfold p_quotaroot_response. cig. Qed.
Lemma ci_thread_list n : ci (p_thread_list n) (p_thread_list n) id'.
Proof.
  induction n as [| n IH]; cbn [p_thread_list]; [apply ci_pfail |].
  eapply ci_delimited; [cig | | cig]. apply ci_alt. repeat apply Forall2_cons; [| | apply Forall2_nil].
  - eapply ci_bind with (h := id'); [apply ci_list_id; cig | intros p].
    eapply ci_bind with (h := id'); [apply ci_opt_id, ci_list_id; cig | intros o]. cig.
  - eapply ci_pmap with (h := id'); [apply ci_list_id; cig | reflexivity].
Qed.
Lemma ci_thread_data : ci p_thread_data p_thread_data xd.
Proof.
  unfold p_thread_data. eapply ci_bind; [cig | intros _].
  eapply ci_bind with (h := id'); [| intros o; cig]. apply ci_opt_id. eapply ci_bind; [cig | intros _].
  apply ci_list_id, ci_many1, ci_thread_list.
Qed.
Lemma ci_uid_set : ci p_uid_set p_uid_set id'.
Proof. apply ci_list_id. unfold p_uid_set, p_uid_range. cig. Qed.
Hint Resolve ci_quota_response ci_quotaroot_response ci_thread_data ci_uid_set : ci.
Lemma ci_enable_data : ci p_enable_data p_enable_data xd.
Proof. unfold p_enable_data. cig. Qed.
Lemma ci_mailbox_list : ci p_mailbox_list p_mailbox_list
  (fun p => (map (x_flag_name lower) (fst (fst p)), option_map lower (snd (fst p)), xm (snd p))).
Proof. unfold p_mailbox_list. cig. now rewrite dflt_map. Qed.
Lemma ci_nums : ci p_nums p_nums id'.
Proof. apply ci_list_id. unfold p_nums. cig. Qed.
Lemma ci_opt_modseq : ci p_opt_modseq p_opt_modseq id'.
Proof. unfold p_opt_modseq. apply ci_if; [| now apply ci_ret]. apply ci_opt_id. cig. Qed.
Lemma ci_opt_sp q : ci (p_opt_sp q) (p_opt_sp q) id'.
Proof. unfold p_opt_sp. apply ci_if; [| now apply ci_ret]. eapply ci_value; [cig | reflexivity]. Qed.
Hint Resolve ci_enable_data ci_mailbox_list ci_nums ci_opt_modseq ci_opt_sp : ci.
Lemma ci_mailbox_data : ci p_mailbox_data p_mailbox_data xd.
Proof.
  unfold p_mailbox_data. cig.
  - destruct a0 as [[l d] m]. cbn [fst snd]. cig.
  - destruct a0 as [[l d] m]. cbn [fst snd]. cig.
  - rewrite omap_id. reflexivity.
Qed.
Lemma split1_low c s : plain c = true ->
  split_once1 c (lowers s) = option_map (fun p => (lowers (fst p), lowers (snd p))) (split_once1 c s).
Proof.
  intros P. induction s as [| x s IH]; [reflexivity |]. cbn [lowers map split_once1]. rewrite (plain_beq _ _ P).
  destruct (beq x c); [reflexivity |]. change (map lower s) with (lowers s). rewrite IH.
  now destruct (split_once1 c s) as [[l r] |].
Qed.
Lemma split_once_lowered p s l r : split_once p (lowers s) = Some (l, r) -> lowers r = r.
Proof.
  revert l r. induction s as [| x s IH]; intros l r.
  - cbn. destruct p; [intros E; now injection E as <- <- | discriminate].
  - cbn [lowers map split_once]. destruct (starts_with p _).
    + intros E. injection E as _ <-. change (lower x :: map lower s) with (lowers (x :: s)).
      now rewrite lowers_skipn, lowers_idem.
    + change (map lower s) with (lowers s). destruct (split_once p (lowers s)) as [[l' r'] |] eqn:E'; [| discriminate].
      intros E. injection E as _ <-. eapply IH; reflexivity.
Qed.
Lemma low_capability_eq s : capability_eq (lowers s) = option_map (x_capability lower) (capability_eq s).
Proof.
  unfold capability_eq. rewrite split1_low by reflexivity. destruct (split_once1 "="%byte s) as [[l r] |]; [| reflexivity].
  cbn [option_map fst snd]. rewrite !lowers_idem, low_atom_ok.
  destruct (beqs (lowers l) (bs "auth")). { destruct (atom_ok r); cbn; [now rewrite low_mech | reflexivity]. }
  destruct (beqs (lowers l) (bs "compress")).
  { unfold compression_try_from. rewrite lowers_idem. destruct (atom_ok r), (beqs (lowers r) (bs "deflate")); reflexivity. }
  destruct (beqs (lowers l) (bs "quota")).
  { destruct (split_once (bs "res-") (lowers r)) as [[l' r'] |] eqn:E; [| reflexivity].
    apply split_once_lowered in E. destruct (atom_ok r'); [| reflexivity]. cbn. rewrite <- low_resource. now rewrite E. }
  destruct (beqs (lowers l) (bs "sort")). { destruct (atom_ok r); cbn; [now rewrite low_sa | reflexivity]. }
  destruct (beqs (lowers l) (bs "thread")). { destruct (atom_ok r); cbn; [now rewrite low_ta | reflexivity]. }
  reflexivity.
Qed.
Lemma low_capability s : capability_from (lowers s) = x_capability lower (capability_from s).
Proof.
  unfold capability_from. rewrite lowers_idem, low_capability_eq.
  repeat (match goal with |- context [if ?b then _ else _] => destruct b end; try reflexivity).
  now destruct (capability_eq s).
Qed.
Lemma ci_capability : ci p_capability p_capability (x_capability lower).
Proof. unfold p_capability. eapply ci_pmap; [apply ci_atom | apply low_capability]. Qed.
Hint Resolve ci_mailbox_data ci_capability : ci.
Lemma ci_capability_data : ci p_capability_data p_capability_data (map (x_capability lower)).
Proof. unfold p_capability_data. cig. Qed.
Hint Resolve ci_capability_data : ci.
Notation xcd := (x_code lower).
Lemma ci_resp_text_code : ci p_resp_text_code p_resp_text_code xcd.
Proof.
  unfold p_resp_text_code, p_resp_code_apnd, p_resp_code_copy. cig; try (rewrite dflt_map; reflexivity).
Qed.
Lemma ci_code_other : ci p_code_other p_code_other xcd.
Proof.
  unfold p_code_other. eapply ci_pmap with (h := lowers); [| reflexivity]. eapply ci_terminated; [| cig].
  apply ci_take_while, low_class_check. vm_compute. reflexivity.
Qed.
Lemma ci_text_after_code : ci p_text_after_code p_text_after_code lowers.
Proof.
  unfold p_text_after_code. apply ci_if; [| cig]. apply ci_alt. repeat apply Forall2_cons; [cig | | apply Forall2_nil].
  eapply ci_expect with (h := lowers); [eapply ci_value; [cig | reflexivity] |].
  intros s. unfold str_of. rewrite low_utf8. unfold text_ok. rewrite (low_ok _ _ low_text). now destruct (_ && _).
Qed.
Hint Resolve ci_resp_text_code ci_code_other ci_text_after_code : ci.
Notation xct := (fun p => (option_map xcd (fst p), lowers (snd p))).
Lemma ci_resp_text : ci p_resp_text p_resp_text xct.
Proof.
  intros i. unfold p_resp_text. assert (O : ci (opt (tg "[")) (opt (tg "[")) id') by (apply ci_opt_id; cig).
  rewrite O. destruct (opt (tg "[") i) as [r [[] |] | | | |]; cbn [rmap]; try reflexivity.
  - match goal with |- ?p _ = rmap ?h (?p i) => assert (K : ci p p h) end; [cig | apply K].
  - match goal with |- ?p _ = rmap ?h (?p i) => assert (K : ci p p h) end; [cig | apply K].
Qed.
Hint Resolve ci_resp_text : ci.
Lemma ci_resp_cond_bye : ci p_resp_cond_bye p_resp_cond_bye xct.
Proof. unfold p_resp_cond_bye. cig. Qed.
Lemma ci_greeting : ci p_greeting p_greeting (x_greeting lower).
Proof.
  unfold p_greeting. eapply ci_bind with (h := fun p => (fst p, xct (snd p))).
  - eapply ci_delimited; [cig | | cig]. apply ci_alt. repeat apply Forall2_cons; [| | apply Forall2_nil].
    + unfold p_resp_cond_auth. eapply ci_bind with (h := id'); [cig | intros k]. cig.
    + eapply ci_pmap; [apply ci_resp_cond_bye | reflexivity].
  - intros [k [c t]]. cbn [fst snd]. cig.
Qed.
Lemma ci_resp_cond_state : ci p_resp_cond_state p_resp_cond_state (x_status_body lower).
Proof.
  unfold p_resp_cond_state. eapply ci_bind with (h := id'); [cig | intros k].
  eapply ci_bind; [apply ci_resp_text | intros [c t]]. cbn [fst snd]. cig.
Qed.
Lemma ci_message_data : ci p_message_data p_message_data xd.
Proof.
  unfold p_message_data. apply ci_alt. repeat apply Forall2_cons; [| | apply Forall2_nil].
  - eapply ci_bind with (h := id'); [cig | intros n]. cig.
  - apply ci_gate. eapply ci_bind; [cig | intros _]. eapply ci_bind with (h := id'); [apply ci_opt_id; cig | intros e]. cig.
Qed.
Hint Resolve ci_resp_cond_bye ci_resp_cond_state ci_message_data : ci.
Notation xr := (x_response lower idm).
Lemma ci_response_data : ci p_response_data p_response_data xr.
Proof. unfold p_response_data. cig. Qed.
Lemma ci_response_done : ci p_response_done p_response_done (x_status lower).
Proof.
  unfold p_response_done. apply ci_alt. repeat apply Forall2_cons; [| | apply Forall2_nil].
  - unfold p_response_tagged. cig.
  - unfold p_response_fatal. eapply ci_bind with (h := xct); [cig | intros [c t]]. cbn [fst snd]. cig.
Qed.
Lemma tag_plus_rejects {A} t (k : unit -> parser A) i : (forall r, i <> "+"%byte :: r) ->
  bind (tag ("+"%byte :: t)) k i = match i with [] => RInc | _ => RErr end.
Proof.
  intros N. destruct i as [| x i]; [reflexivity |]. unfold bind. cbn. destruct (beq_spec x "+"%byte) as [-> |]; [| reflexivity].
  now destruct (N i).
Qed.
Lemma ci_response i : (forall r, i <> "+"%byte :: r) -> ci_at p_response p_response xr i.
Proof.
  intros N. unfold p_response.
  assert (N' : forall r, lowers i <> "+"%byte :: r).
  { intros r E. destruct i as [| x i]; [discriminate |]. injection E as E _. apply (N i). f_equal.
    pose proof (plain_beq "+"%byte x eq_refl) as K. rewrite E in K. now destruct (beq_spec x "+"%byte). }
  apply ci_at_orp; [| apply ci_at_orp; [| apply ci_at_orp; [apply ci_response_data |]]].
  - destruct quirk_empty_continue_req; [| reflexivity]. unfold ci_at, gate, p_empty_continue_req, pmap, expect, value.
    unfold bind at 1 2 3. rewrite (tag_plus_rejects [] _ _ N'). unfold bind at 1 2 3. rewrite (tag_plus_rejects [] _ _ N).
    now destruct i.
  - unfold ci_at, p_continue_req, pmap, expect.
    unfold bind at 1 2. rewrite (tag_plus_rejects [bSP] _ _ N'). unfold bind at 1 2. rewrite (tag_plus_rejects [bSP] _ _ N).
    now destruct i.
  - assert (K : ci (pmap RStatus p_response_done) (pmap RStatus p_response_done) xr); [| apply K].
    eapply ci_pmap; [apply ci_response_done | reflexivity].
Qed.
End CaseParse.
