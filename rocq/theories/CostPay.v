(** No step is free: a decoder that counts its steps counts at least one for every byte of
    the message it decodes. (The bytes that are only sliced are those of a literal8, and these
    are charged to the conversion of the literal.) *)

From Verif Require Import Bytes Dec Features Nom Types Utf8 Conv Base64 Date ParseCore ParseBody
  ParseCmd ParseResp.
From Verif Require Import CostNom CostCore CostBody CostCmd CostResp CostFacts.
From Coq Require Import Lia.

Local Open Scope nat_scope.

Definition pays {A} (q : parser A) : Prop := forall i,
  match q i with (ROk r _, c) => length i <= length r + c | _ => True end.

Section Pays.
Context {A B : Type}.
Lemma py_bind (p : parser A) (f : A -> parser B) : pays p -> (forall x, pays (f x)) -> pays (bind p f).
Proof.
  intros H K i. unfold bind. specialize (H i). destruct (p i) as [[r x| | | |] c]; try exact I.
  specialize (K x r). destruct (f x r) as [[r' y| | | |] d]; try exact I. lia.
Qed.
Lemma py_ret (x : A) : pays (ret x).
Proof. intros i. cbn. lia. Qed.
Lemma py_perr : pays (@perr A).
Proof. intros i. exact I. Qed.
Lemma py_pfail : pays (@pfail A).
Proof. intros i. exact I. Qed.
Lemma py_panic : pays (@panic A).
Proof. intros i. exact I. Qed.
Lemma py_conv (p : parser A) (f : A -> bytes -> res B) : keeps f -> pays (conv p f).
Proof.
  intros Hf i. unfold conv. destruct (p i) as [[r x| | | |] c]; try exact I. specialize (Hf x r).
  destruct (f x r) as [r' y| | | |]; try exact I. subst r'. lia.
Qed.
Lemma py_pmap (f : A -> B) p : pays (pmap f p).
Proof. apply py_conv. intros x r. reflexivity. Qed.
Lemma py_map_res (f : A -> option B) p : pays (map_res p f).
Proof. apply py_conv. intros x r. destruct (f x); [reflexivity|exact I]. Qed.
Lemma py_expect (f : A -> option B) p : pays (expect p f).
Proof. apply py_conv. intros x r. destruct (f x); [reflexivity|exact I]. Qed.
Lemma py_value (y : B) (p : parser A) : pays p -> pays (value y p).
Proof. intros H. apply py_bind; [exact H|]. intros _ i. cbn. lia. Qed.
Lemma py_gate t (p : parser A) : pays p -> pays (gate t p).
Proof. intros H. destruct t; [exact H|apply py_perr]. Qed.
Lemma py_orp (p q : parser A) : pays p -> pays q -> pays (orp p q).
Proof.
  intros H K i. unfold orp. specialize (H i). specialize (K i).
  destruct (p i) as [[r x| | | |] c]; try exact I; [lia|].
  destruct (q i) as [[r x| | | |] d]; try exact I. lia.
Qed.
Lemma py_opt (p : parser A) : pays p -> pays (opt p).
Proof.
  intros H i. unfold opt. specialize (H i). destruct (p i) as [[r x| | | |] c]; try exact I; lia.
Qed.
Lemma py_peek (p : parser A) : pays (peek p).
Proof. intros i. unfold peek. destruct (p i) as [[r x| | | |] c]; try exact I; lia. Qed.
Lemma py_recognize (p : parser A) : pays p -> pays (recognize p).
Proof.
  intros H i. unfold recognize. specialize (H i). destruct (p i) as [[r x| | | |] c]; try exact I; lia.
Qed.
Lemma py_many0_f (p : parser A) n : pays p -> pays (many0_f n p).
Proof.
  intros H. induction n as [|n IH]; intros i; [exact I|]. cbn [many0_f]. specialize (H i).
  destruct (p i) as [[r x| | | |] c]; try exact I; [|lia].
  destruct (Nat.ltb (length r) (length i)); [|exact I]. specialize (IH r).
  destruct (many0_f n p r) as [[r' l| | | |] d]; try exact I. lia.
Qed.
Lemma py_many0 (p : parser A) : pays p -> pays (many0 p).
Proof. intros H i. now apply py_many0_f. Qed.
Lemma py_many_m (p : parser A) m : pays p -> pays (many_m m p).
Proof.
  intros H. induction m as [|m IH]; [now apply py_many0|]. intros i. cbn [many_m]. specialize (H i).
  destruct (p i) as [[r x| | | |] c]; try exact I.
  destruct (Nat.ltb (length r) (length i)); [|exact I]. specialize (IH r).
  destruct (many_m m p r) as [[r' l| | | |] d]; try exact I. lia.
Qed.
Lemma py_sep_loop_f (s : parser B) (p : parser A) n : pays s -> pays p -> pays (sep_loop_f n s p).
Proof.
  intros H K. induction n as [|n IH]; intros i; [exact I|]. cbn [sep_loop_f]. specialize (H i).
  destruct (s i) as [[i1 x| | | |] c]; try exact I; [|lia].
  destruct (Nat.ltb (length i1) (length i)); [|exact I]. specialize (K i1).
  destruct (p i1) as [[i2 y| | | |] d]; try exact I; [|lia].
  destruct (Nat.leb (length i2) (length i1)); [|exact I]. specialize (IH i2).
  destruct (sep_loop_f n s p i2) as [[r l| | | |] e]; try exact I. lia.
Qed.
Lemma py_sep_list0 (s : parser B) (p : parser A) : pays s -> pays p -> pays (sep_list0 s p).
Proof.
  intros H K i. unfold sep_list0. pose proof (K i) as Ki.
  destruct (p i) as [[r y| | | |] d]; try exact I; [|lia].
  pose proof (py_sep_loop_f s p (S (length r)) H K r) as L.
  change (sep_loop_f (S (length r)) s p r) with (sep_loop s p r) in L.
  destruct (sep_loop s p r) as [[r' l| | | |] e]; try exact I. lia.
Qed.
Lemma py_if (t : bool) (p q : parser A) : pays p -> pays q -> pays (if t then p else q).
Proof. now destruct t. Qed.
End Pays.
Lemma py_many1 {A} (p : parser A) : pays p -> pays (many1 p).
Proof.
  intros H. apply py_bind; [exact H|]. intros x. apply py_bind; [now apply py_many0|]. intros l. apply py_ret.
Qed.
Lemma py_sep_list1 {A B} (s : parser B) (p : parser A) : pays s -> pays p -> pays (sep_list1 s p).
Proof.
  intros H K. apply py_bind; [exact K|]. intros x. apply py_bind; [|intros l; apply py_ret].
  intros i. now apply py_sep_loop_f.
Qed.
Lemma py_vecn {A} n (p : parser (list A)) : pays p -> pays (vecn n p).
Proof.
  intros H. apply py_bind; [exact H|]. intros l. destruct (Nat.leb n (length l)); [apply py_ret|intros i; exact I].
Qed.
Lemma py_tag t : pays (tag t).
Proof.
  induction t as [|c t IH]; intros i; [cbn; lia|]. destruct i as [|x i]; [exact I|]. cbn [tag].
  destruct (beq x c); [|exact I]. specialize (IH i). unfold tick.
  destruct (tag t i) as [[r u| | | |] d]; cbn [length] in *; try exact I. lia.
Qed.
Lemma py_kw t : pays (tag_no_case t).
Proof.
  induction t as [|c t IH]; intros i; [cbn; lia|]. destruct i as [|x i]; [exact I|]. cbn [tag_no_case].
  destruct (beq (lower x) (lower c)); [|exact I]. specialize (IH i). unfold tick.
  destruct (tag_no_case t i) as [[r u| | | |] d]; cbn [length] in *; try exact I. lia.
Qed.
Lemma py_sat f : pays (sat f).
Proof. intros [|x i]; [exact I|]. cbn. destruct (f x); [cbn; lia|exact I]. Qed.
Lemma py_char c : pays (char c).
Proof. apply py_sat. Qed.
Lemma py_take_while f : pays (take_while f).
Proof.
  intros i. unfold take_while, span_cost. destruct (span f i) as [[a r]|] eqn:E; [|exact I].
  apply span_split in E. subst i. rewrite app_length. lia.
Qed.
Lemma py_take_while1 f : pays (take_while1 f).
Proof.
  intros i. unfold take_while1, span_cost. destruct (span f i) as [[a r]|] eqn:E; [|exact I].
  apply span_split in E. subst i. destruct a; [exact I|]. rewrite app_length. lia.
Qed.
Lemma py_take_while_m_n m n f : pays (take_while_m_n m n f).
Proof.
  intros i. unfold take_while_m_n, span_cost. destruct (span f i) as [[a r]|] eqn:E.
  - apply span_split in E. subst i. destruct (Nat.leb m (length a)); [|exact I].
    destruct (Nat.leb (length a) n) eqn:L; rewrite skipn_length, app_length; [lia|].
    apply Nat.leb_gt in L. lia.
  - destruct (Nat.leb n (length i)) eqn:L; [|exact I]. rewrite skipn_length. lia.
Qed.
Lemma py_take_until2 c1 c2 : pays (take_until2 c1 c2).
Proof.
  intros i. unfold take_until2. destruct (find2 c1 c2 i) as [[a r]|] eqn:E; [|exact I].
  apply find2_split in E. subst i. rewrite app_length. lia.
Qed.
Lemma py_crlf {F : features} : pays crlf.
Proof.
  unfold crlf. apply py_if; [|apply py_tag]. apply py_bind; [apply py_opt, py_char|intros _].
  apply py_bind; [apply py_char|intros _; apply py_ret].
Qed.
Lemma py_work n {A} (q : parser A) : pays q -> pays (bind (work n) (fun _ => q)).
Proof.
  intros H i. unfold bind, work. specialize (H i). destruct (q i) as [[r x| | | |] c]; try exact I. lia.
Qed.
(** the bytes of a literal are taken, then checked *)
Lemma py_take_work {A} n (f : bytes -> parser A) : (forall d, pays (f d)) ->
  pays (bind (take n) (fun d => bind (work (length d)) (fun _ => f d))).
Proof.
  intros H i. unfold bind, take, work. destruct (N.leb n (lenN i)) eqn:E; [|exact I].
  set (k := N.to_nat n). specialize (H (firstn k i) (skipn k i)).
  destruct (f (firstn k i) (skipn k i)) as [[r x| | | |] c]; try exact I.
  pose proof (firstn_skipn k i) as X. apply (f_equal (@length byte)) in X. rewrite app_length in X. lia.
Qed.

Create HintDb py.
#[global] Hint Constants Opaque : py.
#[global] Hint Resolve py_ret py_perr py_pfail py_panic py_tag py_kw py_char py_sat py_take_while
  py_take_while1 py_take_while_m_n py_take_until2 py_crlf py_pmap py_map_res py_expect py_peek : py.
Ltac py_step :=
  first
    [ lazymatch goal with
      | |- pays (tag_no_case _) => apply py_kw
      | |- pays (tag _) => apply py_tag
      | |- pays (pmap _ _) => apply py_pmap
      | |- pays (bind (take _) _) => apply py_take_work; intros ?
      | |- pays (bind (work _) _) => apply py_work
      | |- pays (bind _ _) => apply py_bind; [|intros ?]
      | |- pays (delimited _ _ _) => apply py_bind; [|intros ?]
      | |- pays (terminated _ _) => apply py_bind; [|intros ?]
      | |- pays (validated _ _) => apply py_expect
      | |- pays (value _ _) => apply py_value
      | |- pays (vecn _ _) => apply py_vecn
      | |- pays (vec1 _) => apply py_vecn
      | |- pays (vec2 _) => apply py_vecn
      | |- pays (gate _ _) => apply py_gate
      | |- pays (opt _) => apply py_opt
      | |- pays (recognize _) => apply py_recognize
      | |- pays (many1 _) => apply py_many1
      | |- pays (many0 _) => apply py_many0
      | |- pays (many_m _ _) => apply py_many_m
      | |- pays (sep_list1 _ _) => apply py_sep_list1
      | |- pays (sep_list0 _ _) => apply py_sep_list0
      | |- pays sp => apply py_char
      | |- pays dquote => apply py_char
      | |- pays (alt _) => cbn [alt]
      | |- pays (orp _ _) => apply py_orp
      | |- pays (if ?b then _ else _) => destruct b
      | |- pays (match ?x with _ => _ end) => destruct x
      | H : forall n, pays (?q n) |- pays (?q _) => apply H
      | H : pays ?q |- pays ?q => exact H
      end
    | solve [typeclasses eauto 2 with py nocore] ].
Ltac py := repeat py_step.

Section All.
Context {F : features}.

Lemma py_digits : forall max, pays (q_digits max).
Proof. intros; unfold q_digits; py. Qed.
#[local] Hint Resolve py_digits : py.
Lemma py_number : pays (q_number).
Proof. unfold q_number; py. Qed.
#[local] Hint Resolve py_number : py.
Lemma py_number64 : pays (q_number64).
Proof. unfold q_number64; py. Qed.
#[local] Hint Resolve py_number64 : py.
Lemma py_nz_number : pays (q_nz_number).
Proof. unfold q_nz_number; py. Qed.
#[local] Hint Resolve py_nz_number : py.
Lemma py_quoted : pays (q_quoted).
Proof. unfold q_quoted; py. Qed.
#[local] Hint Resolve py_quoted : py.
Lemma py_quoted_utf8 : pays (q_quoted_utf8).
Proof. unfold q_quoted_utf8; py. Qed.
#[local] Hint Resolve py_quoted_utf8 : py.
Lemma py_lit_mode : pays (q_lit_mode).
Proof. unfold q_lit_mode; py. Qed.
#[local] Hint Resolve py_lit_mode : py.
Lemma py_lit_header : forall open, pays (q_lit_header open).
Proof. intros; unfold q_lit_header; py. Qed.
#[local] Hint Resolve py_lit_header : py.
Lemma py_lit_found : forall n m, pays (q_lit_found n m).
Proof. intros n m i. destruct i; cbn; [exact I|lia]. Qed.
#[local] Hint Resolve py_lit_found : py.
Lemma py_literal : pays (q_literal).
Proof. unfold q_literal; py. Qed.
#[local] Hint Resolve py_literal : py.
Lemma py_string : pays (q_string).
Proof. unfold q_string; py. Qed.
#[local] Hint Resolve py_string : py.
Lemma py_quoted_char : pays (q_quoted_char).
Proof. unfold q_quoted_char; py. Qed.
#[local] Hint Resolve py_quoted_char : py.
Lemma py_astring : pays (q_astring).
Proof. unfold q_astring; py. Qed.
#[local] Hint Resolve py_astring : py.
Lemma py_atom : pays (q_atom).
Proof. unfold q_atom; py. Qed.
#[local] Hint Resolve py_atom : py.
Lemma py_nil : pays (q_nil).
Proof. unfold q_nil; py. Qed.
#[local] Hint Resolve py_nil : py.
Lemma py_nstring : pays (q_nstring).
Proof. unfold q_nstring; py. Qed.
#[local] Hint Resolve py_nstring : py.
Lemma py_text : pays (q_text).
Proof. unfold q_text; py. Qed.
#[local] Hint Resolve py_text : py.
Lemma py_base64 : pays (q_base64).
Proof. unfold q_base64; py. Qed.
#[local] Hint Resolve py_base64 : py.
Lemma py_charset : pays (q_charset).
Proof. unfold q_charset; py. Qed.
#[local] Hint Resolve py_charset : py.
Lemma py_tag_imap : pays (q_tag_imap).
Proof. unfold q_tag_imap; py. Qed.
#[local] Hint Resolve py_tag_imap : py.
Lemma py_seq_number : pays (q_seq_number).
Proof. unfold q_seq_number; py. Qed.
#[local] Hint Resolve py_seq_number : py.
Lemma py_seq_range : pays (q_seq_range).
Proof. unfold q_seq_range; py. Qed.
#[local] Hint Resolve py_seq_range : py.
Lemma py_sequence_set : pays (q_sequence_set).
Proof. unfold q_sequence_set; py. Qed.
#[local] Hint Resolve py_sequence_set : py.
Lemma py_list_mailbox : pays (q_list_mailbox).
Proof. unfold q_list_mailbox; py. Qed.
#[local] Hint Resolve py_list_mailbox : py.
Lemma py_mailbox : pays (q_mailbox).
Proof. unfold q_mailbox; py. Qed.
#[local] Hint Resolve py_mailbox : py.
Lemma py_flag : pays (q_flag).
Proof. unfold q_flag; py. Qed.
#[local] Hint Resolve py_flag : py.
Lemma py_flag_list : pays (q_flag_list).
Proof. unfold q_flag_list; py. Qed.
#[local] Hint Resolve py_flag_list : py.
Lemma py_flag_fetch : pays (q_flag_fetch).
Proof.
  intros i. unfold q_flag_fetch.
  assert (H : pays (recognize (char bBS ;;; q_atom))) by py. specialize (H i).
  assert (K : pays (pmap FFFlag q_flag)) by py. specialize (K i).
  destruct (recognize (char bBS ;;; q_atom) i) as [[r a| | | |] c]; try exact I;
    try destruct (eqi a (bs "\recent"));
    destruct (pmap FFFlag q_flag i) as [[r' x| | | |] d]; try exact I; lia.
 Qed.
#[local] Hint Resolve py_flag_fetch : py.
Lemma py_flag_perm : pays (q_flag_perm).
Proof. unfold q_flag_perm; py. Qed.
#[local] Hint Resolve py_flag_perm : py.
Lemma py_mbx_list_flags : pays (q_mbx_list_flags).
Proof. unfold q_mbx_list_flags; py. Qed.
#[local] Hint Resolve py_mbx_list_flags : py.
Lemma py_digit_m_n : forall m n max, pays (q_digit_m_n m n max).
Proof. intros; unfold q_digit_m_n; py. Qed.
#[local] Hint Resolve py_digit_m_n : py.
Lemma py_digit_1_2 : pays (q_digit_1_2).
Proof. unfold q_digit_1_2; py. Qed.
#[local] Hint Resolve py_digit_1_2 : py.
Lemma py_digit_2 : pays (q_digit_2).
Proof. unfold q_digit_2; py. Qed.
#[local] Hint Resolve py_digit_2 : py.
Lemma py_digit_4 : pays (q_digit_4).
Proof. unfold q_digit_4; py. Qed.
#[local] Hint Resolve py_digit_4 : py.
Lemma py_date_month : pays (q_date_month).
Proof. unfold q_date_month; py. Qed.
#[local] Hint Resolve py_date_month : py.
Lemma py_date_text : pays (q_date_text).
Proof. unfold q_date_text; py. Qed.
#[local] Hint Resolve py_date_text : py.
Lemma py_date_opt : pays (q_date_opt).
Proof. unfold q_date_opt; py. Qed.
#[local] Hint Resolve py_date_opt : py.
Lemma py_date : pays (q_date).
Proof. unfold q_date; py. Qed.
#[local] Hint Resolve py_date : py.
Lemma py_time : pays (q_time).
Proof. unfold q_time; py. Qed.
#[local] Hint Resolve py_time : py.
Lemma py_date_day_fixed : pays (q_date_day_fixed).
Proof. unfold q_date_day_fixed; py. Qed.
#[local] Hint Resolve py_date_day_fixed : py.
Lemma py_zone : pays (q_zone).
Proof. unfold q_zone; py. Qed.
#[local] Hint Resolve py_zone : py.
Lemma py_date_time : pays (q_date_time).
Proof. unfold q_date_time; py. Qed.
#[local] Hint Resolve py_date_time : py.
Lemma py_mod_sequence_valzer : pays (q_mod_sequence_valzer).
Proof. unfold q_mod_sequence_valzer; py. Qed.
#[local] Hint Resolve py_mod_sequence_valzer : py.
Lemma py_mod_sequence_value : pays (q_mod_sequence_value).
Proof. unfold q_mod_sequence_value; py. Qed.
#[local] Hint Resolve py_mod_sequence_value : py.
Lemma py_search_sort_mod_seq : pays (q_search_sort_mod_seq).
Proof. unfold q_search_sort_mod_seq; py. Qed.
#[local] Hint Resolve py_search_sort_mod_seq : py.
Lemma py_attr_flag : pays (q_attr_flag).
Proof. unfold q_attr_flag; py. Qed.
#[local] Hint Resolve py_attr_flag : py.
Lemma py_entry_flag_name : pays (q_entry_flag_name).
Proof. unfold q_entry_flag_name; py. Qed.
#[local] Hint Resolve py_entry_flag_name : py.
Lemma py_entry_type_req : pays (q_entry_type_req).
Proof. unfold q_entry_type_req; py. Qed.
#[local] Hint Resolve py_entry_type_req : py.
Lemma py_search_modseq_ext : pays (q_search_modseq_ext).
Proof. unfold q_search_modseq_ext; py. Qed.
#[local] Hint Resolve py_search_modseq_ext : py.
Lemma py_search_modsequence : pays (q_search_modsequence).
Proof. unfold q_search_modsequence; py. Qed.
#[local] Hint Resolve py_search_modsequence : py.
Lemma py_status_att : pays (q_status_att).
Proof. unfold q_status_att; py. Qed.
#[local] Hint Resolve py_status_att : py.
Lemma py_status_att_val : pays (q_status_att_val).
Proof. unfold q_status_att_val; py. Qed.
#[local] Hint Resolve py_status_att_val : py.
Lemma py_status_att_list : pays (q_status_att_list).
Proof. unfold q_status_att_list; py. Qed.
#[local] Hint Resolve py_status_att_list : py.
Lemma py_address : pays (q_address).
Proof. unfold q_address; py. Qed.
#[local] Hint Resolve py_address : py.
Lemma py_addresses : pays (q_addresses).
Proof. unfold q_addresses; py. Qed.
#[local] Hint Resolve py_addresses : py.
Lemma py_envelope : pays (q_envelope).
Proof. unfold q_envelope; py. Qed.
#[local] Hint Resolve py_envelope : py.
Lemma py_pair : pays (q_pair).
Proof. unfold q_pair; py. Qed.
#[local] Hint Resolve py_pair : py.
Lemma py_body_fld_param : pays (q_body_fld_param).
Proof. unfold q_body_fld_param; py. Qed.
#[local] Hint Resolve py_body_fld_param : py.
Lemma py_body_fld_enc : pays (q_body_fld_enc).
Proof. unfold q_body_fld_enc; py. Qed.
#[local] Hint Resolve py_body_fld_enc : py.
Lemma py_body_fld_octets : pays (q_body_fld_octets).
Proof. unfold q_body_fld_octets; py. Qed.
#[local] Hint Resolve py_body_fld_octets : py.
Lemma py_body_fields : pays (q_body_fields).
Proof. unfold q_body_fields; py. Qed.
#[local] Hint Resolve py_body_fields : py.
Lemma py_body_extension : forall n, pays (q_body_extension n).
Proof. intros n; induction n as [|n IH]; cbn [q_body_extension]; py. Qed.
#[local] Hint Resolve py_body_extension : py.
Lemma py_body_fld_dsp : pays (q_body_fld_dsp).
Proof. unfold q_body_fld_dsp; py. Qed.
#[local] Hint Resolve py_body_fld_dsp : py.
Lemma py_body_fld_lang : pays (q_body_fld_lang).
Proof. unfold q_body_fld_lang; py. Qed.
#[local] Hint Resolve py_body_fld_lang : py.
Lemma py_location : pays (q_location).
Proof. unfold q_location; py. Qed.
#[local] Hint Resolve py_location : py.
Lemma py_language : pays (q_language).
Proof. unfold q_language; py. Qed.
#[local] Hint Resolve py_language : py.
Lemma py_disposition : pays (q_disposition).
Proof. unfold q_disposition; py. Qed.
#[local] Hint Resolve py_disposition : py.
Lemma py_body_ext_1part : pays (q_body_ext_1part).
Proof. unfold q_body_ext_1part; py. Qed.
#[local] Hint Resolve py_body_ext_1part : py.
Lemma py_body_ext_mpart : pays (q_body_ext_mpart).
Proof. unfold q_body_ext_mpart; py. Qed.
#[local] Hint Resolve py_body_ext_mpart : py.
Lemma py_body_type_basic : pays (q_body_type_basic).
Proof. unfold q_body_type_basic; py. Qed.
#[local] Hint Resolve py_body_type_basic : py.
Lemma py_media_message : pays (q_media_message).
Proof. unfold q_media_message; py. Qed.
#[local] Hint Resolve py_media_message : py.
Lemma py_media_text : pays (q_media_text).
Proof. unfold q_media_text; py. Qed.
#[local] Hint Resolve py_media_text : py.
Lemma py_body_type_text : pays (q_body_type_text).
Proof. unfold q_body_type_text; py. Qed.
#[local] Hint Resolve py_body_type_text : py.
Lemma py_body_f : forall fuel n, pays (q_body_f fuel n).
Proof.
  intros fuel; induction fuel as [|fuel IH]; intros n; cbn [q_body_f]; [py|].
  destruct n as [|n]; [py|]. unfold q_body_type_1part, q_body_type_mpart, q_body_type_msg. py.
 Qed.
#[local] Hint Resolve py_body_f : py.
Lemma py_body : forall n, pays (q_body n).
Proof. intros n i. apply py_body_f. Qed.
#[local] Hint Resolve py_body : py.
Lemma py_header_list : pays (q_header_list).
Proof. unfold q_header_list; py. Qed.
#[local] Hint Resolve py_header_list : py.
Lemma py_section_part : pays (q_section_part).
Proof. unfold q_section_part; py. Qed.
#[local] Hint Resolve py_section_part : py.
Lemma py_section_msgtext : pays (q_section_msgtext).
Proof. unfold q_section_msgtext; py. Qed.
#[local] Hint Resolve py_section_msgtext : py.
Lemma py_section_text : pays (q_section_text).
Proof. unfold q_section_text; py. Qed.
#[local] Hint Resolve py_section_text : py.
Lemma py_section_spec : pays (q_section_spec).
Proof. unfold q_section_spec; py. Qed.
#[local] Hint Resolve py_section_spec : py.
Lemma py_section : pays (q_section).
Proof. unfold q_section; py. Qed.
#[local] Hint Resolve py_section : py.
Lemma py_section_binary : pays (q_section_binary).
Proof. unfold q_section_binary; py. Qed.
#[local] Hint Resolve py_section_binary : py.
Lemma py_partial : pays (q_partial).
Proof. unfold q_partial; py. Qed.
#[local] Hint Resolve py_partial : py.
Lemma py_fetch_att : pays (q_fetch_att).
Proof. unfold q_fetch_att; py. Qed.
#[local] Hint Resolve py_fetch_att : py.
Lemma py_msg_att_dynamic : pays (q_msg_att_dynamic).
Proof. unfold q_msg_att_dynamic; py. Qed.
#[local] Hint Resolve py_msg_att_dynamic : py.
Lemma py_nstring8 : pays (q_nstring8).
Proof. unfold q_nstring8; py. Qed.
#[local] Hint Resolve py_nstring8 : py.
Lemma py_msg_att_static : pays (q_msg_att_static).
Proof. unfold q_msg_att_static; py. Qed.
#[local] Hint Resolve py_msg_att_static : py.
Lemma py_msg_att : pays (q_msg_att).
Proof. unfold q_msg_att; py. Qed.
#[local] Hint Resolve py_msg_att : py.
Lemma py_search_key : forall n, pays (q_search_key n).
Proof. intros n; induction n as [|n IH]; cbn [q_search_key]; py. Qed.
#[local] Hint Resolve py_search_key : py.
Lemma py_search_keys : pays (q_search_keys).
Proof. unfold q_search_keys; py. Qed.
#[local] Hint Resolve py_search_keys : py.
Lemma py_search : pays (q_search).
Proof. unfold q_search; py. Qed.
#[local] Hint Resolve py_search : py.
Lemma py_search_criteria : pays (q_search_criteria).
Proof. unfold q_search_criteria; py. Qed.
#[local] Hint Resolve py_search_criteria : py.
Lemma py_id_param : pays (q_id_param).
Proof. unfold q_id_param; py. Qed.
#[local] Hint Resolve py_id_param : py.
Lemma py_id_params_list : pays (q_id_params_list).
Proof. unfold q_id_params_list; py. Qed.
#[local] Hint Resolve py_id_params_list : py.
Lemma py_id : pays (q_id).
Proof. unfold q_id; py. Qed.
#[local] Hint Resolve py_id : py.
Lemma py_idle : pays (q_idle).
Proof. unfold q_idle; py. Qed.
#[local] Hint Resolve py_idle : py.
Lemma py_idle_done : pays (q_idle_done).
Proof. unfold q_idle_done; py. Qed.
#[local] Hint Resolve py_idle_done : py.
Lemma py_capability_enable : pays (q_capability_enable).
Proof. unfold q_capability_enable; py. Qed.
#[local] Hint Resolve py_capability_enable : py.
Lemma py_enable : pays (q_enable).
Proof. unfold q_enable; py. Qed.
#[local] Hint Resolve py_enable : py.
Lemma py_compress : pays (q_compress).
Proof. unfold q_compress; py. Qed.
#[local] Hint Resolve py_compress : py.
Lemma py_getquota : pays (q_getquota).
Proof. unfold q_getquota; py. Qed.
#[local] Hint Resolve py_getquota : py.
Lemma py_getquotaroot : pays (q_getquotaroot).
Proof. unfold q_getquotaroot; py. Qed.
#[local] Hint Resolve py_getquotaroot : py.
Lemma py_resource_name : pays (q_resource_name).
Proof. unfold q_resource_name; py. Qed.
#[local] Hint Resolve py_resource_name : py.
Lemma py_setquota_resource : pays (q_setquota_resource).
Proof. unfold q_setquota_resource; py. Qed.
#[local] Hint Resolve py_setquota_resource : py.
Lemma py_setquota : pays (q_setquota).
Proof. unfold q_setquota; py. Qed.
#[local] Hint Resolve py_setquota : py.
Lemma py_entry_value : pays (q_entry_value).
Proof. unfold q_entry_value; py. Qed.
#[local] Hint Resolve py_entry_value : py.
Lemma py_entry_values : pays (q_entry_values).
Proof. unfold q_entry_values; py. Qed.
#[local] Hint Resolve py_entry_values : py.
Lemma py_setmetadata : pays (q_setmetadata).
Proof. unfold q_setmetadata; py. Qed.
#[local] Hint Resolve py_setmetadata : py.
Lemma py_getmetadata_option : pays (q_getmetadata_option).
Proof. unfold q_getmetadata_option; py. Qed.
#[local] Hint Resolve py_getmetadata_option : py.
Lemma py_getmetadata_options : pays (q_getmetadata_options).
Proof. unfold q_getmetadata_options; py. Qed.
#[local] Hint Resolve py_getmetadata_options : py.
Lemma py_entries : pays (q_entries).
Proof. unfold q_entries; py. Qed.
#[local] Hint Resolve py_entries : py.
Lemma py_getmetadata : pays (q_getmetadata).
Proof. unfold q_getmetadata; py. Qed.
#[local] Hint Resolve py_getmetadata : py.
Lemma py_namespace_command : pays (q_namespace_command).
Proof. unfold q_namespace_command; py. Qed.
#[local] Hint Resolve py_namespace_command : py.
Lemma py_uid_expunge : pays (q_uid_expunge).
Proof. unfold q_uid_expunge; py. Qed.
#[local] Hint Resolve py_uid_expunge : py.
Lemma py_move : pays (q_move).
Proof. unfold q_move; py. Qed.
#[local] Hint Resolve py_move : py.
Lemma py_sort_key : pays (q_sort_key).
Proof. unfold q_sort_key; py. Qed.
#[local] Hint Resolve py_sort_key : py.
Lemma py_sort_criterion : pays (q_sort_criterion).
Proof. unfold q_sort_criterion; py. Qed.
#[local] Hint Resolve py_sort_criterion : py.
Lemma py_sort_criteria : pays (q_sort_criteria).
Proof. unfold q_sort_criteria; py. Qed.
#[local] Hint Resolve py_sort_criteria : py.
Lemma py_sort : pays (q_sort).
Proof. unfold q_sort; py. Qed.
#[local] Hint Resolve py_sort : py.
Lemma py_thread : pays (q_thread).
Proof. unfold q_thread; py. Qed.
#[local] Hint Resolve py_thread : py.
Lemma py_command_any : pays (q_command_any).
Proof. unfold q_command_any; py. Qed.
#[local] Hint Resolve py_command_any : py.
Lemma py_select_param : pays (q_select_param).
Proof. unfold q_select_param; py. Qed.
#[local] Hint Resolve py_select_param : py.
Lemma py_select_params : pays (q_select_params).
Proof. unfold q_select_params; py. Qed.
#[local] Hint Resolve py_select_params : py.
Lemma py_append : pays (q_append).
Proof. unfold q_append; py. Qed.
#[local] Hint Resolve py_append : py.
Lemma py_create : pays (q_create).
Proof. unfold q_create; py. Qed.
#[local] Hint Resolve py_create : py.
Lemma py_delete : pays (q_delete).
Proof. unfold q_delete; py. Qed.
#[local] Hint Resolve py_delete : py.
Lemma py_examine : pays (q_examine).
Proof. unfold q_examine; py. Qed.
#[local] Hint Resolve py_examine : py.
Lemma py_list : pays (q_list).
Proof. unfold q_list; py. Qed.
#[local] Hint Resolve py_list : py.
Lemma py_lsub : pays (q_lsub).
Proof. unfold q_lsub; py. Qed.
#[local] Hint Resolve py_lsub : py.
Lemma py_rename : pays (q_rename).
Proof. unfold q_rename; py. Qed.
#[local] Hint Resolve py_rename : py.
Lemma py_select : pays (q_select).
Proof. unfold q_select; py. Qed.
#[local] Hint Resolve py_select : py.
Lemma py_status : pays (q_status).
Proof. unfold q_status; py. Qed.
#[local] Hint Resolve py_status : py.
Lemma py_subscribe : pays (q_subscribe).
Proof. unfold q_subscribe; py. Qed.
#[local] Hint Resolve py_subscribe : py.
Lemma py_unsubscribe : pays (q_unsubscribe).
Proof. unfold q_unsubscribe; py. Qed.
#[local] Hint Resolve py_unsubscribe : py.
Lemma py_command_auth : pays (q_command_auth).
Proof. unfold q_command_auth; py. Qed.
#[local] Hint Resolve py_command_auth : py.
Lemma py_auth_type : pays (q_auth_type).
Proof. unfold q_auth_type; py. Qed.
#[local] Hint Resolve py_auth_type : py.
Lemma py_login : pays (q_login).
Proof. unfold q_login; py. Qed.
#[local] Hint Resolve py_login : py.
Lemma py_authenticate : pays (q_authenticate).
Proof. unfold q_authenticate; py. Qed.
#[local] Hint Resolve py_authenticate : py.
Lemma py_command_nonauth : pays (q_command_nonauth).
Proof. unfold q_command_nonauth; py. Qed.
#[local] Hint Resolve py_command_nonauth : py.
Lemma py_copy : pays (q_copy).
Proof. unfold q_copy; py. Qed.
#[local] Hint Resolve py_copy : py.
Lemma py_fetch_modifier : pays (q_fetch_modifier).
Proof. unfold q_fetch_modifier; py. Qed.
#[local] Hint Resolve py_fetch_modifier : py.
Lemma py_fetch_modifiers : pays (q_fetch_modifiers).
Proof. unfold q_fetch_modifiers; py. Qed.
#[local] Hint Resolve py_fetch_modifiers : py.
Lemma py_macro_or_items : pays (q_macro_or_items).
Proof. unfold q_macro_or_items; py. Qed.
#[local] Hint Resolve py_macro_or_items : py.
Lemma py_fetch : pays (q_fetch).
Proof. unfold q_fetch; py. Qed.
#[local] Hint Resolve py_fetch : py.
Lemma py_store_modifiers : pays (q_store_modifiers).
Proof. unfold q_store_modifiers; py. Qed.
#[local] Hint Resolve py_store_modifiers : py.
Lemma py_store_att_flags : pays (q_store_att_flags).
Proof. unfold q_store_att_flags; py. Qed.
#[local] Hint Resolve py_store_att_flags : py.
Lemma py_store : pays (q_store).
Proof. unfold q_store; py. Qed.
#[local] Hint Resolve py_store : py.
Lemma py_uid : pays (q_uid).
Proof. unfold q_uid; py. Qed.
#[local] Hint Resolve py_uid : py.
Lemma py_command_select : pays (q_command_select).
Proof. unfold q_command_select; py. Qed.
#[local] Hint Resolve py_command_select : py.
Lemma py_command_body : pays (q_command_body).
Proof. unfold q_command_body; py. Qed.
#[local] Hint Resolve py_command_body : py.
Lemma py_command : pays (q_command).
Proof.
  unfold q_command. apply py_bind; [py|]. intros t i.
  assert (H : pays (pmap (mkCommand t) q_command_body)) by py. specialize (H i).
  destruct (pmap (mkCommand t) q_command_body i) as [[r x| | |[t0 n m|]|] c]; cbn [fill_tag]; try exact I. lia.
 Qed.
#[local] Hint Resolve py_command : py.
Lemma py_authenticate_data : pays (q_authenticate_data).
Proof. unfold q_authenticate_data; py. Qed.
#[local] Hint Resolve py_authenticate_data : py.
Lemma py_metadata_code : pays (q_metadata_code).
Proof. unfold q_metadata_code; py. Qed.
#[local] Hint Resolve py_metadata_code : py.
Lemma py_metadata_resp : pays (q_metadata_resp).
Proof. unfold q_metadata_resp; py. Qed.
#[local] Hint Resolve py_metadata_resp : py.
Lemma py_delimiter : pays (q_delimiter).
Proof. unfold q_delimiter; py. Qed.
#[local] Hint Resolve py_delimiter : py.
Lemma py_namespace_ext : pays (q_namespace_ext).
Proof. unfold q_namespace_ext; py. Qed.
#[local] Hint Resolve py_namespace_ext : py.
Lemma py_namespace_descr : pays (q_namespace_descr).
Proof. unfold q_namespace_descr; py. Qed.
#[local] Hint Resolve py_namespace_descr : py.
Lemma py_namespace : pays (q_namespace).
Proof. unfold q_namespace; py. Qed.
#[local] Hint Resolve py_namespace : py.
Lemma py_namespace_response : pays (q_namespace_response).
Proof. unfold q_namespace_response; py. Qed.
#[local] Hint Resolve py_namespace_response : py.
Lemma py_quota_sp : pays (q_quota_sp).
Proof. unfold q_quota_sp; py. Qed.
#[local] Hint Resolve py_quota_sp : py.
Lemma py_quota_resource : pays (q_quota_resource).
Proof. unfold q_quota_resource; py. Qed.
#[local] Hint Resolve py_quota_resource : py.
Lemma py_quota_response : pays (q_quota_response).
Proof. unfold q_quota_response; py. Qed.
#[local] Hint Resolve py_quota_response : py.
Lemma py_quotaroot_response : pays (q_quotaroot_response).
Proof. unfold q_quotaroot_response; py. Qed.
#[local] Hint Resolve py_quotaroot_response : py.
Lemma py_thread_list : forall n, pays (q_thread_list n).
Proof. intros n; induction n as [|n IH]; cbn [q_thread_list]; py. Qed.
#[local] Hint Resolve py_thread_list : py.
Lemma py_thread_data : pays (q_thread_data).
Proof. unfold q_thread_data; py. Qed.
#[local] Hint Resolve py_thread_data : py.
Lemma py_uid_range : pays (q_uid_range).
Proof. unfold q_uid_range; py. Qed.
#[local] Hint Resolve py_uid_range : py.
Lemma py_uid_set : pays (q_uid_set).
Proof. unfold q_uid_set; py. Qed.
#[local] Hint Resolve py_uid_set : py.
Lemma py_resp_code_apnd : pays (q_resp_code_apnd).
Proof. unfold q_resp_code_apnd; py. Qed.
#[local] Hint Resolve py_resp_code_apnd : py.
Lemma py_resp_code_copy : pays (q_resp_code_copy).
Proof. unfold q_resp_code_copy; py. Qed.
#[local] Hint Resolve py_resp_code_copy : py.
Lemma py_enable_data : pays (q_enable_data).
Proof. unfold q_enable_data; py. Qed.
#[local] Hint Resolve py_enable_data : py.
Lemma py_mailbox_list : pays (q_mailbox_list).
Proof. unfold q_mailbox_list; py. Qed.
#[local] Hint Resolve py_mailbox_list : py.
Lemma py_nums : pays (q_nums).
Proof. unfold q_nums; py. Qed.
#[local] Hint Resolve py_nums : py.
Lemma py_opt_modseq : pays (q_opt_modseq).
Proof. unfold q_opt_modseq; py. Qed.
#[local] Hint Resolve py_opt_modseq : py.
Lemma py_opt_sp : forall quirk, pays (q_opt_sp quirk).
Proof. intros; unfold q_opt_sp; py. Qed.
#[local] Hint Resolve py_opt_sp : py.
Lemma py_mailbox_data : pays (q_mailbox_data).
Proof. unfold q_mailbox_data; py. Qed.
#[local] Hint Resolve py_mailbox_data : py.
Lemma py_capability : pays (q_capability).
Proof. unfold q_capability; py. Qed.
#[local] Hint Resolve py_capability : py.
Lemma py_capability_data : pays (q_capability_data).
Proof. unfold q_capability_data; py. Qed.
#[local] Hint Resolve py_capability_data : py.
Lemma py_resp_text_code : pays (q_resp_text_code).
Proof. unfold q_resp_text_code; py. Qed.
#[local] Hint Resolve py_resp_text_code : py.
Lemma py_code_other : pays (q_code_other).
Proof. unfold q_code_other; py. Qed.
#[local] Hint Resolve py_code_other : py.
Lemma py_text_after_code : pays (q_text_after_code).
Proof. unfold q_text_after_code; py. Qed.
#[local] Hint Resolve py_text_after_code : py.
Lemma py_resp_text : pays (q_resp_text).
Proof.
  intros i. unfold q_resp_text.
  assert (H : pays (tg "[" ;;; c <- alt [terminated q_resp_text_code (tg "]"); q_code_other] ;;
       t <- q_text_after_code ;; ret (Some c, t))) by py. specialize (H i).
  assert (K : pays (pmap (fun t => (@None code, t)) q_text)) by py. specialize (K i).
  destruct (opt (tg "[") i) as [[r [u|]| | | |] c]; try exact I.
  - revert H; match goal with |- context [let '(_, _) := ?t in _] => destruct t as [[r' x| | | |] d] end; try exact I; try (intros; exact I). intros; lia.
  - revert K; match goal with |- context [let '(_, _) := ?t in _] => destruct t as [[r' x| | | |] d] end; try (intros; exact I). intros; lia.
 Qed.
#[local] Hint Resolve py_resp_text : py.
Lemma py_resp_cond_auth : pays (q_resp_cond_auth).
Proof. unfold q_resp_cond_auth; py. Qed.
#[local] Hint Resolve py_resp_cond_auth : py.
Lemma py_resp_cond_bye : pays (q_resp_cond_bye).
Proof. unfold q_resp_cond_bye; py. Qed.
#[local] Hint Resolve py_resp_cond_bye : py.
Lemma py_greeting : pays (q_greeting).
Proof. unfold q_greeting; py. Qed.
#[local] Hint Resolve py_greeting : py.
Lemma py_empty_continue_req : pays (q_empty_continue_req).
Proof. unfold q_empty_continue_req; py. Qed.
#[local] Hint Resolve py_empty_continue_req : py.
Lemma py_until_crlf : pays (q_until_crlf).
Proof. unfold q_until_crlf; py. Qed.
#[local] Hint Resolve py_until_crlf : py.
Lemma py_continue_req : pays (q_continue_req).
Proof. unfold q_continue_req; py. Qed.
#[local] Hint Resolve py_continue_req : py.
Lemma py_resp_cond_state : pays (q_resp_cond_state).
Proof. unfold q_resp_cond_state; py. Qed.
#[local] Hint Resolve py_resp_cond_state : py.
Lemma py_message_data : pays (q_message_data).
Proof. unfold q_message_data; py. Qed.
#[local] Hint Resolve py_message_data : py.
Lemma py_response_data : pays (q_response_data).
Proof. unfold q_response_data; py. Qed.
#[local] Hint Resolve py_response_data : py.
Lemma py_response_tagged : pays (q_response_tagged).
Proof. unfold q_response_tagged; py. Qed.
#[local] Hint Resolve py_response_tagged : py.
Lemma py_response_fatal : pays (q_response_fatal).
Proof. unfold q_response_fatal; py. Qed.
#[local] Hint Resolve py_response_fatal : py.
Lemma py_response_done : pays (q_response_done).
Proof. unfold q_response_done; py. Qed.
#[local] Hint Resolve py_response_done : py.
Lemma py_response : pays (q_response).
Proof. unfold q_response; py. Qed.
#[local] Hint Resolve py_response : py.
End All.
