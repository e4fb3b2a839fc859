(** Every sentence of the grammar is one line, apart from literals. *)

From Verif Require Import Bytes BytesFacts Features Nom Types Utf8 ValueSpec ValueFacts Grammar ValidFacts CleanSpec.
Open Scope nat_scope.

Section Facts.
Context {F : features} (U : ext_utf8 = false) (X : byte -> Prop) (T : forall b, TEXT_CHAR b -> X b).
Notation line := (one_line X).
Class lined {A} (L : lang A) : Prop := is_line : forall t a, L t a -> line t.

Lemma line_app t u : line t -> line u -> line (t ++ u).
Proof.
  intros H G. induction H as [| b t Hb H IH | n e d t N D E C H IH | n e d t N D E C H IH | n e d t N D E H IH | n e d t N D E H IH];
    [exact G | now constructor | ..]; rewrite <- !app_assoc; now constructor.
Qed.
Lemma line_all t : Forall X t -> line t.
Proof. induction 1; now constructor. Qed.
Lemma line_text t : Forall TEXT_CHAR t -> line t.
Proof. intros H. apply line_all. revert H. apply Forall_impl. exact T. Qed.
Lemma line_some (P : byte -> Prop) t : (forall b, P b -> TEXT_CHAR b) -> some_of P t -> line t.
Proof. intros H [_ G]. apply line_text. revert G. now apply Forall_impl. Qed.
Definition textb (b : byte) : bool := let n := bN b in (0 <? n)%N && (n <? 128)%N && negb (n =? 13)%N && negb (n =? 10)%N.
Lemma textb_text b : textb b = true -> TEXT_CHAR b.
Proof. unfold TEXT_CHAR, CHAR. destruct b; intros H; try discriminate H; (split; [cbn; lia | split; discriminate]). Qed.
Lemma text_textb b : TEXT_CHAR b -> textb b = true.
Proof. unfold TEXT_CHAR, CHAR. destruct b; intros [H [A B]]; try reflexivity; exfalso; first [now apply A | now apply B | cbn in H; lia]. Qed.
Lemma same_letter_text a b : same_letter a b -> TEXT_CHAR b -> TEXT_CHAR a.
Proof.
  unfold TEXT_CHAR, CHAR. intros [-> | [[A B] | [A B]]]; [tauto | |]; intros _; (split; [lia |]); split; intros ->; cbn in *; lia.
Qed.
Lemma letters_text t s : same_letters t s -> Forall TEXT_CHAR s -> Forall TEXT_CHAR t.
Proof. induction 1 as [| a b t s E H IH]; intros G; inversion G; subst; constructor; [eapply same_letter_text; eauto | auto]. Qed.
Lemma line_const s : forallb textb s = true -> line s.
Proof. intros H. apply line_text. rewrite forallb_forall in H. apply Forall_forall. intros b I. now apply textb_text, H. Qed.
Lemma line_letters t s : same_letters t s -> forallb textb s = true -> line t.
Proof.
  intros E H. apply line_text. apply (letters_text _ _ E). rewrite forallb_forall in H. apply Forall_forall. intros b I. now apply textb_text, H.
Qed.
Lemma line_word {A} (table : list (bytes * A)) t a : forallb (fun p => forallb textb (fst p)) table = true -> word table t a -> line t.
Proof. intros H [u s x I E]. rewrite forallb_forall in H. apply (line_letters _ _ E). exact (H _ I). Qed.
Lemma atom_text b : ATOM_CHAR b -> TEXT_CHAR b.
Proof.
  intros [C N]. split; [exact C |]. split; intros ->; apply N; unfold atom_specials, CTL; right; right; right; right; left; cbn; lia.
Qed.
Lemma astring_text b : ASTRING_CHAR b -> TEXT_CHAR b.
Proof. intros [H | ->]; [now apply atom_text | now apply textb_text]. Qed.
Lemma tag_text b : TAG_CHAR b -> TEXT_CHAR b.
Proof. intros [H _]. now apply astring_text. Qed.
Lemma list_text b : LIST_CHAR b -> TEXT_CHAR b.
Proof. intros [H | [[-> | ->] | ->]]; [now apply atom_text | now apply textb_text ..]. Qed.
Lemma line_name {A} (table : list (bytes * A)) o t a : forallb (fun p => forallb textb (fst p)) table = true -> name table o t a -> line t.
Proof.
  intros H [u s x I E | u S _]; [| exact (line_some _ _ atom_text S)].
  rewrite forallb_forall in H. apply (line_letters _ _ E). exact (H _ I).
Qed.
Lemma line_digits t n : digits t n -> line t.
Proof.
  induction 1 as [| s n b D IH B]; [constructor |]. apply line_app; [exact IH |]. apply line_text. constructor; [| constructor].
  unfold TEXT_CHAR, CHAR. split; [cbn in B; lia |]. split; intros ->; cbn in B; lia.
Qed.
Lemma quoted_text w s : quoted_body w s -> many_of TEXT_CHAR s -> Forall TEXT_CHAR w.
Proof.
  induction 1 as [| b w s N Q IH | b w s S Q IH]; intros G; [constructor | |]; inversion G as [| b' s' G1 G2]; subst.
  - constructor; [exact G1 | exact (IH G2)].
  - constructor; [now apply textb_text |]. constructor; [exact G1 | exact (IH G2)].
Qed.
Lemma base64_text t p : G_base64 t p -> line t.
Proof.
  assert (V : forall c v, b64_value c v -> TEXT_CHAR c).
  { intros c v [[A _] | [[A _] | [[A _] | [[-> _] | [-> _]]]]]; try (now apply textb_text).
    all: unfold TEXT_CHAR, CHAR; (split; [lia |]); split; intros ->; cbn in A; lia. }
  assert (Q : TEXT_CHAR "="%byte) by now apply textb_text.
  intros H. apply line_text. induction H; repeat (apply Forall_cons; [first [exact Q | eapply V; eassumption] |]); auto.
Qed.
Lemma line_many (P : byte -> Prop) t : (forall b, P b -> TEXT_CHAR b) -> many_of P t -> line t.
Proof. intros H G. apply line_text. revert G. now apply Forall_impl. Qed.
Lemma line_stray q t : stray_space q t -> line t.
Proof. intros H. destruct H as [-> | [_ ->]]; [constructor | now apply line_const]. Qed.
Lemma l_nil t : G_nil t -> line t.
Proof. intros H. unfold G_nil in H. now apply (line_letters _ _ H). Qed.

Lemma resource_text u a : G_resource u a -> Forall TEXT_CHAR u.
Proof.
  intros [v s x I E | v S _]; [| destruct S as [_ S]; revert S; apply Forall_impl, atom_text].
  apply (letters_text _ _ E). cbn in I. repeat destruct I as [I | I]; try contradiction; injection I as <- _;
    repeat (apply Forall_cons; [now apply textb_text |]); constructor.
Qed.

Lemma sp_text b : bSP = b -> TEXT_CHAR b.
Proof. intros <-. now apply textb_text. Qed.
Lemma line_spaces (q : bool) z : z = [] \/ (q = true /\ Forall (eq bSP) z) -> line z.
Proof. intros [-> | [_ H]]; [constructor | exact (line_many _ _ sp_text H)]. Qed.
Lemma line_quota_space t : G_quota_space t -> line t.
Proof. intros [-> | [_ H]]; [now apply line_const | exact (line_some _ _ sp_text H)]. Qed.

(** Cut a text at its parts. *)
Ltac parts := repeat apply line_app; try (apply line_const; reflexivity);
  try match goal with
  | H : same_letters ?k _ |- line ?k => apply (line_letters _ _ H); reflexivity
  | H : many_of ATOM_CHAR ?k |- line ?k => exact (line_many _ _ atom_text H)
  | H : stray_space _ ?k |- line ?k => exact (line_stray _ _ H)
  | H : ?k = [] \/ (?q = true /\ _) |- line ?k => exact (line_stray q _ H)
  | H : ?k = [] \/ (?q = true /\ _) |- line ?k => exact (line_spaces q _ H)
  | H : G_quota_space ?k |- line ?k => exact (line_quota_space _ H)
  | H : G_nil ?k |- line ?k => exact (l_nil _ H)
  | H : some_of ATOM_CHAR ?k |- line ?k => exact (line_some _ _ atom_text H)
  | H : digits ?k _ |- line ?k => exact (line_digits _ _ H)
  | H : ?L ?k ?a |- line ?k => exact (is_line (L := L) k a H)
  end.
Ltac by_parts := let H := fresh in intros ? ? H; destruct H; parts.
Ltac by_table := let H := fresh in intros ? ? H; first [apply line_word in H | apply line_name in H]; [exact H |];
  unfold flag_table, flag_name_table, month_table, auth_table, resource_table, sort_algorithm_table,
    thread_table, enable_table, capability_table, attribute_flag_table, entry_type_table, search_words, search_astring, search_date,
    status_att_table, fetch_words, macro_table, depth_table, sort_key_table, command_words, command_mailbox, code_words,
    greeting_table, status_table, when; repeat match goal with |- context [if ?b then _ else _] => destruct b end; reflexivity.

(** ** Lists *)
#[local] Instance l_sep_by {A} s (L : lang A) : lined L -> forallb textb (bs s) = true -> lined (sep_by (bs s) L).
Proof. intros H Hs t l S. induction S; repeat apply line_app; eauto; now apply line_const. Qed.
#[local] Instance l_list_of {A} s (L : lang A) : lined L -> forallb textb (bs s) = true -> lined (list_of (bs s) L).
Proof. intros H Hs t l S. destruct S as [| t l S]; [constructor |]. exact (l_sep_by _ _ _ Hs _ _ S). Qed.
#[local] Instance l_many {A} (L : lang A) : lined L -> lined (many L).
Proof. intros H t l S. induction S; [constructor |]. apply line_app; eauto. Qed.
#[local] Instance l_at_least {A} n (L : lang A) : lined L -> lined (at_least n L).
Proof. intros H t l [S _]. exact (l_many L H t l S). Qed.
#[local] Instance l_optional {A} (L : lang A) : lined L -> lined (optional L).
Proof. intros H t o [| t' a Ha]; [constructor | eauto]. Qed.
#[local] Instance l_after {A} s (L : lang A) : lined L -> forallb textb (bs s) = true -> lined (after (bs s) L).
Proof. intros H Hs t a [t' a' Ha]. apply line_app; [now apply line_const | eauto]. Qed.
#[local] Instance l_parens {A} (L : lang A) : lined L -> lined (in_parens L).
Proof. intros H t a [t' a' Ha]. repeat apply line_app; eauto; now apply line_const. Qed.
#[local] Hint Extern 0 (forallb textb (bs _) = true) => reflexivity : typeclass_instances.
#[local] Instance l_opt_list {A} (L : lang A) : lined L -> lined (opt_list L).
Proof. intros H t a [| t' l Hl]; [constructor |]. parts. Qed.
#[local] Instance l_condstore {A} (L : lang A) : lined L -> lined (condstore_list L).
Proof. intros H t a [[-> ->] | [_ H']]; [constructor | exact (is_line t a H')]. Qed.

(** ** Tokens *)
#[local] Instance l_num m : lined (G_num m).
Proof. intros t n (_ & D & _). exact (line_digits _ _ D). Qed.
#[local] Instance l_nz m : lined (G_nz m).
Proof. intros t n [H _]. exact (is_line t n H). Qed.
#[local] Instance l_number : lined G_number. Proof. apply l_num. Qed.
#[local] Instance l_number64 : lined G_number64. Proof. apply l_num. Qed.
#[local] Instance l_nz_number : lined G_nz_number. Proof. apply l_nz. Qed.
#[local] Instance l_nz_number64 : lined G_nz_number64. Proof. apply l_nz. Qed.
#[local] Instance l_tag : lined G_tag.
Proof. intros t a [S ->]. exact (line_some _ _ tag_text S). Qed.
#[local] Instance l_quoted : lined G_quoted.
Proof. intros t a [w s H S]. parts. apply line_text. exact (quoted_text _ _ H S). Qed.
#[local] Instance l_literal : lined G_literal.
Proof.
  intros t a [d m mode e s (N & D & _) [] E C]; rewrite <- (app_nil_r (_ ++ _)), <- !app_assoc; cbn [app];
    [apply ol_literal | change (bs "+" ++ bs "}" ++ ?x) with (bs "+}" ++ x); apply ol_literal_plus]; try assumption; constructor.
Qed.
#[local] Instance l_literal8 : lined G_literal8.
Proof.
  intros t a [d m mode e s (N & D & _) [] E]; rewrite <- (app_nil_r (_ ++ _)), <- !app_assoc; cbn [app];
    [apply ol_literal8 | change (bs "+" ++ bs "}" ++ ?x) with (bs "+}" ++ x); apply ol_literal8_plus]; try assumption; constructor.
Qed.
#[local] Instance l_string : lined G_string.
Proof. intros t a [t' s H | w s E H _ _ | t' l H]; [parts | rewrite U in E; discriminate E | parts]. Qed.
#[local] Instance l_nstring : lined G_nstring.
Proof. intros t a [t' s H | t' H]; [parts | now apply l_nil]. Qed.
#[local] Instance l_astring : lined G_astring.
Proof. intros t a [t' H | t' s H]; [exact (line_some _ _ astring_text H) | parts]. Qed.
#[local] Instance l_nstring8 : lined G_nstring8. Proof. by_parts. Qed.
#[local] Instance l_charset : lined G_charset. Proof. by_parts. Qed.
#[local] Instance l_quoted_char : lined G_quoted_char.
Proof. intros t a [b w H Q]. parts. apply line_text. apply (quoted_text _ _ Q). constructor; [exact H | constructor]. Qed.
#[local] Instance l_base64 : lined G_base64. Proof. exact base64_text. Qed.

(** ** Sequences, mailboxes, flags, names *)
#[local] Instance l_seq_number : lined G_seq_number. Proof. by_parts. Qed.
#[local] Instance l_sequence : lined G_sequence. Proof. by_parts. Qed.
#[local] Instance l_set : lined G_sequence_set. Proof. unfold G_sequence_set. typeclasses eauto. Qed.
#[local] Instance l_mailbox : lined G_mailbox. Proof. by_parts. Qed.
#[local] Instance l_list_mailbox : lined G_list_mailbox.
Proof. intros t a [t' H | t' s H]; [exact (line_some _ _ list_text H) | parts]. Qed.
#[local] Instance l_flag_table : lined (name flag_table FExtension). Proof. by_table. Qed.
#[local] Instance l_flag : lined G_flag. Proof. by_parts. Qed.
#[local] Instance l_flag_list : lined G_flag_list. Proof. unfold G_flag_list. typeclasses eauto. Qed.
#[local] Instance l_flag_fetch : lined G_flag_fetch. Proof. by_parts. Qed.
#[local] Instance l_flag_perm : lined G_flag_perm. Proof. by_parts. Qed.
#[local] Instance l_flag_name_table : lined (name flag_name_table FNExtension). Proof. by_table. Qed.
#[local] Instance l_flag_name : lined G_flag_name. Proof. unfold G_flag_name. typeclasses eauto. Qed.
#[local] Instance l_month : lined (word month_table). Proof. by_table. Qed.
#[local] Instance l_k_digits k : lined (G_digits k).
Proof. intros t n [_ D]. exact (line_digits _ _ D). Qed.
#[local] Instance l_date_text : lined G_date_text. Proof. by_parts. Qed.
#[local] Instance l_date : lined G_date. Proof. by_parts. Qed.
#[local] Instance l_day_fixed : lined G_day_fixed. Proof. by_parts. Qed.
#[local] Instance l_zone : lined G_zone. Proof. by_parts. Qed.
#[local] Instance l_date_time : lined G_date_time. Proof. by_parts. Qed.
#[local] Instance l_auth : lined G_auth_type. Proof. by_table. Qed.
#[local] Instance l_resource : lined G_resource. Proof. by_table. Qed.
#[local] Instance l_sort_alg : lined (name sort_algorithm_table SAOther). Proof. by_table. Qed.
#[local] Instance l_thread_alg : lined G_thread_alg. Proof. by_table. Qed.
#[local] Instance l_enable : lined G_enable_name. Proof. by_table. Qed.
#[local] Instance l_capability_word : lined (word capability_table). Proof. by_table. Qed.
#[local] Instance l_known_capability : lined G_known_capability.
Proof.
  intros t a H. destruct H as [| | | | | k x r t u a K HX R NR TU LOW H]; parts.
  apply line_text. apply (letters_text _ _ TU). now apply resource_text in H.
Qed.
#[local] Instance l_capability : lined G_capability. Proof. by_parts. Qed.
#[local] Instance l_attr_name : lined (name attribute_flag_table AFExtension). Proof. by_table. Qed.
#[local] Instance l_attr : lined G_attr_flag. Proof. by_parts. Qed.
#[local] Instance l_entry_type : lined (word entry_type_table). Proof. by_table. Qed.
#[local] Instance l_modseq_ext : lined G_modseq_ext. Proof. by_parts. Qed.

(** ** Search keys *)
#[local] Instance l_search_word : lined (word search_words). Proof. by_table. Qed.
#[local] Instance l_search_astring : lined (word search_astring). Proof. by_table. Qed.
#[local] Instance l_search_date : lined (word search_date). Proof. by_table. Qed.
Lemma line_sep {A} s (L : lang A) l : forallb textb (bs s) = true ->
  Forall (fun a => forall t, L t a -> line t) l -> forall t, sep_by (bs s) L t l -> line t.
Proof.
  intros W H t S. induction S as [t a Ha | t a u l Ha Hl IH]; inversion_clear H as [| ? ? H1 H2]; [now apply H1 |].
  repeat apply line_app; [now apply H1 | now apply line_const | now apply IH].
Qed.
Lemma line_rep {A} (L : lang A) l : Forall (fun a => forall t, L t a -> line t) l -> forall t, many L t l -> line t.
Proof.
  intros H t S. induction S as [| t a u l Ha Hl IH]; [constructor |]. inversion_clear H as [| ? ? H1 H2].
  apply line_app; [now apply H1 | now apply IH].
Qed.
Definition key_line (k : search_key) : Prop := forall t, G_search_key t k -> line t.
Definition sub_key_line (k : search_key) : Prop :=
  match k with
  | KAnd l => Forall key_line l | KNot k => key_line k | KOr a b => key_line a /\ key_line b | _ => True
  end.
Lemma key_line_step t k : G_search_key t k -> sub_key_line k -> line t.
Proof.
  intros H IH. destruct H; cbn [sub_key_line] in IH; try (parts; fail).
  - parts. now apply IH.
  - destruct IH as [IH1 IH2]. parts; [now apply IH1 | now apply IH2].
  - match goal with H : in_parens _ _ _ |- _ => destruct H end. parts.
    eapply line_sep; [| exact IH | eassumption]; reflexivity.
Qed.
#[local] Instance l_search_key : lined G_search_key.
Proof.
  intros t k. revert t. induction k as [l IH | k IH | k1 k2 IH1 IH2 | k Hk] using key_ind'; intros t H;
    apply (key_line_step t _ H); cbn; auto. destruct k; cbn; auto; contradiction.
Qed.
#[local] Instance l_search_keys : lined G_search_keys. Proof. by_parts. Qed.

(** ** Parts of commands *)
#[local] Instance l_status_att : lined (word status_att_table). Proof. by_table. Qed.
#[local] Instance l_status_val : lined G_status_val.
Proof.
  intros t a [k L f t' n W H]. inversion W as [k' s a' I E]; subst; clear W. unfold status_val_table, when in I.
  destruct ext_condstore_qresync; cbn [In app] in I; repeat destruct I as [I | I]; try contradiction;
    injection I as <- <- <-; parts.
Qed.
#[local] Instance l_part : lined G_part. Proof. unfold G_part. typeclasses eauto. Qed.
#[local] Instance l_header_list : lined G_header_list. Proof. unfold G_header_list. typeclasses eauto. Qed.
#[local] Instance l_part_dot : lined G_part_dot. Proof. by_parts. Qed.
#[local] Instance l_section_spec : lined G_section_spec. Proof. by_parts. Qed.
#[local] Instance l_section : lined G_section. Proof. by_parts. Qed.
#[local] Instance l_section_binary : lined G_section_binary. Proof. by_parts. Qed.
#[local] Instance l_partial : lined G_partial. Proof. by_parts. Qed.
#[local] Instance l_fetch_word : lined (word fetch_words). Proof. by_table. Qed.
#[local] Instance l_fetch_att : lined G_fetch_att. Proof. by_parts. Qed.
#[local] Instance l_macro : lined (word macro_table). Proof. by_table. Qed.
#[local] Instance l_items : lined G_macro_or_items. Proof. by_parts. Qed.
#[local] Instance l_id_param : lined G_id_param. Proof. by_parts. Qed.
#[local] Instance l_id_params : lined G_id_params. Proof. by_parts. Qed.
#[local] Instance l_entry_value : lined G_entry_value. Proof. by_parts. Qed.
#[local] Instance l_entry_values : lined G_entry_values. Proof. unfold G_entry_values. typeclasses eauto. Qed.
#[local] Instance l_depth : lined (word depth_table). Proof. by_table. Qed.
#[local] Instance l_gm_option : lined G_getmetadata_option. Proof. by_parts. Qed.
#[local] Instance l_entries : lined G_entries. Proof. by_parts. Qed.
#[local] Instance l_quota_set : lined G_quota_set. Proof. by_parts. Qed.
#[local] Instance l_sort_key : lined (word sort_key_table). Proof. by_table. Qed.
#[local] Instance l_sort_criterion : lined G_sort_criterion. Proof. by_parts. Qed.
#[local] Instance l_known_uids : lined G_known_uids. Proof. by_parts. Qed.
#[local] Instance l_select_param : lined G_select_param. Proof. by_parts. Qed.
#[local] Instance l_fetch_modifier : lined G_fetch_modifier. Proof. by_parts. Qed.
#[local] Instance l_store_modifier : lined G_store_modifier. Proof. by_parts. Qed.
#[local] Instance l_store_flags : lined G_store_flags. Proof. by_parts. Qed.
#[local] Instance l_message : lined G_message. Proof. by_parts. Qed.
#[local] Instance l_opt_flags : lined G_opt_flags.
Proof. intros t a [[-> ->] | H]; [constructor |]. parts. Qed.

(** ** Commands *)
#[local] Instance l_command_word : lined (word command_words). Proof. by_table. Qed.
#[local] Instance l_command_mailbox : lined (word command_mailbox). Proof. by_table. Qed.
#[local] Instance l_uid : lined G_uid. Proof. intros t a []; [constructor | parts]. Qed.
#[local] Instance l_store_type : lined G_store_type. Proof. intros t a []; [constructor | parts ..]. Qed.
#[local] Instance l_silent : lined G_silent. Proof. intros t a []; [constructor | parts ..]. Qed.
#[local] Instance l_command_body : lined G_command_body.
Proof.
  intros t a H. destruct H; try (parts; fail).
  match goal with H : _ \/ _ |- _ => destruct H as [H | [-> ->]] end; parts.
Qed.
Lemma eol_end e : eol e -> line_end e.
Proof. exact (fun H => H). Qed.
Lemma clean_3 t u e : line t -> line u -> eol e -> clean X (t ++ u ++ e).
Proof. intros A B E. rewrite app_assoc. constructor; [now apply line_app | exact E]. Qed.
Lemma command_clean t c : G_command t c -> clean X t.
Proof. intros []. rewrite !app_assoc. constructor; [parts | assumption]. Qed.
Lemma authenticate_data_clean t c : G_authenticate_data t c -> clean X t.
Proof. intros []; (constructor; [parts | assumption]). Qed.
Lemma idle_done_clean t c : G_idle_done t c -> clean X t.
Proof. intros []; (constructor; [parts | assumption]). Qed.

(** ** Envelopes, body structures *)
#[local] Instance l_address : lined G_address. Proof. by_parts. Qed.
#[local] Instance l_addresses : lined G_addresses. Proof. by_parts. Qed.
#[local] Instance l_envelope : lined G_envelope. Proof. by_parts. Qed.
#[local] Instance l_pair : lined G_pair. Proof. by_parts. Qed.
#[local] Instance l_params : lined G_body_params. Proof. by_parts. Qed.
#[local] Instance l_enc : lined G_body_enc. Proof. by_parts. Qed.
#[local] Instance l_octets : lined G_octets. Proof. by_parts. Qed.
#[local] Instance l_fields : lined G_body_fields. Proof. by_parts. Qed.
#[local] Instance l_extension d : lined (G_body_extension d).
Proof.
  intros t e. revert d t. induction e as [n | n | l IH] using be_ind'; intros d t H; inversion H; subst; try (parts; fail).
  match goal with H : in_parens _ _ _ |- _ => destruct H as [t' l' H'] end. parts.
  apply (line_sep _ _ l') in H'; [exact H' | reflexivity |].
  eapply Forall_impl; [| exact IH]. cbn. intros a Ha u Hu. exact (Ha _ _ Hu).
Qed.
#[local] Instance l_dsp : lined G_body_dsp. Proof. by_parts. Qed.
#[local] Instance l_lang : lined G_body_lang. Proof. by_parts. Qed.
#[local] Instance l_location : lined G_location. Proof. by_parts. Qed.
#[local] Instance l_language : lined G_language. Proof. by_parts. Qed.
#[local] Instance l_disposition : lined G_disposition. Proof. by_parts. Qed.
#[local] Instance l_single_ext : lined G_single_ext. Proof. by_parts. Qed.
#[local] Instance l_multi_ext : lined G_multi_ext. Proof. by_parts. Qed.
#[local] Instance l_body d : lined (G_body d).
Proof.
  intros t b. revert d t.
  induction b as [f ty s x | f s n x | f e c n x IH | l s x IH] using body_ind'; intros d t H; inversion H; subst.
  - parts.
  - parts.
  - match goal with H : G_body 5 _ _ |- _ => apply IH in H end. parts; assumption.
  - match goal with H : at_least _ _ _ _ |- _ => destruct H as [H _]; apply (line_rep _ l) in H end.
    + parts; assumption.
    + eapply Forall_impl; [| exact IH]. cbn. intros a Ha u Hu. exact (Ha _ _ Hu).
Qed.
#[local] Instance l_origin : lined G_origin. Proof. by_parts. Qed.
#[local] Instance l_msg_att : lined G_msg_att. Proof. by_parts. Qed.

(** ** Data *)
#[local] Instance l_ns_ext : lined G_namespace_ext. Proof. by_parts. Qed.
#[local] Instance l_delimiter : lined G_delimiter. Proof. by_parts. Qed.
#[local] Instance l_ns_descr : lined G_namespace_descr. Proof. by_parts. Qed.
#[local] Instance l_namespace : lined G_namespace. Proof. by_parts. Qed.
#[local] Instance l_quota_get : lined G_quota_get. Proof. by_parts. Qed.
#[local] Instance l_thread d : lined (G_thread d).
Proof.
  intros t a. revert d t. induction a as [p | p l IH | l IH] using thread_ind'; intros d t H; inversion H; subst.
  - parts.
  - match goal with H : at_least _ _ _ _ |- _ => destruct H as [H _]; apply (line_rep _ l) in H end.
    + parts; assumption.
    + eapply Forall_impl; [| exact IH]. cbn. intros a Ha v Hv. exact (Ha _ _ Hv).
  - match goal with H : at_least _ _ _ _ |- _ => destruct H as [H _]; apply (line_rep _ l) in H end.
    + parts; assumption.
    + eapply Forall_impl; [| exact IH]. cbn. intros a Ha v Hv. exact (Ha _ _ Hv).
Qed.
#[local] Instance l_capabilities : lined G_capabilities. Proof. by_parts. Qed.
#[local] Instance l_uid_element : lined G_uid_element. Proof. by_parts. Qed.
#[local] Instance l_uid_set : lined G_uid_set. Proof. unfold G_uid_set. typeclasses eauto. Qed.
#[local] Instance l_modseq_result : lined G_modseq_result. Proof. intros t a []; [constructor | parts]. Qed.
#[local] Instance l_data : lined G_data.
Proof.
  intros t a H. destruct H; try (parts; fail).
  - destruct H as (k' & tf & fl & td & de & tm & m & K & H1 & H3 & H2 & -> & ->). parts.
  - destruct H as (k' & tf & fl & td & de & tm & m & K & H1 & H3 & H2 & -> & ->). parts.
Qed.

(** ** Codes and texts *)
#[local] Instance l_code_word : lined (word code_words). Proof. by_table. Qed.
#[local] Instance l_known_code : lined G_known_code.
Proof.
  intros t a H. destruct H as [t c H | k L f t n W H | | | | | |]; try (parts; fail).
  inversion W as [k' s a' I E]; subst; clear W. unfold code_numbers, when in I.
  destruct ext_condstore_qresync, ext_metadata; cbn [In app] in I; repeat destruct I as [I | I]; try contradiction;
    injection I as <- <- <-; parts.
Qed.
Lemma line_tac t x : G_text_after_code t x -> line t.
Proof. intros [t' [_ H] | _]; [| constructor]. parts. now apply line_text. Qed.
Lemma resp_text_line t c x : G_resp_text t (c, x) -> Forall X (code_text c) -> line t.
Proof.
  intros H C. inversion H; subst; cbn [code_text] in C.
  - apply line_text. now match goal with H : some_of _ _ |- _ => destruct H end.
  - match goal with H : G_text_after_code _ _ |- _ => apply line_tac in H end. parts; assumption.
  - match goal with H : G_text_after_code _ _ |- _ => apply line_tac in H end. parts; try assumption. now apply line_all.
Qed.
#[local] Instance l_greeting_word : lined (word greeting_table). Proof. by_table. Qed.
Lemma greeting_clean t g : G_greeting t g -> Forall X (greeting_code g) -> clean X t.
Proof.
  intros [] C. cbn [greeting_code gr_code] in C. rewrite !app_assoc. constructor; [| assumption]. parts.
  eapply resp_text_line; eassumption.
Qed.
#[local] Instance l_status_word : lined (word status_table). Proof. by_table. Qed.
Lemma status_body_line t b : G_status_body t b -> Forall X (code_text (sb_code b)) -> line t.
Proof. intros [] C. cbn [sb_code] in C. parts. eapply resp_text_line; eassumption. Qed.
Lemma response_clean t r : G_response t r -> Forall X (response_code r) -> clean X t.
Proof.
  intros [] C; cbn [response_code] in C; rewrite ?app_assoc; (constructor; [| assumption]); parts;
    first [eapply resp_text_line; eassumption | eapply status_body_line; eassumption].
Qed.
End Facts.

(** The bytes of an unknown code that was read *)
Section Codes.
Context {F : features}.
Lemma known_code_text t c : G_known_code t c -> code_text (Some c) = [].
Proof.
  intros H. destruct H as [t c H | k L f t n W H | | | | | |]; try reflexivity.
  - inversion H as [t' s a' I E]; subst. unfold code_words, when in I.
    repeat match type of I with context [if ?b then _ else _] => destruct b end; cbn [In app] in I;
      repeat destruct I as [I | I]; try contradiction; injection I as _ <-; reflexivity.
  - inversion W as [k' s a' I E]; subst; clear W. unfold code_numbers, when in I.
    destruct ext_condstore_qresync, ext_metadata; cbn [In app] in I; repeat destruct I as [I | I]; try contradiction;
      injection I as _ _ <-; reflexivity.
Qed.
Lemma resp_text_code t c x : G_resp_text t (c, x) -> Forall LINE_CHAR (code_text c).
Proof.
  intros H. inversion H; subst; [constructor | |].
  - erewrite known_code_text by eassumption. constructor.
  - cbn [code_text]. match goal with H : many_of CODE_CHAR _ |- _ => revert H end. apply Forall_impl. now intros b [_ K].
Qed.
Lemma greeting_code_line t g : G_greeting t g -> Forall LINE_CHAR (greeting_code g).
Proof. intros []. cbn [greeting_code gr_code]. eapply resp_text_code. eassumption. Qed.
Lemma response_code_line t r : G_response t r -> Forall LINE_CHAR (response_code r).
Proof.
  intros []; cbn [response_code code_text]; try constructor; try (eapply resp_text_code; eassumption);
    match goal with H : G_status_body _ _ |- _ => destruct H end; cbn [sb_code]; eapply resp_text_code; eassumption.
Qed.
(** Without a brace there is no literal. *)
Lemma no_brace X t : one_line X t -> ~ In "{"%byte t -> Forall X t.
Proof.
  intros H. induction H as [| b t Hb H IH | n e d t N D E C H IH | n e d t N D E C H IH | n e d t N D E H IH | n e d t N D E H IH];
    intros B; [constructor | constructor; [exact Hb | apply IH; intros K; apply B; now right] | ..]; exfalso; apply B.
  - now left.
  - now left.
  - right. now left.
  - right. now left.
Qed.
Lemma clean_bytes X t b : clean X t -> ~ In "{"%byte t -> In b t -> X b \/ b = bCR \/ b = bLF.
Proof.
  intros [u e H E] B I. apply in_app_iff in I as [I | I].
  - left. assert (K : Forall X u) by (apply (no_brace X u H); intros K; apply B, in_app_iff; now left).
    rewrite Forall_forall in K. exact (K b I).
  - right. destruct E as [-> | [_ ->]]; cbn in I; intuition.
Qed.
End Codes.
