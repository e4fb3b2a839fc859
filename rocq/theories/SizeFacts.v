(** Every rule of the grammar makes a value that is not larger than its text; the rules for lists
    without parentheses lack a separator. *)

From Verif Require Import Bytes Features Nom Types Utf8 ValueSpec Grammar ValidFacts SizeSpec.
Open Scope nat_scope.

(** [fits L f (S k)]: a text of [L] is at least as long as the size of its value, with [k] to
    spare; [fits L f 0]: one byte is missing at most. *)
Class fits {A} (L : lang A) (f : A -> nat) (k : nat) : Prop :=
  fit : forall t a, L t a -> k + f a <= 1 + length t.

Lemma same_letters_length t s : same_letters t s -> length t = length s.
Proof. induction 1; cbn; congruence. Qed.
Lemma list_size_cons {A} (f : A -> nat) a l : list_size f (a :: l) = 1 + f a + list_size f l.
Proof. reflexivity. Qed.

(** Sum up: what is known of the parts, and the lengths of the keywords and separators. *)
Ltac sizes := repeat match goal with
  | H : same_letters ?k (bs ?s) |- _ =>
    let L := fresh "len" in pose proof (same_letters_length _ _ H) as L; clear H;
    let n := eval vm_compute in (length (bs s)) in change (length (bs s)) with n in L
  | H : ?L ?t ?a |- _ =>
    let E := fresh "fit" in pose proof (fit (L := L) t a H) as E; clear H
  end.
Ltac lengths := rewrite ?app_length; cbn [length]; repeat match goal with
  | |- context [length (bs ?s)] =>
    let n := eval vm_compute in (length (bs s)) in change (length (bs s)) with n
  end.
Lemma list_size_nil {A} (f : A -> nat) : list_size f [] = 0.
Proof. reflexivity. Qed.
Lemma fixed_0 {A} (a : A) : fixed a = 0.
Proof. reflexivity. Qed.
Ltac done := sizes; lengths;
  unfold id_size, params_size, sequence_set_size, part_size, line_size, text_size, pair_size, nstring_size in *;
  cbn [opt_size fst snd length] in *; rewrite ?list_size_cons, ?list_size_nil, ?fixed_0 in *; lia.

(** ** Lists *)
#[local] Instance fits_sep_by {A} b s (L : lang A) f k : fits L f (S k) ->
  fits (sep_by (bs (ByteStr (b :: s))) L) (list_size f) k.
Proof.
  intros H t l S. induction S as [t a Ha | t a u l Ha Hl IH]; rewrite list_size_cons; specialize (H _ _ Ha).
  - cbn. lia.
  - rewrite !app_length. cbn [bs length]. lia.
Qed.
#[local] Instance fits_list_of {A} b s (L : lang A) f k : fits L f (S k) ->
  fits (list_of (bs (ByteStr (b :: s))) L) (list_size f) 0.
Proof.
  intros H t l S. destruct S as [| t l S]; [cbn; lia |]. pose proof (fits_sep_by b s L f k H _ _ S). lia.
Qed.
#[local] Instance fits_many {A} (L : lang A) f k : fits L f (S (S k)) -> fits (many L) (list_size f) 1.
Proof.
  intros H t l S. induction S as [| t a u l Ha Hl IH]; [cbn; lia |].
  rewrite list_size_cons, app_length. specialize (H _ _ Ha). lia.
Qed.
#[local] Instance fits_at_least {A} n (L : lang A) f k : fits L f (S (S k)) ->
  fits (at_least n L) (list_size f) 1.
Proof. intros H t l [S _]. exact (fits_many L f k H t l S). Qed.
#[local] Instance fits_optional {A} (L : lang A) f k : fits L f (S k) -> fits (optional L) (opt_size f) 1.
Proof. intros H t o [| t' a Ha]; cbn; [lia |]. specialize (H _ _ Ha). lia. Qed.
#[local] Instance fits_after {A} b s (L : lang A) f k : fits L f k ->
  fits (after (bs (ByteStr (b :: s))) L) f (S k).
Proof. intros H t a [t' a' Ha]. specialize (H _ _ Ha). rewrite app_length. cbn [bs length]. lia. Qed.
#[local] Instance fits_parens {A} (L : lang A) f k : fits L f k -> fits (in_parens L) f (2 + k).
Proof. intros H t a [t' a' Ha]. specialize (H _ _ Ha). lengths. lia. Qed.
#[local] Instance fits_opt_list {A} (L : lang A) f k : fits L f (S k) ->
  fits (opt_list L) (list_size f) 1.
Proof. intros H t a [| t' l Hl]; [cbn; lia |]. pose proof (fit t' l Hl). lengths. lia. Qed.
#[local] Instance fits_condstore {A} {F : features} (L : lang A) f k : fits L f (S k) ->
  fits (condstore_list L) (list_size f) 1.
Proof. intros H t a [[-> ->] | [_ H']]; [cbn; lia | exact (fit t a H')]. Qed.
Lemma fits_word {A} k (table : list (bytes * A)) (f : A -> nat) :
  Forall (fun p => k + f (snd p) <= 1 + length (fst p)) table -> fits (word table) f k.
Proof.
  intros H t a [t' s a' I E]. rewrite Forall_forall in H. specialize (H _ I). cbn in H.
  now rewrite (same_letters_length _ _ E).
Qed.
Lemma fits_name {A} (table : list (bytes * A)) other (f : A -> nat) :
  Forall (fun p => 1 + f (snd p) <= 1 + length (fst p)) table ->
  (forall s, f (other s) = length s) -> fits (name table other) f 1.
Proof.
  intros H Ho t a [t' s a' I E | t' [N _] _].
  - rewrite Forall_forall in H. specialize (H _ I). cbn in H. now rewrite (same_letters_length _ _ E).
  - rewrite Ho. destruct t'; [contradiction | cbn; lia].
Qed.
Lemma word_size {A} {B} (table : list (bytes * (B -> A))) (f : A -> nat) (g : B -> nat) t h x :
  Forall (fun p => forall x, f (snd p x) <= g x) table -> word table t h -> f (h x) <= g x.
Proof. intros H [t' s a' I E]. rewrite Forall_forall in H. apply (H _ I). Qed.
Ltac rows := repeat (apply Forall_app; split);
  repeat match goal with
  | |- Forall _ (when ?b _) => destruct b; cbn [when]
  | |- Forall _ (_ :: _) => constructor
  | |- Forall _ [] => constructor
  end.
Ltac by_rows := first [apply fits_word | apply fits_name; [| reflexivity]];
  unfold flag_table, flag_name_table, month_table, auth_table, resource_table, sort_algorithm_table,
    thread_table, enable_table, capability_table, attribute_flag_table, entry_type_table, search_words,
    status_att_table, fetch_words, macro_table, depth_table, sort_key_table, command_words, code_words,
    greeting_table, status_table;
  rows; cbn; rewrite ?fixed_0; lia.

Section Sizes.
Context {F : features}.

(** ** Tokens *)
Lemma some_length P t : some_of P t -> 1 <= length t.
Proof. intros [N _]. destruct t; [contradiction | cbn; lia]. Qed.
#[local] Instance fits_num m : fits (G_num m) fixed 2.
Proof. intros t n (N & _). destruct t; [contradiction | unfold fixed; cbn; lia]. Qed.
#[local] Instance fits_nz m : fits (G_nz m) fixed 2.
Proof. intros t n [H _]. exact (fit t n H). Qed.
#[local] Instance fits_number : fits G_number fixed 2.
Proof. apply fits_num. Qed.
#[local] Instance fits_number64 : fits G_number64 fixed 2.
Proof. apply fits_num. Qed.
#[local] Instance fits_nz_number : fits G_nz_number fixed 2.
Proof. apply fits_nz. Qed.
#[local] Instance fits_nz_number64 : fits G_nz_number64 fixed 2.
Proof. apply fits_nz. Qed.
#[local] Instance fits_tag : fits G_tag text_size 1.
Proof. intros t a [N ->]. apply some_length in N. unfold text_size. lia. Qed.
Lemma quoted_length w s : quoted_body w s -> length s <= length w.
Proof. induction 1; cbn; lia. Qed.
#[local] Instance fits_quoted : fits G_quoted text_size 3.
Proof. intros t a [w s H _]. apply quoted_length in H. unfold text_size. rewrite !app_length. cbn. lia. Qed.
#[local] Instance fits_literal : fits G_literal (fun l => length (lit_data l)) 3.
Proof. intros t a [d m mode e s]. lengths. cbn [lit_data]. lia. Qed.
#[local] Instance fits_literal8 : fits G_literal8 (fun l => length (lit8_data l)) 3.
Proof. intros t a [d m mode e s]. lengths. cbn [lit8_data]. lia. Qed.
#[local] Instance fits_string : fits G_string istring_size 3.
Proof.
  intros t a [t' s H | w s _ H _ _ | t' l H]; cbn [istring_size]; [done | | done].
  apply quoted_length in H. rewrite !app_length. cbn. lia.
Qed.
#[local] Instance fits_nstring : fits G_nstring nstring_size 3.
Proof. intros t a [t' s H | t' H]; unfold G_nil in *; done. Qed.
#[local] Instance fits_astring : fits G_astring astring_size 1.
Proof. intros t a [t' H | t' s H]; cbn [astring_size]; [apply some_length in H; lia | done]. Qed.
#[local] Instance fits_nstring8 : fits G_nstring8 nstring8_size 3.
Proof. intros t a [t' s H | t' s H]; cbn [nstring8_size]; done. Qed.
#[local] Instance fits_charset : fits G_charset charset_size 1.
Proof. intros t a [t' H | t' s H]; cbn [charset_size]; [apply some_length in H; lia | done]. Qed.
#[local] Instance fits_base64 : fits G_base64 text_size 1.
Proof. intros t p H. unfold text_size. induction H; cbn in *; lia. Qed.

(** ** Sequences, mailboxes, flags, names *)
#[local] Instance fits_seq_number : fits G_seq_number fixed 2.
Proof. intros t a [t' n H |]; done. Qed.
#[local] Instance fits_sequence : fits G_sequence fixed 2.
Proof. intros t a [t' x H | t' x u y H1 H2]; done. Qed.
#[local] Instance fits_set : fits G_sequence_set sequence_set_size 1.
Proof. intros t a H. unfold G_sequence_set in H. done. Qed.
#[local] Instance fits_mailbox : fits G_mailbox mailbox_size 1.
Proof.
  intros t m [t' a m' H E]. apply fit in H. destruct E as [[-> _] | [-> _]]; cbn [mailbox_size]; lia.
Qed.
#[local] Instance fits_list_mailbox : fits G_list_mailbox list_mailbox_size 1.
Proof. intros t a [t' H | t' s H]; cbn [list_mailbox_size]; [apply some_length in H; lia | done]. Qed.
#[local] Instance fits_flag_name_table : fits (name flag_table FExtension) flag_size 1.
Proof. by_rows. Qed.
#[local] Instance fits_flag : fits G_flag flag_size 1.
Proof. intros t a [t' f H | t' H]; [done | apply some_length in H; cbn [flag_size]; lia]. Qed.
#[local] Instance fits_flag_list : fits G_flag_list (list_size flag_size) 2.
Proof. intros t a H. unfold G_flag_list in H. done. Qed.
#[local] Instance fits_flag_fetch : fits G_flag_fetch flag_fetch_size 1.
Proof. intros t a [t' H | t' f H _]; cbn [flag_fetch_size]; done. Qed.
#[local] Instance fits_flag_perm : fits G_flag_perm flag_perm_size 1.
Proof. intros t a [| t' f H]; cbn [flag_perm_size]; done. Qed.
#[local] Instance fits_flag_name' : fits (name flag_name_table FNExtension) flag_name_size 1.
Proof. by_rows. Qed.
#[local] Instance fits_flag_name : fits G_flag_name flag_name_size 1.
Proof. intros t a H. unfold G_flag_name in H. apply fit in H. lia. Qed.
#[local] Instance fits_date : fits G_date fixed 2.
Proof. intros t a [t' d [] | t' d []]; done. Qed.
#[local] Instance fits_auth : fits G_auth_type auth_size 1.
Proof. by_rows. Qed.
#[local] Instance fits_resource : fits G_resource resource_size 1.
Proof. by_rows. Qed.
#[local] Instance fits_sort_alg : fits (name sort_algorithm_table SAOther) sort_algorithm_size 1.
Proof. by_rows. Qed.
#[local] Instance fits_thread_alg : fits G_thread_alg thread_algorithm_size 1.
Proof. by_rows. Qed.
#[local] Instance fits_enable : fits G_enable_name enable_size 1.
Proof. by_rows. Qed.
#[local] Instance fits_capability_word : fits (word capability_table) capability_size 1.
Proof. by_rows. Qed.
#[local] Instance fits_known_capability : fits G_known_capability capability_size 1.
Proof.
  intros t a []; cbn [capability_size]; try (done; fail).
  match goal with H : same_letters ?t ?u, G : G_resource ?u _ |- _ =>
    apply same_letters_length in H; apply fit in G end. done.
Qed.
#[local] Instance fits_capability : fits G_capability capability_size 1.
Proof. intros t a [t' c H | t' H _]; [done | apply some_length in H; cbn [capability_size]; lia]. Qed.
#[local] Instance fits_attr_name : fits (name attribute_flag_table AFExtension) attribute_flag_size 1.
Proof. by_rows. Qed.
#[local] Instance fits_attr : fits G_attr_flag attribute_flag_size 1.
Proof. intros t a [t' c H | t' H]; [done | apply some_length in H; cbn [attribute_flag_size]; lia]. Qed.
#[local] Instance fits_modseq_ext : fits G_modseq_ext (pair_size attribute_flag_size fixed) 1.
Proof. intros t a []. done. Qed.

(** ** Search keys *)
#[local] Instance fits_search_word : fits (word search_words) search_key_size 2.
Proof. by_rows. Qed.
Lemma search_astring_size k f s : word search_astring k f -> search_key_size (f s) <= astring_size s.
Proof. apply word_size. repeat constructor. Qed.
Lemma search_date_size k f s : word search_date k f -> search_key_size (f s) <= 0.
Proof. apply (word_size _ search_key_size fixed). repeat constructor. Qed.
Lemma sep_by_size {A} b s (L : lang A) f k l :
  Forall (fun a => forall t, L t a -> S k + f a <= 1 + length t) l ->
  forall t, sep_by (bs (ByteStr (b :: s))) L t l -> k + list_size f l <= 1 + length t.
Proof.
  intros H t S. induction S as [t a Ha | t a u l Ha Hl IH]; inversion_clear H as [| ? ? H1 H2];
    rewrite list_size_cons; specialize (H1 _ Ha).
  - cbn. lia.
  - specialize (IH H2). rewrite !app_length. cbn [bs length]. lia.
Qed.
Lemma many_size {A} (L : lang A) f l :
  Forall (fun a => forall t, L t a -> 2 + f a <= 1 + length t) l ->
  forall t, many L t l -> list_size f l <= length t.
Proof.
  intros H t S. induction S as [| t a u l Ha Hl IH]; [cbn; lia |]. inversion_clear H as [| ? ? H1 H2].
  rewrite list_size_cons. specialize (H1 _ Ha). specialize (IH H2). rewrite !app_length. lia.
Qed.
Definition key_fits (k : search_key) : Prop := forall t, G_search_key t k -> 1 + search_key_size k <= 1 + length t.
Definition sub_key_fits (k : search_key) : Prop :=
  match k with
  | KAnd l => Forall key_fits l | KNot k => key_fits k | KOr a b => key_fits a /\ key_fits b | _ => True
  end.
Lemma key_step t k : G_search_key t k -> sub_key_fits k -> 1 + search_key_size k <= 1 + length t.
Proof.
  intros H IH. destruct H; cbn [sub_key_fits] in IH; try (cbn [search_key_size]; done; fail).
  - match goal with H : word search_astring _ _ |- _ => apply (search_astring_size _ _ s) in H end.
    done.
  - match goal with H : word search_date _ _ |- _ => apply (search_date_size _ _ d) in H end.
    done.
  - match goal with H : G_search_key _ _ |- _ => apply IH in H end. cbn [search_key_size]. done.
  - destruct IH as [IH1 IH2]. cbn [search_key_size].
    match goal with H : G_search_key _ a, H' : G_search_key _ b |- _ => apply IH1 in H; apply IH2 in H' end. done.
  - match goal with H : in_parens _ _ _ |- _ => destruct H end. cbn [search_key_size].
    match goal with H : sep_by _ _ _ _ |- _ => apply (sep_by_size _ _ _ search_key_size 0 _ IH) in H end. done.
Qed.
#[local] Instance fits_search_key : fits G_search_key search_key_size 1.
Proof.
  intros t k. revert t. induction k as [l IH | k IH | k1 k2 IH1 IH2 | k Hk] using key_ind'; intros t H;
    apply (key_step t _ H); cbn; auto. destruct k; cbn; auto; contradiction.
Qed.
#[local] Instance fits_search_keys : fits G_search_keys (list_size search_key_size) 0.
Proof. intros t l [t' l' H _]. done. Qed.

(** ** Parts of commands *)
#[local] Instance fits_status_att : fits (word status_att_table) fixed 1.
Proof. by_rows. Qed.
#[local] Instance fits_status_val : fits G_status_val fixed 1.
Proof.
  intros t a [k L f t' n W H]. inversion W as [k' s a' I E]; subst; clear W H.
  apply same_letters_length in E. unfold status_val_table, when in I.
  destruct ext_condstore_qresync; cbn [In app] in I; repeat destruct I as [I | I]; try contradiction;
    injection I as <- _ _; rewrite app_length, E, fixed_0; cbn; lia.
Qed.
#[local] Instance fits_part : fits G_part part_size 1.
Proof. intros t a H. unfold G_part in H. done. Qed.
#[local] Instance fits_header_list : fits G_header_list (list_size astring_size) 2.
Proof. intros t a H. unfold G_header_list in H. done. Qed.
#[local] Instance fits_part_dot : fits G_part_dot (opt_size part_size) 1.
Proof. intros t a []; done. Qed.
#[local] Instance fits_section_spec : fits G_section_spec section_size 1.
Proof. intros t a []; cbn [section_size]; done. Qed.
#[local] Instance fits_section : fits G_section (opt_size section_size) 3.
Proof. intros t a []; done. Qed.
#[local] Instance fits_section_binary : fits G_section_binary part_size 3.
Proof. intros t a []; done. Qed.
#[local] Instance fits_partial : fits G_partial fixed 1.
Proof. intros t a []; done. Qed.
#[local] Instance fits_fetch_word : fits (word fetch_words) item_name_size 2.
Proof. by_rows. Qed.
#[local] Instance fits_fetch_att : fits G_fetch_att item_name_size 2.
Proof. intros t a []; cbn [item_name_size]; done. Qed.
#[local] Instance fits_items : fits G_macro_or_items macro_or_items_size 1.
Proof. intros t a []; cbn [macro_or_items_size]; done. Qed.
#[local] Instance fits_id_param : fits G_id_param (pair_size istring_size nstring_size) 1.
Proof. intros t a []; done. Qed.
#[local] Instance fits_id_params : fits G_id_params id_size 1.
Proof. intros t a []; unfold G_nil in *; done. Qed.
#[local] Instance fits_entry_value : fits G_entry_value entry_value_size 1.
Proof. intros t a []; unfold entry_value_size; cbn [ev_entry ev_value]; done. Qed.
#[local] Instance fits_entry_values : fits G_entry_values (list_size entry_value_size) 2.
Proof. intros t a H. unfold G_entry_values in H. done. Qed.
#[local] Instance fits_gm_option : fits G_getmetadata_option fixed 1.
Proof. intros t a [k t' n K H | k t' d K H]; done. Qed.
#[local] Instance fits_entries : fits G_entries (list_size astring_size) 0.
Proof. intros t a []; done. Qed.
#[local] Instance fits_quota_set : fits G_quota_set (fun q => resource_size (qs_resource q)) 1.
Proof. intros t a []; cbn [qs_resource]; done. Qed.
#[local] Instance fits_sort_key : fits (word sort_key_table) fixed 1.
Proof. by_rows. Qed.
#[local] Instance fits_sort_criterion : fits G_sort_criterion fixed 1.
Proof. intros t a []; done. Qed.
#[local] Instance fits_known_uids : fits G_known_uids (pair_size sequence_set_size sequence_set_size) 1.
Proof. intros t a []; done. Qed.
#[local] Instance fits_select_param : fits G_select_param select_parameter_size 1.
Proof. intros t a []; cbn [select_parameter_size]; done. Qed.
#[local] Instance fits_fetch_modifier : fits G_fetch_modifier fixed 1.
Proof. intros t a []; done. Qed.
#[local] Instance fits_store_modifier : fits G_store_modifier fixed 1.
Proof. intros t a []; done. Qed.
#[local] Instance fits_store_flags : fits G_store_flags (list_size flag_size) 0.
Proof. intros t a []; done. Qed.
#[local] Instance fits_message : fits G_message message_size 1.
Proof. intros t a []; cbn [message_size]; done. Qed.
#[local] Instance fits_opt_flags : fits G_opt_flags (list_size flag_size) 1.
Proof. intros t a [[-> ->] | H]; [done |]. destruct H. done. Qed.

(** ** Commands *)
#[local] Instance fits_command_word : fits (word command_words) command_body_size 1.
Proof. by_rows. Qed.
Lemma command_mailbox_size k f m : word command_mailbox k f -> command_body_size (f m) <= mailbox_size m.
Proof. apply word_size. repeat constructor. Qed.
#[local] Instance fits_command_body : fits G_command_body command_body_size 1.
Proof.
  intros t a H. destruct H; cbn [command_body_size]; try (done; fail).
  - match goal with H : word command_mailbox _ _ |- _ => apply (command_mailbox_size _ _ m) in H end. done.
  - match goal with H : _ \/ _ |- _ => destruct H as [H | [-> ->]] end; done.
Qed.
Lemma command_fits t c : G_command t c -> command_size c <= length t.
Proof. intros []. unfold command_size. cbn [cmd_tag cmd_body]. done. Qed.
Lemma authenticate_data_fits t c : G_authenticate_data t c -> authenticate_data_size c <= length t.
Proof. intros []; cbn [authenticate_data_size]; done. Qed.

(** ** Envelopes, body structures *)
#[local] Instance fits_address : fits G_address address_size 2.
Proof.
  intros t a [z ta a' tb b tc c td d _ H1 H2 H3 H4]. unfold address_size. cbn [ad_name ad_adl ad_mailbox ad_host]. done.
Qed.
#[local] Instance fits_addresses : fits G_addresses (list_size address_size) 1.
Proof. intros t a []; unfold G_nil in *; done. Qed.
#[local] Instance fits_envelope : fits G_envelope envelope_size 2.
Proof.
  intros t a []. unfold envelope_size.
  cbn [env_date env_subject env_from env_sender env_reply_to env_to env_cc env_bcc env_in_reply_to env_message_id]. done.
Qed.
#[local] Instance fits_pair : fits G_pair (pair_size istring_size istring_size) 1.
Proof. intros t a []; done. Qed.
#[local] Instance fits_params : fits G_body_params params_size 1.
Proof. intros t a []; unfold G_nil in *; done. Qed.
#[local] Instance fits_enc : fits G_body_enc istring_size 1.
Proof. intros t a []; unfold G_nil in *; cbn [istring_size length]; done. Qed.
#[local] Instance fits_fields : fits G_body_fields basic_size 1.
Proof.
  intros t a [tp p ti i td d te e ts s H1 H2 H3 H4 _]. unfold basic_size.
  cbn [bf_params bf_id bf_description bf_encoding]. done.
Qed.
#[local] Instance fits_extension d : fits (G_body_extension d) body_extension_size 1.
Proof.
  intros t e. revert d t. induction e as [n | n | l IH] using be_ind'; intros d t H; inversion H; subst;
    cbn [body_extension_size]; try (done; fail).
  match goal with H : in_parens _ _ _ |- _ => destruct H as [t' l' H'] end.
  apply (sep_by_size _ _ _ body_extension_size 0) in H'; [lengths; lia |].
  eapply Forall_impl; [| exact IH]. cbn. intros a Ha u Hu. exact (Ha _ _ Hu).
Qed.
#[local] Instance fits_dsp : fits G_body_dsp (opt_size (pair_size istring_size params_size)) 1.
Proof. intros t a []; unfold G_nil in *; done. Qed.
#[local] Instance fits_lang : fits G_body_lang (list_size istring_size) 1.
Proof. intros t a []; unfold G_nil in *; done. Qed.
#[local] Instance fits_location : fits G_location location_size 1.
Proof. intros t a []. unfold location_size. cbn [loc_location loc_extensions]. done. Qed.
#[local] Instance fits_language : fits G_language language_size 1.
Proof. intros t a []. unfold language_size. cbn [lang_language lang_tail]. done. Qed.
#[local] Instance fits_disposition : fits G_disposition disposition_size 1.
Proof. intros t a []. unfold disposition_size. cbn [disp_disposition disp_tail]. done. Qed.
#[local] Instance fits_single_ext : fits G_single_ext single_ext_size 1.
Proof. intros t a []. unfold single_ext_size. cbn [se_md5 se_tail]. done. Qed.
#[local] Instance fits_multi_ext : fits G_multi_ext multi_ext_size 1.
Proof. intros t a []. unfold multi_ext_size. cbn [me_params me_tail]. done. Qed.
#[local] Instance fits_body d : fits (G_body d) body_size 2.
Proof.
  intros t b. revert d t.
  induction b as [f ty s x | f s n x | f e c n x IH | l s x IH] using body_ind'; intros d t H; inversion H; subst;
    cbn [body_size specific_size].
  - done.
  - done.
  - match goal with H : G_body 5 _ _ |- _ => apply IH in H end. done.
  - match goal with H : at_least _ _ _ _ |- _ => destruct H as [H _]; apply (many_size _ body_size) in H end.
    + done.
    + eapply Forall_impl; [| exact IH]. cbn. intros a Ha u Hu. exact (Ha _ _ Hu).
Qed.
#[local] Instance fits_msg_att : fits G_msg_att message_data_item_size 1.
Proof. intros t a H. destruct H; cbn [message_data_item_size]; done. Qed.

(** ** Data *)
#[local] Instance fits_ns_ext : fits G_namespace_ext (fun e => istring_size (ne_key e) + list_size istring_size (ne_values e)) 2.
Proof. intros t a []; cbn [ne_key ne_values]; done. Qed.
#[local] Instance fits_ns_descr : fits G_namespace_descr namespace_size 2.
Proof. intros t a [tp p td d te e H1 _ H3]; unfold namespace_size; cbn [ns_prefix ns_extensions]; done. Qed.
#[local] Instance fits_namespace : fits G_namespace (list_size namespace_size) 1.
Proof. intros t a []; unfold G_nil in *; done. Qed.
#[local] Instance fits_quota_get : fits G_quota_get (fun q => resource_size (qg_resource q)) 1.
Proof. intros t a [tr r s1 tu u s2 tl l H1 _ H2 _ H3]; cbn [qg_resource]; done. Qed.
#[local] Instance fits_thread d : fits (G_thread d) thread_size 2.
Proof.
  intros t a. revert d t. induction a as [p | p l IH | l IH] using thread_ind'; intros d t H; inversion H; subst;
    cbn [thread_size].
  - done.
  - match goal with H : at_least _ _ _ _ |- _ => destruct H as [H _]; apply (many_size _ thread_size) in H end.
    + done.
    + eapply Forall_impl; [| exact IH]. cbn. intros a Ha v Hv. exact (Ha _ _ Hv).
  - match goal with H : at_least _ _ _ _ |- _ => destruct H as [H _]; apply (many_size _ thread_size) in H end.
    + done.
    + eapply Forall_impl; [| exact IH]. cbn. intros a Ha v Hv. exact (Ha _ _ Hv).
Qed.
#[local] Instance fits_capabilities : fits G_capabilities (list_size capability_size) 1.
Proof. intros t a [k t' l z K H _]; done. Qed.
#[local] Instance fits_uid_element : fits G_uid_element fixed 2.
Proof. intros t a []; done. Qed.
#[local] Instance fits_uid_set : fits G_uid_set (list_size fixed) 1.
Proof. intros t a H. unfold G_uid_set in H. done. Qed.
#[local] Instance fits_data : fits G_data data_size 1.
Proof.
  intros t a H. destruct H; cbn [data_size];
    repeat match goal with H : stray_space _ _ |- _ => clear H | H : G_modseq_result _ _ |- _ => clear H end;
    try (done; fail).
  - destruct H as (k' & tf & fl & td & de & tm & m & K & H1 & _ & H2 & -> & ->). cbn [data_size]. done.
  - destruct H as (k' & tf & fl & td & de & tm & m & K & H1 & _ & H2 & -> & ->). cbn [data_size]. done.
Qed.

(** ** Codes and texts *)
#[local] Instance fits_code_word : fits (word code_words) code_size 1.
Proof. by_rows. Qed.
#[local] Instance fits_known_code : fits G_known_code code_size 1.
Proof.
  intros t a H. destruct H as [t c H | k L f t n W H | | | | | |]; cbn [code_size]; try (done; fail).
  inversion W as [k' s a' I E]; subst; clear W H. unfold code_numbers, when in I.
  destruct ext_condstore_qresync, ext_metadata; cbn [In app] in I; repeat destruct I as [I | I]; try contradiction;
    injection I as _ _ <-; cbn [code_size]; lia.
Qed.
Lemma resp_text_fits t c x : G_resp_text t (c, x) -> line_size c x <= 1 + length t.
Proof.
  intros H. inversion H; subst; unfold line_size; cbn [opt_size code_size].
  - lia.
  - match goal with H : G_text_after_code _ _ |- _ => destruct H end; done.
  - match goal with H : G_text_after_code _ _ |- _ => destruct H end; lengths; lia.
Qed.
Ltac texts := repeat match goal with
  | H : G_resp_text _ (_, _) |- _ => apply resp_text_fits in H
  end.
Lemma greeting_fits t g : G_greeting t g -> greeting_size g <= length t.
Proof. intros []. unfold greeting_size. cbn [gr_code gr_text]. texts. lengths. lia. Qed.
#[local] Instance fits_status_word : fits (word status_table) fixed 2.
Proof. by_rows. Qed.
Lemma status_body_fits t b : G_status_body t b -> status_body_size b <= length t.
Proof. intros []. unfold status_body_size. cbn [sb_code sb_text]. texts. done. Qed.
Lemma response_fits t r : G_response t r ->
  response_size r <= length t \/
  (quirk_empty_continue_req = true /\ quirk_crlf_relaxed = true /\ t = bs "+" ++ [bLF] /\
   r = RContinue (CRBasic None (bs "..."))).
Proof.
  intros []; cbn [response_size]; texts;
    try match goal with H : G_status_body _ _ |- _ => apply status_body_fits in H end;
    try (left; lengths; lia); try (left; done; fail).
  match goal with H : eol _ |- _ => destruct H as [-> | [? ->]] end; [left; cbn; lia | right; auto].
Qed.
End Sizes.
