(** Every message type is read back from its serde representation. *)

From Verif Require Import Bytes BytesFacts Features Nom Types Utf8 Conv SeqSet Base64 Date Valid
  Ctors ValueSpec ValueFacts OkCore Serde SerdeTypes SerdeSpec SerdeFacts.
From Coq Require Import Lia.
Open Scope nat_scope.

Lemma rt_use A (d : tree -> option A) s P a : rt d s P -> P a = true -> d (s a) = Some a.
Proof. intros H K. now apply H. Qed.
Lemma pick_miss A name c (n : bytes) on d (l : list (variant A)) r : beqs n name = false ->
  pick name c l = r -> pick name c ((n, on, d) :: l) = r.
Proof. intros H. cbn. now rewrite H. Qed.
Lemma pick_hit A name c (n : bytes) on d (l : list (variant A)) r : beqs n name = true ->
  on = true -> d c = r -> pick name c ((n, on, d) :: l) = r.
Proof. intros H -> K. cbn. now rewrite H. Qed.
Lemma unit_hit A (a : A) : c_unit a None = Some a.
Proof. reflexivity. Qed.
Lemma newtype_hit A B (d : tree -> option A) (f : A -> B) t a : d t = Some a ->
  c_newtype d f (Some t) = Some (f a).
Proof. intros H. cbn. now rewrite H. Qed.
Lemma newopt_hit A B (d : tree -> option A) (f : option A -> B) t a : de_opt d t = Some a ->
  c_newopt d f (Some t) = Some (f a).
Proof. intros H. cbn. now rewrite H. Qed.
Lemma c_pair_hit A B C (d : tree -> option A) (e : tree -> option B) (f : A -> B -> C) x y a b :
  d x = Some a -> e y = Some b -> c_pair d e f (Some (TSeq [x; y])) = Some (f a b).
Proof. intros H K. cbn. now rewrite H, K. Qed.
Lemma c_struct_hit A names vals (k : slots -> option A) r : distinct names = true ->
  length names = length vals -> k (map Some vals) = r ->
  c_struct names k (Some (ser_struct names vals)) = r.
Proof. intros H L <-. now apply de_ser_struct. Qed.
Lemma struct_hit A names vals (k : slots -> option A) r : distinct names = true ->
  length names = length vals -> k (map Some vals) = r ->
  de_struct names k (ser_struct names vals) = r.
Proof. intros H L <-. now apply de_ser_struct. Qed.
Lemma req_hit A B (d : tree -> option A) (k : A -> slots -> option B) t s a r :
  d t = Some a -> k a s = r -> req d k (Some t :: s) = r.
Proof. intros H <-. now apply req_some. Qed.
Lemma opt_hit A B (d : tree -> option A) (k : option A -> slots -> option B) t s a r :
  de_opt d t = Some a -> k a s = r -> opt d k (Some t :: s) = r.
Proof. intros H <-. now apply opt_some. Qed.

Create HintDb rt.
#[export] Hint Resolve rt_vec rt_vec1 rt_vec2 rt_opt rt_pair rt_bool rt_string rt_char rt_num
  rt_nonzero rt_u8 null_vec null_pair null_num null_string null_char : rt.

(** Splits conjunctions of booleans in the hypotheses. *)
Ltac split_ok :=
  repeat match goal with
  | H : _ && _ = true |- _ => apply andb_prop in H; destruct H
  end.
Ltac leaf := eapply rt_use; [solve [eauto 8 with rt] |
  solve [assumption | reflexivity | apply andb_true_intro; split; assumption |
    match goal with |- vopt _ ?o = true => destruct o; reflexivity end]].
Ltac fields :=
  cbn [map app if_on];
  repeat first
    [ eapply req_hit; [leaf|] | eapply opt_hit; [leaf|]
    | match goal with |- only ?b _ _ _ _ = _ => unfold only at 1; cbv iota end ];
  reflexivity.
Ltac content :=
  first
    [ apply unit_hit
    | apply newopt_hit; leaf
    | apply newtype_hit; leaf
    | apply c_pair_hit; leaf
    | apply c_struct_hit; [reflexivity | reflexivity | fields] ].
Ltac variant_at :=
  first [rewrite de_ser_unit | rewrite de_ser_variant];
  repeat (apply pick_miss; [reflexivity|]);
  apply pick_hit;
    [reflexivity | first [reflexivity | assumption | rewrite Bool.orb_comm; assumption] |].
Ltac variant := variant_at; content.
Lemma height_variant name c : height c < height (ser_variant name c).
Proof. apply (height_entry key_content). right. now left. Qed.

Section SerdeRt.
Context {F : features}.

(** ** Leaves *)
Lemma rt_atom : rt de_atom ser_atom atom_ok.
Proof.
  apply rt_str. intros s H. split; [assumption|]. apply atom_ok_spec in H as [_ H].
  apply utf8_chars. eapply Forall_sub; [exact atom_char_char | exact H].
Qed.
Lemma rt_atom_ext : rt de_atom_ext ser_atom_ext atom_ext_ok.
Proof.
  apply rt_str. intros s H. split; [assumption|]. apply atom_ext_ok_spec in H as [_ H].
  apply utf8_chars. eapply Forall_sub; [exact astring_char_char | exact H].
Qed.
Lemma rt_tag : rt de_tag ser_tag tag_ok.
Proof.
  apply rt_str. intros s H. split; [assumption|]. apply tag_ok_spec in H as [_ H].
  apply utf8_chars. eapply Forall_sub; [exact tag_char_char | exact H].
Qed.
Lemma rt_text : rt de_text ser_text text_ok.
Proof.
  apply rt_str. intros s H. split; [assumption|]. apply text_ok_spec in H as [_ H].
  apply utf8_chars. eapply Forall_sub; [exact text_char_char | exact H].
Qed.
Lemma rt_quoted : rt de_quoted ser_quoted quoted_ok.
Proof. apply rt_str. intros s H. split; [assumption|]. now apply quoted_utf8. Qed.
Lemma list_char_char b : LIST_CHAR b -> CHAR b.
Proof.
  intros [H | [H | H]]; [now apply atom_char_char | | now apply resp_char].
  destruct H as [-> | ->]; unfold CHAR; cbn; lia.
Qed.
Lemma rt_list_char_string : rt de_list_char_string ser_list_char_string list_char_string_ok.
Proof.
  apply rt_str. intros s H. split; [assumption|]. apply list_char_string_ok_spec in H as [_ H].
  apply utf8_chars. eapply Forall_sub; [exact list_char_char | exact H].
Qed.
Lemma rt_quoted_char : rt de_quoted_char ser_quoted_char quoted_char_ok.
Proof. apply rt_char. Qed.
Lemma rt_u32 : rt de_u32 ser_u32 v_u32.
Proof. apply rt_num. Qed.
Lemma rt_u64 : rt de_u64 ser_u64 v_u64.
Proof. apply rt_num. Qed.
Lemma rt_nz32 : rt de_nz32 ser_nz32 v_nz32.
Proof. apply rt_nonzero. Qed.
Lemma rt_nz64 : rt de_nz64 ser_nz64 v_nz64.
Proof. apply rt_nonzero. Qed.
Lemma rt_bytes : rt de_bytes ser_bytes (fun _ => true).
Proof.
  intros l _. apply (rt_vec _ _ _ _ rt_u8). now induction l.
Qed.
Lemma rt_literal_data : rt de_literal_data ser_literal_data literal_ok.
Proof.
  intros l H. unfold de_literal_data, ser_literal_data. rewrite rt_bytes by reflexivity.
  now rewrite H.
Qed.
Lemma rt_naive_date : rt de_naive_date ser_naive_date v_date.
Proof.
  intros [y m d] H. unfold v_date in H. split_ok. cbn in *. unfold validate_naive_date.
  apply N.leb_le in H0. replace (Z.leb 0 (Z.of_N y)) with true by (symmetry; apply Z.leb_le; lia).
  replace (Z.leb (Z.of_N y) 9999) with true by (symmetry; apply Z.leb_le; lia). cbn.
  now rewrite N2Z.id, H.
Qed.
Lemma rt_date_time : rt de_date_time ser_date_time v_date_time.
Proof.
  intros [[y m d] hh mm ss off] H. unfold v_date_time, v_date in H. split_ok. cbn in *.
  unfold validate_date_time. apply N.leb_le in H6.
  replace (Z.leb 0 (Z.of_N y)) with true by (symmetry; apply Z.leb_le; lia).
  replace (Z.leb (Z.of_N y) 9999) with true by (symmetry; apply Z.leb_le; lia). cbn.
  rewrite H0. cbn. rewrite N2Z.id, H. cbn. rewrite H5, H4, H3. cbn. now rewrite H2, H1.
Qed.
Lemma null_bytes : never_null ser_bytes.
Proof. apply null_vec. Qed.
Lemma null_naive_date : never_null ser_naive_date.
Proof. discriminate. Qed.
Lemma null_date_time : never_null ser_date_time.
Proof. discriminate. Qed.
Hint Resolve rt_atom rt_atom_ext rt_tag rt_text rt_quoted rt_list_char_string rt_quoted_char
  rt_u32 rt_u64 rt_nz32 rt_nz64 rt_bytes rt_literal_data rt_naive_date rt_date_time
  null_bytes null_naive_date null_date_time : rt.

(** ** core.rs *)
Notation L := LType.
Lemma rt_lit_mode : rt de_lit_mode ser_lit_mode (fun _ => true).
Proof. intros [] _; reflexivity. Qed.
Hint Resolve rt_lit_mode : rt.
Lemma rt_literal : rt de_literal_t ser_literal_t (v_literal L).
Proof.
  intros [d m] H. unfold v_literal in H. split_ok.
  apply struct_hit; [reflexivity | reflexivity | fields].
Qed.
Lemma null_literal : never_null ser_literal_t.
Proof. discriminate. Qed.
Lemma rt_literal8 : rt de_literal8_t ser_literal8_t (v_literal8 L).
Proof. intros [] H; apply struct_hit; [reflexivity | reflexivity | fields]. Qed.
Lemma null_literal8 : never_null ser_literal8_t.
Proof. discriminate. Qed.
Hint Resolve rt_literal null_literal rt_literal8 null_literal8 : rt.
Lemma rt_istring : rt de_istring ser_istring (v_istring L).
Proof.
  intros a H; destruct a; unfold v_istring, only_rt, only_exact in H; cbv beta iota in H;
    split_ok;
    unfold de_istring, ser_istring; variant.
Qed.
Lemma null_istring : never_null ser_istring.
Proof. intros []; discriminate. Qed.
Hint Resolve rt_istring null_istring : rt.

Lemma rt_nstring : rt de_nstring ser_nstring (v_nstring L).
Proof. unfold de_nstring, ser_nstring. eauto with rt. Qed.
Hint Resolve rt_nstring : rt.

Lemma rt_astring : rt de_astring ser_astring (v_astring L).
Proof.
  intros a H; destruct a; unfold v_astring, only_rt, only_exact in H; cbv beta iota in H;
    split_ok;
    unfold de_astring, ser_astring; variant.
Qed.
Lemma null_astring : never_null ser_astring.
Proof. intros []; discriminate. Qed.
Hint Resolve rt_astring null_astring : rt.

Lemma rt_mailbox_other : rt de_mailbox_other ser_mailbox_other
  (fun a => v_astring L a && mailbox_other_ok (astring_bytes a)).
Proof.
  intros a H. split_ok. unfold de_mailbox_other, ser_mailbox_other.
  rewrite rt_astring by assumption. now rewrite H0.
Qed.
Hint Resolve rt_mailbox_other : rt.

Lemma rt_nstring8 : rt de_nstring8 ser_nstring8 (v_nstring8 L).
Proof.
  intros a H; destruct a; unfold v_nstring8, only_rt, only_exact in H; cbv beta iota in H;
    split_ok;
    unfold de_nstring8, ser_nstring8; variant.
Qed.
Lemma null_nstring8 : never_null ser_nstring8.
Proof. intros []; discriminate. Qed.
Hint Resolve rt_nstring8 null_nstring8 : rt.

Lemma rt_charset : rt de_charset ser_charset v_charset.
Proof.
  intros a H; destruct a; unfold v_charset, only_rt, only_exact in H; cbv beta iota in H;
    split_ok;
    unfold de_charset, ser_charset; variant.
Qed.
Lemma null_charset : never_null ser_charset.
Proof. intros []; discriminate. Qed.
Hint Resolve rt_charset null_charset : rt.

Lemma rt_lit_or_lit8 : rt de_lit_or_lit8 ser_lit_or_lit8 (v_lit_or_lit8 L).
Proof.
  intros a H; destruct a; unfold v_lit_or_lit8, only_rt, only_exact in H; cbv beta iota in H;
    split_ok;
    unfold de_lit_or_lit8, ser_lit_or_lit8; variant.
Qed.
Lemma null_lit_or_lit8 : never_null ser_lit_or_lit8.
Proof. intros []; discriminate. Qed.
Hint Resolve rt_lit_or_lit8 null_lit_or_lit8 : rt.

Lemma rt_seq_or_uid : rt de_seq_or_uid ser_seq_or_uid v_seq_or_uid.
Proof.
  intros a H; destruct a; unfold v_seq_or_uid, only_rt, only_exact in H; cbv beta iota in H;
    split_ok;
    unfold de_seq_or_uid, ser_seq_or_uid; variant.
Qed.
Lemma null_seq_or_uid : never_null ser_seq_or_uid.
Proof. intros []; discriminate. Qed.
Hint Resolve rt_seq_or_uid null_seq_or_uid : rt.

Lemma rt_sequence : rt de_sequence ser_sequence v_sequence.
Proof.
  intros a H; destruct a; unfold v_sequence, only_rt, only_exact in H; cbv beta iota in H;
    split_ok;
    unfold de_sequence, ser_sequence; variant.
Qed.
Lemma null_sequence : never_null ser_sequence.
Proof. intros []; discriminate. Qed.
Hint Resolve rt_sequence null_sequence : rt.

Lemma rt_sequence_set : rt de_sequence_set ser_sequence_set (v_sequence_set L).
Proof. intros l H. unfold v_sequence_set in H. split_ok. leaf. Qed.
Lemma null_sequence_set : never_null ser_sequence_set.
Proof. apply null_vec. Qed.
Hint Resolve rt_sequence_set null_sequence_set : rt.

Lemma rt_mailbox : rt de_mailbox ser_mailbox (v_mailbox L).
Proof.
  intros a H; destruct a; unfold v_mailbox, only_rt, only_exact in H; cbv beta iota in H;
    split_ok;
    unfold de_mailbox, ser_mailbox; variant.
Qed.
Lemma null_mailbox : never_null ser_mailbox.
Proof. intros []; discriminate. Qed.
Hint Resolve rt_mailbox null_mailbox : rt.

Lemma rt_list_mailbox : rt de_list_mailbox ser_list_mailbox (v_list_mailbox L).
Proof.
  intros a H; destruct a; unfold v_list_mailbox, only_rt, only_exact in H; cbv beta iota in H;
    split_ok;
    unfold de_list_mailbox, ser_list_mailbox; variant.
Qed.
Lemma null_list_mailbox : never_null ser_list_mailbox.
Proof. intros []; discriminate. Qed.
Hint Resolve rt_list_mailbox null_list_mailbox : rt.

Lemma rt_flag : rt de_flag ser_flag v_flag.
Proof.
  intros a H; destruct a; unfold v_flag, only_rt, only_exact in H; cbv beta iota in H;
    split_ok;
    unfold de_flag, ser_flag; variant.
Qed.
Lemma null_flag : never_null ser_flag.
Proof. intros []; discriminate. Qed.
Hint Resolve rt_flag null_flag : rt.

Lemma rt_flag_fetch : rt de_flag_fetch ser_flag_fetch (v_flag_fetch L).
Proof.
  intros a H; destruct a; unfold v_flag_fetch, only_rt, only_exact in H; cbv beta iota in H;
    split_ok;
    unfold de_flag_fetch, ser_flag_fetch; variant.
Qed.
Lemma null_flag_fetch : never_null ser_flag_fetch.
Proof. intros []; discriminate. Qed.
Hint Resolve rt_flag_fetch null_flag_fetch : rt.

Lemma rt_flag_perm : rt de_flag_perm ser_flag_perm v_flag_perm.
Proof.
  intros a H; destruct a; unfold v_flag_perm, only_rt, only_exact in H; cbv beta iota in H;
    split_ok;
    unfold de_flag_perm, ser_flag_perm; variant.
Qed.
Lemma null_flag_perm : never_null ser_flag_perm.
Proof. intros []; discriminate. Qed.
Hint Resolve rt_flag_perm null_flag_perm : rt.

Lemma rt_flag_name_attribute : rt de_flag_name_attribute ser_flag_name_attribute v_flag_name.
Proof.
  intros a H; destruct a; unfold v_flag_name, only_rt, only_exact in H; cbv beta iota in H;
    split_ok;
    unfold de_flag_name_attribute, ser_flag_name_attribute; variant.
Qed.
Lemma null_flag_name_attribute : never_null ser_flag_name_attribute.
Proof. intros []; discriminate. Qed.
Hint Resolve rt_flag_name_attribute null_flag_name_attribute : rt.

Lemma rt_store_type : rt de_store_type ser_store_type (fun _ => true).
Proof. intros [] _; reflexivity. Qed.
Lemma null_store_type : never_null ser_store_type.
Proof. intros []; discriminate. Qed.
Hint Resolve rt_store_type null_store_type : rt.

Lemma rt_store_response : rt de_store_response ser_store_response (fun _ => true).
Proof. intros [] _; reflexivity. Qed.
Lemma null_store_response : never_null ser_store_response.
Proof. intros []; discriminate. Qed.
Hint Resolve rt_store_response null_store_response : rt.

Lemma rt_status_data_item_name : rt de_status_data_item_name
  ser_status_data_item_name v_status_name.
Proof. intros [] H; try reflexivity; cbn in *; now rewrite H. Qed.
Lemma null_status_data_item_name : never_null ser_status_data_item_name.
Proof. intros []; discriminate. Qed.
Hint Resolve rt_status_data_item_name null_status_data_item_name : rt.

Lemma rt_status_data_item : rt de_status_data_item ser_status_data_item v_status_item.
Proof.
  intros a H; destruct a; unfold v_status_item, only_rt, only_exact in H; cbv beta iota in H;
    split_ok;
    unfold de_status_data_item, ser_status_data_item; variant.
Qed.
Lemma null_status_data_item : never_null ser_status_data_item.
Proof. intros []; discriminate. Qed.
Hint Resolve rt_status_data_item null_status_data_item : rt.

Lemma rt_auth_mechanism : rt de_auth_mechanism ser_auth_mechanism (v_auth_mechanism L).
Proof.
  intros a H; destruct a; unfold v_auth_mechanism, only_rt, only_exact in H; cbv beta iota in H;
    split_ok;
    unfold de_auth_mechanism, ser_auth_mechanism; variant.
Qed.
Lemma null_auth_mechanism : never_null ser_auth_mechanism.
Proof. intros []; discriminate. Qed.
Hint Resolve rt_auth_mechanism null_auth_mechanism : rt.

Lemma rt_authenticate_data : rt de_authenticate_data ser_authenticate_data (fun _ => true).
Proof.
  intros a H; destruct a;
    unfold de_authenticate_data, ser_authenticate_data; variant.
Qed.
Lemma null_authenticate_data : never_null ser_authenticate_data.
Proof. intros []; discriminate. Qed.
Hint Resolve rt_authenticate_data null_authenticate_data : rt.

Lemma rt_address : rt de_address ser_address (v_address L).
Proof.
  intros [] H; unfold v_address, only_rt, only_exact in H; cbv beta iota in H;
    split_ok;
  apply struct_hit; [reflexivity | reflexivity | fields].
Qed.
Lemma null_address : never_null ser_address.
Proof. discriminate. Qed.
Hint Resolve rt_address null_address : rt.

Lemma rt_envelope : rt de_envelope ser_envelope (v_envelope L).
Proof.
  intros [] H; unfold v_envelope, only_rt, only_exact in H; cbv beta iota in H;
    split_ok;
  apply struct_hit; [reflexivity | reflexivity | fields].
Qed.
Lemma null_envelope : never_null ser_envelope.
Proof. discriminate. Qed.
Hint Resolve rt_envelope null_envelope : rt.

(** Below, [Hn] bounds the height of a tree that contains the trees of the elements. *)
Lemma vec_hit_n A k (d : tree -> option A) s l n :
  (forall a, In a l -> height (s a) <= n -> d (s a) = Some a) ->
  height (ser_vec s l) <= S n -> k <= length l ->
  de_vec_n k d (ser_vec s l) = Some l.
Proof.
  intros H Hn Hk. unfold de_vec_n. replace (de_vec d (ser_vec s l)) with (Some l).
  - now rewrite (proj2 (Nat.ltb_ge _ _) Hk).
  - symmetry. apply de_all_map. intros a Ha. apply H; [assumption|].
    apply (in_map s) in Ha. apply height_in in Ha. unfold ser_vec in Hn. lia.
Qed.
Lemma nonempty_length A (l : list A) : nonempty l = true -> 1 <= length l.
Proof. destruct l; cbn; [discriminate | lia]. Qed.
Lemma atleast2_length A (l : list A) : atleast2 l = true -> 2 <= length l.
Proof. destruct l as [|a [|b l]]; cbn; [discriminate | discriminate | lia]. Qed.
Lemma in_ok A (P : A -> bool) l a : forallb P l = true -> In a l -> P a = true.
Proof. intros H. now apply forallb_forall. Qed.

Lemma rt_body_extension_n n : forall a, height (ser_body_extension a) <= n ->
  v_body_extension L a = true -> de_body_extension_n n (ser_body_extension a) = Some a.
Proof.
  induction n as [|n IH]; intros a Hn H; [pose proof (height_pos (ser_body_extension a)); lia|].
  destruct a; cbn [de_body_extension_n ser_body_extension]; cbn [v_body_extension] in H; split_ok.
  1, 2: variant.
  variant_at. apply newtype_hit. apply vec_hit_n with n.
  - intros a Ha Hh. apply IH; [assumption|]. eapply in_ok; eassumption.
  - clear - Hn. cbn [ser_body_extension] in Hn. pose proof (height_variant (bs "List")
      (ser_vec ser_body_extension l)). lia.
  - now apply nonempty_length.
Qed.
Lemma rt_body_extension : rt de_body_extension ser_body_extension (v_body_extension L).
Proof. intros a H. apply rt_body_extension_n; [lia | assumption]. Qed.
Lemma null_body_extension : never_null ser_body_extension.
Proof. intros []; discriminate. Qed.
Lemma rt_body_extensions : rt (de_vec de_body_extension) (ser_vec ser_body_extension)
  (forallb (fun b => v_body_extension L b && only_rt L (Nat.leb (be_depth b) 8))).
Proof.
  apply rt_vec. apply (rt_weaken _ _ _ _ _ rt_body_extension). intros a H. now split_ok.
Qed.
Hint Resolve rt_body_extension null_body_extension rt_body_extensions : rt.

Lemma rt_location : rt de_location ser_location (v_location L).
Proof.
  intros [] H; unfold v_location, only_rt, only_exact in H; cbv beta iota in H;
    split_ok;
  apply struct_hit; [reflexivity | reflexivity | fields].
Qed.
Lemma null_location : never_null ser_location.
Proof. discriminate. Qed.
Hint Resolve rt_location null_location : rt.

Lemma rt_language : rt de_language ser_language (v_language L).
Proof.
  intros [] H; unfold v_language, only_rt, only_exact in H; cbv beta iota in H;
    split_ok;
  apply struct_hit; [reflexivity | reflexivity | fields].
Qed.
Lemma null_language : never_null ser_language.
Proof. discriminate. Qed.
Hint Resolve rt_language null_language : rt.

Lemma rt_disposition : rt de_disposition ser_disposition (v_disposition L).
Proof.
  intros [] H; unfold v_disposition, only_rt, only_exact in H; cbv beta iota in H;
    split_ok;
  apply struct_hit; [reflexivity | reflexivity | fields].
Qed.
Lemma null_disposition : never_null ser_disposition.
Proof. discriminate. Qed.
Hint Resolve rt_disposition null_disposition : rt.

Lemma rt_single_ext : rt de_single_ext ser_single_ext (v_single_ext L).
Proof.
  intros [] H; unfold v_single_ext, only_rt, only_exact in H; cbv beta iota in H;
    split_ok;
  apply struct_hit; [reflexivity | reflexivity | fields].
Qed.
Lemma null_single_ext : never_null ser_single_ext.
Proof. discriminate. Qed.
Hint Resolve rt_single_ext null_single_ext : rt.

Lemma rt_multi_ext : rt de_multi_ext ser_multi_ext (v_multi_ext L).
Proof.
  intros [] H; unfold v_multi_ext, only_rt, only_exact in H; cbv beta iota in H;
    split_ok;
  apply struct_hit; [reflexivity | reflexivity | fields].
Qed.
Lemma null_multi_ext : never_null ser_multi_ext.
Proof. discriminate. Qed.
Hint Resolve rt_multi_ext null_multi_ext : rt.

Lemma rt_basic_fields : rt de_basic_fields ser_basic_fields (v_basic L).
Proof.
  intros [] H; unfold v_basic, only_rt, only_exact in H; cbv beta iota in H;
    split_ok;
  apply struct_hit; [reflexivity | reflexivity | fields].
Qed.
Lemma null_basic_fields : never_null ser_basic_fields.
Proof. discriminate. Qed.
Hint Resolve rt_basic_fields null_basic_fields : rt.

Lemma rt_body_structure_n n : forall a, height (ser_body_structure a) <= n ->
  v_body_structure L a = true -> de_body_structure_n n (ser_body_structure a) = Some a.
Proof.
  induction n as [|n IH]; intros a Hn H; [pose proof (height_pos (ser_body_structure a)); lia|].
  destruct a as [basic specific ext | bodies subtype ext];
    cbn [de_body_structure_n ser_body_structure]; cbn [ser_body_structure] in Hn.
  - assert (Hs : forall env b lines, specific = SFMessage env b lines ->
      height (ser_body_structure b) <= n).
    { intros env b lines ->. clear - Hn. cbn - [Nat.max ser_basic_fields ser_envelope ser_u32
        ser_opt ser_body_structure] in Hn. cbn [ser_specific_fields] in Hn.
      lia. }
    cbn [v_body_structure] in H. split_ok. variant_at.
    apply c_struct_hit; [reflexivity | reflexivity |]. cbn [map].
    eapply req_hit.
    { apply struct_hit; [reflexivity | reflexivity |]. cbn [map].
      eapply req_hit; [leaf|]. eapply req_hit; [|reflexivity].
      destruct specific; cbn [ser_specific_fields]; unfold de_specific_fields; split_ok.
      1, 3: variant.
      variant_at. apply c_struct_hit; [reflexivity | reflexivity |]. cbn [map].
      eapply req_hit; [leaf|]. eapply req_hit; [|fields]. apply IH; [|assumption].
      eapply Hs. reflexivity. }
    fields.
  - cbn [v_body_structure] in H. split_ok. variant_at.
    apply c_struct_hit; [reflexivity | reflexivity |]. cbn [map].
    eapply req_hit; [|fields]. apply vec_hit_n with n.
    + intros a Ha Hh. apply IH; [assumption|]. eapply in_ok; eassumption.
    + clear - Hn. cbn - [Nat.max ser_vec ser_istring ser_opt] in Hn. lia.
    + now apply nonempty_length.
Qed.
Lemma rt_body_structure : rt de_body_structure ser_body_structure (v_body L).
Proof.
  intros a H. unfold v_body in H. split_ok. apply rt_body_structure_n; [lia | assumption].
Qed.
Lemma null_body_structure : never_null ser_body_structure.
Proof. intros []; discriminate. Qed.
Hint Resolve rt_body_structure null_body_structure : rt.

Lemma rt_macro : rt de_macro ser_macro (fun _ => true).
Proof.
  intros a H; destruct a;
    unfold de_macro, ser_macro; variant.
Qed.
Lemma null_macro : never_null ser_macro.
Proof. intros []; discriminate. Qed.
Hint Resolve rt_macro null_macro : rt.

Lemma rt_part : rt de_part ser_part v_part.
Proof. unfold de_part, ser_part. eauto with rt. Qed.
Lemma null_part : never_null ser_part.
Proof. apply null_vec. Qed.
Hint Resolve rt_part null_part : rt.

Lemma rt_section : rt de_section ser_section (v_section L).
Proof.
  intros a H; destruct a; unfold v_section, only_rt, only_exact in H; cbv beta iota in H;
    split_ok;
    unfold de_section, ser_section; variant.
Qed.
Lemma null_section : never_null ser_section.
Proof. intros []; discriminate. Qed.
Hint Resolve rt_section null_section : rt.

Lemma rt_item_name : rt de_item_name ser_item_name (v_item_name L).
Proof.
  intros a H; destruct a; unfold v_item_name, only_rt, only_exact in H; cbv beta iota in H;
    split_ok;
    unfold de_item_name, ser_item_name; variant.
Qed.
Lemma null_item_name : never_null ser_item_name.
Proof. intros []; discriminate. Qed.
Hint Resolve rt_item_name null_item_name : rt.

Lemma rt_macro_or_items : rt de_macro_or_items ser_macro_or_items (v_macro_or_items L).
Proof.
  intros a H; destruct a; unfold v_macro_or_items, only_rt, only_exact in H; cbv beta iota in H;
    split_ok;
    unfold de_macro_or_items, ser_macro_or_items; variant.
Qed.
Lemma null_macro_or_items : never_null ser_macro_or_items.
Proof. intros []; discriminate. Qed.
Hint Resolve rt_macro_or_items null_macro_or_items : rt.

Lemma rt_message_data_item : rt de_message_data_item ser_message_data_item (v_message_data_item L).
Proof.
  intros a H; destruct a; unfold v_message_data_item, only_rt, only_exact in H; cbv beta iota in H;
    split_ok;
    unfold de_message_data_item, ser_message_data_item; variant.
Qed.
Lemma null_message_data_item : never_null ser_message_data_item.
Proof. intros []; discriminate. Qed.
Hint Resolve rt_message_data_item null_message_data_item : rt.

Lemma rt_attribute_flag : rt de_attribute_flag ser_attribute_flag v_attribute_flag.
Proof.
  intros a H; destruct a; unfold v_attribute_flag, only_rt, only_exact in H; cbv beta iota in H;
    split_ok;
    unfold de_attribute_flag, ser_attribute_flag; variant.
Qed.
Lemma null_attribute_flag : never_null ser_attribute_flag.
Proof. intros []; discriminate. Qed.
Hint Resolve rt_attribute_flag null_attribute_flag : rt.

Lemma rt_entry_type_req : rt de_entry_type_req ser_entry_type_req (fun _ => true).
Proof. intros [] _; reflexivity. Qed.
Lemma null_entry_type_req : never_null ser_entry_type_req.
Proof. intros []; discriminate. Qed.
Hint Resolve rt_entry_type_req null_entry_type_req : rt.

Lemma rt_utf8_kind : rt de_utf8_kind ser_utf8_kind (fun _ => true).
Proof.
  intros a H; destruct a;
    unfold de_utf8_kind, ser_utf8_kind; variant.
Qed.
Lemma null_utf8_kind : never_null ser_utf8_kind.
Proof. intros []; discriminate. Qed.
Hint Resolve rt_utf8_kind null_utf8_kind : rt.

Lemma rt_capability_enable : rt de_capability_enable ser_capability_enable v_capability_enable.
Proof.
  intros a H; destruct a; unfold v_capability_enable, only_rt, only_exact in H; cbv beta iota in H;
    split_ok;
    unfold de_capability_enable, ser_capability_enable; variant.
Qed.
Lemma null_capability_enable : never_null ser_capability_enable.
Proof. intros []; discriminate. Qed.
Hint Resolve rt_capability_enable null_capability_enable : rt.

Lemma rt_compression_algorithm : rt de_compression_algorithm
  ser_compression_algorithm (fun _ => true).
Proof.
  intros a H; destruct a;
    unfold de_compression_algorithm, ser_compression_algorithm; variant.
Qed.
Lemma null_compression_algorithm : never_null ser_compression_algorithm.
Proof. intros []; discriminate. Qed.
Hint Resolve rt_compression_algorithm null_compression_algorithm : rt.

Lemma rt_resource : rt de_resource ser_resource v_resource.
Proof.
  intros a H; destruct a; unfold v_resource, only_rt, only_exact in H; cbv beta iota in H;
    split_ok;
    unfold de_resource, ser_resource; variant.
Qed.
Lemma null_resource : never_null ser_resource.
Proof. intros []; discriminate. Qed.
Hint Resolve rt_resource null_resource : rt.

Lemma rt_quota_get : rt de_quota_get ser_quota_get v_quota_get.
Proof.
  intros [] H; unfold v_quota_get, only_rt, only_exact in H; cbv beta iota in H;
    split_ok;
  apply struct_hit; [reflexivity | reflexivity | fields].
Qed.
Lemma null_quota_get : never_null ser_quota_get.
Proof. discriminate. Qed.
Hint Resolve rt_quota_get null_quota_get : rt.

Lemma rt_quota_set : rt de_quota_set ser_quota_set v_quota_set.
Proof.
  intros [] H; unfold v_quota_set, only_rt, only_exact in H; cbv beta iota in H;
    split_ok;
  apply struct_hit; [reflexivity | reflexivity | fields].
Qed.
Lemma null_quota_set : never_null ser_quota_set.
Proof. discriminate. Qed.
Hint Resolve rt_quota_set null_quota_set : rt.

Lemma rt_sort_algorithm : rt de_sort_algorithm ser_sort_algorithm v_sort_algorithm.
Proof.
  intros a H; destruct a; unfold v_sort_algorithm, only_rt, only_exact in H; cbv beta iota in H;
    split_ok;
    unfold de_sort_algorithm, ser_sort_algorithm; variant.
Qed.
Lemma null_sort_algorithm : never_null ser_sort_algorithm.
Proof. intros []; discriminate. Qed.
Hint Resolve rt_sort_algorithm null_sort_algorithm : rt.

Lemma rt_sort_key : rt de_sort_key ser_sort_key (fun _ => true).
Proof. intros [] _; reflexivity. Qed.
Lemma null_sort_key : never_null ser_sort_key.
Proof. intros []; discriminate. Qed.
Hint Resolve rt_sort_key null_sort_key : rt.

Lemma rt_sort_criterion : rt de_sort_criterion ser_sort_criterion (fun _ => true).
Proof.
  intros [] H;
  apply struct_hit; [reflexivity | reflexivity | fields].
Qed.
Lemma null_sort_criterion : never_null ser_sort_criterion.
Proof. discriminate. Qed.
Hint Resolve rt_sort_criterion null_sort_criterion : rt.

Lemma opt_vec_hit A k (d : tree -> option A) s l : de_vec_n k d (ser_vec s l) = Some l ->
  de_opt (de_vec_n k d) (ser_opt (ser_vec s) (Some l)) = Some (Some l).
Proof. intros H. cbn [ser_opt]. unfold de_opt. now rewrite H. Qed.
Lemma rt_thread_n n : forall a, height (ser_thread a) <= n ->
  v_thread_tree a = true -> de_thread_n n (ser_thread a) = Some a.
Proof.
  induction n as [|n IH]; intros a Hn H; [pose proof (height_pos (ser_thread a)); lia|].
  destruct a as [prefix [answers|] | answers]; cbn [de_thread_n ser_thread];
    cbn [ser_thread] in Hn; cbn [v_thread_tree] in H; split_ok.
  - variant_at. apply c_struct_hit; [reflexivity | reflexivity |]. cbn [map].
    eapply req_hit; [leaf|]. eapply opt_hit; [|reflexivity].
    apply opt_vec_hit, (vec_hit_n _ _ _ _ _ n).
    + intros a Ha Hh. apply IH; [assumption|]. eapply in_ok; eassumption.
    + clear - Hn. cbn - [Nat.max ser_vec] in Hn. lia.
    + now apply atleast2_length.
  - variant.
  - variant_at. apply c_struct_hit; [reflexivity | reflexivity |]. cbn [map].
    eapply req_hit; [|reflexivity]. apply (vec_hit_n _ _ _ _ _ n).
    + intros a Ha Hh. apply IH; [assumption|]. eapply in_ok; eassumption.
    + clear - Hn. cbn - [Nat.max ser_vec] in Hn. lia.
    + now apply atleast2_length.
Qed.
Lemma rt_thread : rt de_thread ser_thread (v_thread L).
Proof.
  intros a H. unfold v_thread in H. split_ok. apply rt_thread_n; [lia | assumption].
Qed.
Lemma null_thread : never_null ser_thread.
Proof. intros []; discriminate. Qed.
Hint Resolve rt_thread null_thread : rt.

Lemma rt_threading_algorithm : rt de_threading_algorithm
  ser_threading_algorithm v_threading_algorithm.
Proof.
  intros a H; destruct a; unfold v_threading_algorithm, only_rt, only_exact in H;
    cbv beta iota in H;
    split_ok;
    unfold de_threading_algorithm, ser_threading_algorithm; variant.
Qed.
Lemma null_threading_algorithm : never_null ser_threading_algorithm.
Proof. intros []; discriminate. Qed.
Hint Resolve rt_threading_algorithm null_threading_algorithm : rt.

Lemma rt_uid_element : rt de_uid_element ser_uid_element v_uid_element.
Proof.
  intros a H; destruct a; unfold v_uid_element, only_rt, only_exact in H; cbv beta iota in H;
    split_ok;
    unfold de_uid_element, ser_uid_element; variant.
Qed.
Lemma null_uid_element : never_null ser_uid_element.
Proof. intros []; discriminate. Qed.
Hint Resolve rt_uid_element null_uid_element : rt.

Lemma rt_uid_set : rt de_uid_set ser_uid_set v_uid_set.
Proof. unfold de_uid_set, ser_uid_set. eauto with rt. Qed.
Lemma null_uid_set : never_null ser_uid_set.
Proof. apply null_vec. Qed.
Hint Resolve rt_uid_set null_uid_set : rt.

Lemma rt_entry_value : rt de_entry_value ser_entry_value (v_entry_value L).
Proof.
  intros [] H; unfold v_entry_value, only_rt, only_exact in H; cbv beta iota in H;
    split_ok;
  apply struct_hit; [reflexivity | reflexivity | fields].
Qed.
Lemma null_entry_value : never_null ser_entry_value.
Proof. discriminate. Qed.
Hint Resolve rt_entry_value null_entry_value : rt.

Lemma rt_depth : rt de_depth ser_depth (fun _ => true).
Proof. intros [] _; reflexivity. Qed.
Lemma null_depth : never_null ser_depth.
Proof. intros []; discriminate. Qed.
Hint Resolve rt_depth null_depth : rt.

Lemma rt_get_metadata_option : rt de_get_metadata_option
  ser_get_metadata_option v_get_metadata_option.
Proof.
  intros a H; destruct a; unfold v_get_metadata_option, only_rt, only_exact in H;
    cbv beta iota in H;
    split_ok;
    unfold de_get_metadata_option, ser_get_metadata_option; variant.
Qed.
Lemma null_get_metadata_option : never_null ser_get_metadata_option.
Proof. intros []; discriminate. Qed.
Hint Resolve rt_get_metadata_option null_get_metadata_option : rt.

Lemma rt_metadata_code : rt de_metadata_code ser_metadata_code v_metadata_code.
Proof.
  intros a H; destruct a; unfold v_metadata_code, only_rt, only_exact in H; cbv beta iota in H;
    split_ok;
    unfold de_metadata_code, ser_metadata_code; variant.
Qed.
Lemma null_metadata_code : never_null ser_metadata_code.
Proof. intros []; discriminate. Qed.
Hint Resolve rt_metadata_code null_metadata_code : rt.

Lemma rt_metadata_response : rt de_metadata_response ser_metadata_response (v_metadata_response L).
Proof.
  intros a H; destruct a; unfold v_metadata_response, only_rt, only_exact in H; cbv beta iota in H;
    split_ok;
    unfold de_metadata_response, ser_metadata_response; variant.
Qed.
Lemma null_metadata_response : never_null ser_metadata_response.
Proof. intros []; discriminate. Qed.
Hint Resolve rt_metadata_response null_metadata_response : rt.

Lemma rt_namespace_ext : rt de_namespace_ext ser_namespace_ext (v_namespace_ext L).
Proof.
  intros [] H; unfold v_namespace_ext, only_rt, only_exact in H; cbv beta iota in H;
    split_ok;
  apply struct_hit; [reflexivity | reflexivity | fields].
Qed.
Lemma null_namespace_ext : never_null ser_namespace_ext.
Proof. discriminate. Qed.
Hint Resolve rt_namespace_ext null_namespace_ext : rt.

Lemma rt_namespace : rt de_namespace ser_namespace (v_namespace L).
Proof.
  intros [] H; unfold v_namespace, only_rt, only_exact in H; cbv beta iota in H;
    split_ok;
  apply struct_hit; [reflexivity | reflexivity | fields].
Qed.
Lemma null_namespace : never_null ser_namespace.
Proof. discriminate. Qed.
Hint Resolve rt_namespace null_namespace : rt.

Lemma rt_search_key_n n : forall a, height (ser_search_key a) <= n ->
  v_search_tree L a = true -> de_search_key_n n (ser_search_key a) = Some a.
Proof.
  induction n as [|n IH]; intros a Hn H; [pose proof (height_pos (ser_search_key a)); lia|].
  destruct a; cbn [de_search_key_n ser_search_key]; cbn [ser_search_key] in Hn;
    cbn [v_search_tree] in H; split_ok; try solve [variant].
  - variant_at. apply newtype_hit. apply vec_hit_n with n.
    + intros a Ha Hh. apply IH; [assumption|]. eapply in_ok; eassumption.
    + clear - Hn. cbn - [Nat.max ser_vec] in Hn. lia.
    + now apply nonempty_length.
  - variant_at. apply newtype_hit. apply IH; [|assumption].
    clear - Hn. cbn - [Nat.max ser_search_key] in Hn. lia.
  - variant_at. apply c_pair_hit; (apply IH; [|assumption]);
      clear - Hn; cbn - [Nat.max ser_search_key] in Hn; lia.
Qed.
Lemma rt_search_key : rt de_search_key ser_search_key (v_search_key L).
Proof.
  intros a H. unfold v_search_key in H. split_ok. apply rt_search_key_n; [lia | assumption].
Qed.
Lemma null_search_key : never_null ser_search_key.
Proof. intros []; discriminate. Qed.
Hint Resolve rt_search_key null_search_key : rt.

Lemma rt_select_parameter : rt de_select_parameter ser_select_parameter (v_select_parameter L).
Proof.
  intros a H; destruct a; unfold v_select_parameter, only_rt, only_exact in H; cbv beta iota in H;
    split_ok;
    unfold de_select_parameter, ser_select_parameter; variant.
Qed.
Lemma null_select_parameter : never_null ser_select_parameter.
Proof. intros []; discriminate. Qed.
Hint Resolve rt_select_parameter null_select_parameter : rt.

Lemma rt_fetch_modifier : rt de_fetch_modifier ser_fetch_modifier v_fetch_modifier.
Proof.
  intros a H; destruct a; unfold v_fetch_modifier, only_rt, only_exact in H; cbv beta iota in H;
    split_ok;
    unfold de_fetch_modifier, ser_fetch_modifier; variant.
Qed.
Lemma null_fetch_modifier : never_null ser_fetch_modifier.
Proof. intros []; discriminate. Qed.
Hint Resolve rt_fetch_modifier null_fetch_modifier : rt.

Lemma rt_store_modifier : rt de_store_modifier ser_store_modifier v_store_modifier.
Proof.
  intros a H; destruct a; unfold v_store_modifier, only_rt, only_exact in H; cbv beta iota in H;
    split_ok;
    unfold de_store_modifier, ser_store_modifier; variant.
Qed.
Lemma null_store_modifier : never_null ser_store_modifier.
Proof. intros []; discriminate. Qed.
Hint Resolve rt_store_modifier null_store_modifier : rt.

Lemma v1_any A (l : list A) : nonempty l = true -> v1 (fun _ => true) l = true.
Proof. intros H. unfold v1. rewrite H. clear H. now induction l. Qed.
Lemma id_params_ok p : v_id_params L p = true ->
  vopt (forallb (vpair (v_istring L) (v_nstring L))) p = true.
Proof. now destruct p as [[|x l]|]. Qed.
Lemma gated_ok A on (v : A -> bool) l : v_gated on v l = true ->
  forallb v l = true /\ (on = false -> l = []).
Proof.
  unfold v_gated. intros H. split_ok. split; [assumption|]. intros ->. now destruct l.
Qed.
Ltac gated :=
  let Hg := fresh in
  match goal with H : v_gated _ _ _ = true |- _ => apply gated_ok in H as [? Hg] end;
  destruct ext_condstore_qresync; [|rewrite (Hg eq_refl)]; variant.
Lemma rt_command_body : rt de_command_body ser_command_body (v_command_body L).
Proof.
  intros a H; destruct a; unfold v_command_body in H; cbv beta iota in H; split_ok;
    try match goal with H : v_id_params _ _ = true |- _ => apply id_params_ok in H end;
    try match goal with H : nonempty _ = true |- _ => apply v1_any in H end;
    unfold de_command_body, ser_command_body; first [solve [variant] | solve [gated] | idtac].
Qed.
Lemma null_command_body : never_null ser_command_body.
Proof. intros []; discriminate. Qed.
Hint Resolve rt_command_body null_command_body : rt.

Lemma rt_command : rt de_command ser_command (v_command L).
Proof.
  intros [] H; unfold v_command, only_rt, only_exact in H; cbv beta iota in H;
    split_ok;
  apply struct_hit; [reflexivity | reflexivity | fields].
Qed.
Lemma null_command : never_null ser_command.
Proof. discriminate. Qed.
Hint Resolve rt_command null_command : rt.

Lemma rt_capability : rt de_capability ser_capability (v_capability L).
Proof.
  intros a H; destruct a; unfold v_capability, only_rt, only_exact in H; cbv beta iota in H;
    split_ok;
    unfold de_capability, ser_capability; variant.
Qed.
Lemma null_capability : never_null ser_capability.
Proof. intros []; discriminate. Qed.
Hint Resolve rt_capability null_capability : rt.

Variable other : bytes -> bytes -> bool.
Lemma rt_code text : rt de_code ser_code (fun c => v_code L other c text).
Proof.
  intros a H; destruct a; unfold v_code, only_rt, only_exact in H; cbv beta iota in H; split_ok;
    unfold de_code, ser_code; variant.
Qed.
Lemma null_code : never_null ser_code.
Proof. intros []; discriminate. Qed.
Lemma rt_code_opt c text : v_code_text L other c text = true ->
  de_opt de_code (ser_opt ser_code c) = Some c /\ de_text (ser_text text) = Some text.
Proof.
  intros H. unfold v_code_text in H. split_ok. split; [|now apply rt_text].
  apply (rt_opt _ _ _ _ null_code (rt_code text)). now destruct c.
Qed.

Lemma rt_greeting_kind : rt de_greeting_kind ser_greeting_kind (fun _ => true).
Proof. intros [] _; reflexivity. Qed.
Lemma null_greeting_kind : never_null ser_greeting_kind.
Proof. intros []; discriminate. Qed.
Hint Resolve rt_greeting_kind null_greeting_kind : rt.

Lemma rt_greeting : rt de_greeting ser_greeting (v_greeting L other).
Proof.
  intros [k c t] H. apply rt_code_opt in H as [Hc Ht].
  apply struct_hit; [reflexivity | reflexivity |]. cbn [map gr_kind gr_code gr_text] in *.
  eapply req_hit; [leaf|]. eapply opt_hit; [eassumption|]. eapply req_hit; [eassumption|].
  reflexivity.
Qed.

Lemma rt_status_kind : rt de_status_kind ser_status_kind (fun _ => true).
Proof. intros [] _; reflexivity. Qed.
Lemma null_status_kind : never_null ser_status_kind.
Proof. intros []; discriminate. Qed.
Hint Resolve rt_status_kind null_status_kind : rt.

Lemma rt_status_body : rt de_status_body ser_status_body (v_status_body L other).
Proof.
  intros [k c t] H. apply rt_code_opt in H as [Hc Ht].
  apply struct_hit; [reflexivity | reflexivity |]. cbn [map sb_kind sb_code sb_text] in *.
  eapply req_hit; [leaf|]. eapply opt_hit; [eassumption|]. eapply req_hit; [eassumption|].
  reflexivity.
Qed.
Hint Resolve rt_status_body : rt.

Lemma rt_status : rt de_status ser_status (v_status L other).
Proof.
  intros a H; destruct a; unfold v_status in H; cbv beta iota in H.
  1, 2: split_ok; unfold de_status, ser_status; variant.
  apply rt_code_opt in H as [Hc Ht]. unfold de_status, ser_status. variant_at.
  apply c_struct_hit; [reflexivity | reflexivity |]. cbn [map].
  eapply opt_hit; [eassumption|]. eapply req_hit; [eassumption|]. reflexivity.
Qed.
Hint Resolve rt_status : rt.

Lemma rt_data : rt de_data ser_data (v_data L).
Proof.
  intros a H; destruct a; unfold v_data in H; cbv beta iota in H; split_ok;
    try match goal with H : v_id_params _ _ = true |- _ => apply id_params_ok in H end;
    unfold de_data, ser_data; first [solve [variant] | idtac].
  1, 2: destruct ext_condstore_qresync; variant_at;
    [apply c_pair_hit; [leaf|]; apply (rt_opt _ _ _ _ null_num rt_nz64); now destruct modseq
    | destruct modseq; [discriminate|]; cbn [c_newtype]; now rewrite (rt_vec _ _ _ _ rt_nz32)].
Qed.
Hint Resolve rt_data : rt.

Lemma rt_continuation : rt de_continuation ser_continuation (v_continuation L other).
Proof.
  intros a H; destruct a as [c t|d]; unfold de_continuation, ser_continuation.
  - variant_at.
    apply (newtype_hit _ _ de_basic (fun p => CRBasic (fst p) (snd p)) _ (c, t)).
    unfold de_basic.
    assert (Hc : de_opt de_code (ser_opt ser_code c) = Some c /\ de_text (ser_text t) = Some t).
    { unfold v_continuation in H. destruct c; split_ok; (split; [|now apply rt_text]);
        [|reflexivity]. now apply (rt_opt _ _ _ _ null_code (rt_code t)). }
    destruct Hc as [Hc Ht].
    erewrite struct_hit; [| reflexivity | reflexivity |].
    2: { cbn [map]. eapply opt_hit; [eassumption|]. eapply req_hit; [eassumption|]. reflexivity. }
    unfold v_continuation in H. destruct c; [reflexivity|]. revert H. cbn [fin].
    destruct (starts_with (bs "[") t), (b64_decode t); intros H; split_ok;
      first [discriminate | reflexivity].
  - variant.
Qed.
Hint Resolve rt_continuation : rt.

Lemma rt_response : rt de_response ser_response (v_response L other).
Proof.
  intros a H; destruct a; unfold v_response, only_rt, only_exact in H; cbv beta iota in H;
    split_ok;
    unfold de_response, ser_response; variant.
Qed.
Lemma null_response : never_null ser_response.
Proof. intros []; discriminate. Qed.
Hint Resolve rt_response null_response : rt.

Lemma rt_state : rt de_state ser_state v_state.
Proof.
  intros a H; destruct a; unfold v_state in H; cbv beta iota in H; split_ok;
    unfold de_state, ser_state; variant.
Qed.

End SerdeRt.