(** What can be read from any serde tree satisfies the invariants of the types, up to variants
    for unknown names that carry a known one. *)

From Verif Require Import Bytes BytesFacts Features Nom Types Utf8 Conv SeqSet Base64 Date Valid
  Ctors Serde SerdeTypes SerdeSpec SerdeFacts SerdeRt.
From Coq Require Import Lia.
Open Scope nat_scope.

Lemma implb_intro a b : (a = true -> b = true) -> implb a b = true.
Proof. destruct a; auto. Qed.
Lemma implb_use a b : implb a b = true -> a = true -> b = true.
Proof. now intros H ->. Qed.
Lemma forallb_use A (S V : A -> bool) l : forallb (fun a => implb (S a) (V a)) l = true ->
  forallb S l = true -> forallb V l = true.
Proof.
  rewrite !forallb_forall. intros H K a Ha. eapply implb_use; [apply (H a Ha) | now apply K].
Qed.
Lemma v1_use A (S V : A -> bool) l : v1 (fun a => implb (S a) (V a)) l = true ->
  forallb S l = true -> v1 V l = true.
Proof.
  unfold v1. intros H K. apply andb_prop in H as [H1 H2]. rewrite H1. eapply forallb_use; eassumption.
Qed.
Lemma v1_split A (V : A -> bool) l : v1 V l = true -> nonempty l = true /\ forallb V l = true.
Proof. apply andb_prop. Qed.
Lemma v2_split A (V : A -> bool) l : v2 V l = true -> atleast2 l = true /\ forallb V l = true.
Proof. apply andb_prop. Qed.
Lemma gated_on A (V : A -> bool) l : forallb V l = true -> v_gated true V l = true.
Proof. intros H. unfold v_gated. now rewrite H. Qed.
Lemma gated_off A (V : A -> bool) on : on = false -> v_gated on V [] = true.
Proof. now intros ->. Qed.
Lemma gated_on' A (V : A -> bool) on l : on = true -> forallb V l = true -> v_gated on V l = true.
Proof. intros -> H. now apply gated_on. Qed.
Lemma id_params_ok {F : features} p : vopt (forallb (vpair (v_istring LType) (v_nstring LType))) p = true ->
  v_id_params LType p = true.
Proof. destruct p as [[|]|]; intros H; auto. Qed.
Lemma forallb_weaken A (P Q : A -> bool) l : (forall a, P a = true -> Q a = true) ->
  forallb P l = true -> forallb Q l = true.
Proof. rewrite !forallb_forall. intros H K a Ha. apply H, K, Ha. Qed.

Create HintDb good.
#[export] Hint Resolve good_vec good_vec1 good_vec2 good_opt good_pair good_string good_char
  good_num good_nonzero : good.

Ltac good_leaf := solve [eauto 8 with good].
(** The goal says of a value built from valid parts that it is valid. *)
Ltac ok_parts :=
  cbv beta in *; split_ok;
  repeat match goal with |- _ && _ = true => apply andb_true_intro; split end;
  try solve [ assumption | reflexivity | eapply implb_use; eassumption
            | eapply forallb_use; eassumption | eapply v1_use; eassumption
            | match goal with H : _ (fun a => implb (@?S a) (@?V a)) ?l = true |- _ =>
                first [apply (forallb_use _ S V l H) | apply (v1_use _ S V l H)
                      | apply (forallb_use _ S V l (proj2 (v1_split _ _ _ H)))]; assumption end
            | apply gated_off; assumption | apply gated_on'; assumption
            | apply id_params_ok; assumption
            | match goal with
              | H : v1 _ ?l = true |- nonempty ?l = true => exact (proj1 (v1_split _ _ _ H))
              | H : v1 _ ?l = true |- forallb _ ?l = true => exact (proj2 (v1_split _ _ _ H))
              | H : v1 _ ?l = true |- forallb _ ?l = true =>
                eapply forallb_use; [exact (proj2 (v1_split _ _ _ H)) | assumption]
              end ].
Ltac ok_fields :=
  first
    [ eapply good_req; [good_leaf | intros ? ?; ok_fields]
    | eapply good_opt_field; [good_leaf | intros ? ?; ok_fields]
    | let H := fresh "on" in apply good_only; intros H; ok_fields
    | apply good_fin ].
Ltac ok_content :=
  first
    [ apply good_unit
    | eapply good_c_pair; [good_leaf | good_leaf | intros ? ? ? ?]
    | eapply good_newopt; [good_leaf | intros ? ?]
    | eapply good_newtype; [good_leaf | intros ? ?]
    | eapply good_c_struct; ok_fields ].
Ltac ok_enum :=
  apply good_enum;
  repeat (apply Forall_cons; [cbn [fst snd]; intros ?; ok_content |]); try apply Forall_nil.
Ltac ok_names :=
  apply good_names;
  repeat (apply Forall_cons; [cbn [fst snd]; intros ? |]); try apply Forall_nil.

Section SerdeOk.
Context {F : features}.

(** ** Leaves *)
Lemma good_atom : good de_atom atom_ok.
Proof. apply good_str. Qed.
Lemma good_atom_ext : good de_atom_ext atom_ext_ok.
Proof. apply good_str. Qed.
Lemma good_tag : good de_tag tag_ok.
Proof. apply good_str. Qed.
Lemma good_text : good de_text text_ok.
Proof. apply good_str. Qed.
Lemma good_quoted : good de_quoted quoted_ok.
Proof. apply good_str. Qed.
Lemma good_list_char_string : good de_list_char_string list_char_string_ok.
Proof. apply good_str. Qed.
Lemma good_quoted_char : good de_quoted_char quoted_char_ok.
Proof. apply good_char. Qed.
Lemma good_u32 : good de_u32 v_u32.
Proof. apply good_num. Qed.
Lemma good_u64 : good de_u64 v_u64.
Proof. apply good_num. Qed.
Lemma good_nz32 : good de_nz32 v_nz32.
Proof. apply good_nonzero. Qed.
Lemma good_nz64 : good de_nz64 v_nz64.
Proof. apply good_nonzero. Qed.
Lemma good_bool : good de_bool (fun _ => true).
Proof. apply good_any. Qed.
Lemma good_bytes : good de_bytes (fun _ => true).
Proof. apply good_any. Qed.
Lemma good_literal_data : good de_literal_data literal_ok.
Proof.
  intros t a E. unfold de_literal_data in E. destruct (de_bytes t); [|discriminate].
  destruct (literal_ok b) eqn:E1; congruence.
Qed.
Lemma good_naive_date : good de_naive_date v_date.
Proof.
  intros t a E. destruct t; try discriminate. cbn in E. unfold validate_naive_date in E.
  destruct (Z.leb 0 year && Z.leb year 9999) eqn:E1; [|discriminate]. cbn in E.
  apply andb_prop in E1 as [E1 E2]. apply Z.leb_le in E1, E2.
  destruct (ymd_ok (Z.to_N year) month day) eqn:E3; [|discriminate]. injection E as <-.
  unfold v_date. cbn. rewrite E3. apply N.leb_le. lia.
Qed.
Lemma good_date_time : good de_date_time v_date_time.
Proof.
  intros t a E. destruct t; try discriminate. cbn in E. unfold validate_date_time in E.
  destruct (Z.leb 0 year && Z.leb year 9999) eqn:E1; [|discriminate]. cbn in E.
  destruct (N.eqb nanos 0); [|discriminate]. cbn in E.
  destruct (Z.eqb (Z.rem offset 60) 0) eqn:E4; [|discriminate].  cbn in E.
  apply andb_prop in E1 as [E1 E2]. apply Z.leb_le in E1, E2.
  match type of E with (if ?c then _ else _) = _ => destruct c eqn:E5; [|discriminate] end.
  injection E as <-. split_ok. unfold v_date_time, v_date. cbn. rewrite H. cbn.
  replace (N.leb (Z.to_N year) 9999) with true by (symmetry; apply N.leb_le; lia). cbn.
  rewrite H4, H3, H2, H1, H0. exact E4.
Qed.
Hint Resolve good_atom good_atom_ext good_tag good_text good_quoted good_list_char_string
  good_quoted_char good_u32 good_u64 good_nz32 good_nz64 good_bool good_bytes good_literal_data
  good_naive_date good_date_time : good.

Notation L := LType.

Lemma good_lit_mode : good de_lit_mode (fun _ => true).
Proof. ok_names; reflexivity. Qed.
Hint Resolve good_lit_mode : good.

Lemma good_literal_t : good de_literal_t (v_literal L).
Proof.
  apply good_struct; ok_fields; unfold v_literal, only_rt, only_exact; cbv beta iota; ok_parts.
Qed.
Hint Resolve good_literal_t : good.

Lemma good_literal8_t : good de_literal8_t (v_literal8 L).
Proof.
  apply good_struct; ok_fields; unfold v_literal8, only_rt, only_exact; cbv beta iota; ok_parts.
Qed.
Hint Resolve good_literal8_t : good.

Lemma good_istring : good de_istring (v_istring L).
Proof.
  ok_enum; unfold v_istring, only_rt, only_exact; cbv beta iota; ok_parts.
Qed.
Hint Resolve good_istring : good.

Lemma good_nstring : good de_nstring (v_nstring L).
Proof. unfold de_nstring. eauto with good. Qed.
Hint Resolve good_nstring : good.

Lemma good_astring : good de_astring (v_astring L).
Proof.
  ok_enum; unfold v_astring, only_rt, only_exact; cbv beta iota; ok_parts.
Qed.
Hint Resolve good_astring : good.

Lemma good_mailbox_other : good de_mailbox_other
  (fun a => v_astring L a && mailbox_other_ok (astring_bytes a)).
Proof.
  intros t a E. unfold de_mailbox_other in E. destruct (de_astring t) eqn:E1; [|discriminate].
  destruct (mailbox_other_ok (astring_bytes a0)) eqn:E2; [|discriminate]. injection E as <-.
  now rewrite (good_astring _ _ E1), E2.
Qed.
Hint Resolve good_mailbox_other : good.

Lemma good_nstring8 : good de_nstring8 (v_nstring8 L).
Proof.
  ok_enum; unfold v_nstring8, only_rt, only_exact; cbv beta iota; ok_parts.
Qed.
Hint Resolve good_nstring8 : good.

Lemma good_charset : good de_charset v_charset.
Proof.
  ok_enum; unfold v_charset, only_rt, only_exact; cbv beta iota; ok_parts.
Qed.
Hint Resolve good_charset : good.

Lemma good_lit_or_lit8 : good de_lit_or_lit8 (v_lit_or_lit8 L).
Proof.
  ok_enum; unfold v_lit_or_lit8, only_rt, only_exact; cbv beta iota; ok_parts.
Qed.
Hint Resolve good_lit_or_lit8 : good.

Lemma good_seq_or_uid : good de_seq_or_uid v_seq_or_uid.
Proof.
  ok_enum; unfold v_seq_or_uid, only_rt, only_exact; cbv beta iota; ok_parts.
Qed.
Hint Resolve good_seq_or_uid : good.

Lemma good_sequence : good de_sequence v_sequence.
Proof.
  ok_enum; unfold v_sequence, only_rt, only_exact; cbv beta iota; ok_parts.
Qed.
Hint Resolve good_sequence : good.

Lemma good_sequence_set : good de_sequence_set (v_sequence_set L).
Proof.
  intros t l E. unfold v_sequence_set. apply andb_true_intro. split; [|reflexivity].
  eapply good_vec1; [exact good_sequence | exact E].
Qed.
Hint Resolve good_sequence_set : good.

Lemma good_mailbox : good de_mailbox (v_mailbox L).
Proof.
  ok_enum; unfold v_mailbox, only_rt, only_exact; cbv beta iota; ok_parts.
Qed.
Hint Resolve good_mailbox : good.

Lemma good_list_mailbox : good de_list_mailbox (v_list_mailbox L).
Proof.
  ok_enum; unfold v_list_mailbox, only_rt, only_exact; cbv beta iota; ok_parts.
Qed.
Hint Resolve good_list_mailbox : good.

Lemma good_flag : good de_flag (fun a => implb (unshadowed_flag a) (v_flag a)).
Proof.
  ok_enum; apply implb_intro; intros; unfold unshadowed_flag in *; cbv beta iota in *; unfold v_flag, only_rt, only_exact; cbv beta iota; ok_parts.
Qed.
Hint Resolve good_flag : good.

Lemma good_flag_fetch : good de_flag_fetch (fun a => implb (unshadowed_flag_fetch a) (v_flag_fetch L a)).
Proof.
  ok_enum; apply implb_intro; intros; unfold unshadowed_flag_fetch in *; cbv beta iota in *; unfold v_flag_fetch, only_rt, only_exact; cbv beta iota; ok_parts.
Qed.
Hint Resolve good_flag_fetch : good.

Lemma good_flag_perm : good de_flag_perm (fun a => implb (unshadowed_flag_perm a) (v_flag_perm a)).
Proof.
  ok_enum; apply implb_intro; intros; unfold unshadowed_flag_perm in *; cbv beta iota in *; unfold v_flag_perm, only_rt, only_exact; cbv beta iota; ok_parts.
Qed.
Hint Resolve good_flag_perm : good.

Lemma good_flag_name_attribute : good de_flag_name_attribute (fun a => implb (unshadowed_flag_name a) (v_flag_name a)).
Proof.
  ok_enum; apply implb_intro; intros; unfold unshadowed_flag_name in *; cbv beta iota in *; unfold v_flag_name, only_rt, only_exact; cbv beta iota; ok_parts.
Qed.
Hint Resolve good_flag_name_attribute : good.

Lemma good_store_type : good de_store_type (fun _ => true).
Proof. ok_names; reflexivity. Qed.
Hint Resolve good_store_type : good.

Lemma good_store_response : good de_store_response (fun _ => true).
Proof. ok_names; reflexivity. Qed.
Hint Resolve good_store_response : good.

Lemma good_status_data_item_name : good de_status_data_item_name v_status_name.
Proof. ok_names; first [reflexivity | assumption]. Qed.
Hint Resolve good_status_data_item_name : good.

Lemma good_status_data_item : good de_status_data_item v_status_item.
Proof.
  ok_enum; unfold v_status_item, only_rt, only_exact; cbv beta iota; ok_parts.
Qed.
Hint Resolve good_status_data_item : good.

Lemma good_auth_mechanism : good de_auth_mechanism (fun a => implb (unshadowed_auth a) (v_auth_mechanism L a)).
Proof.
  ok_enum; apply implb_intro; intros; unfold unshadowed_auth in *; cbv beta iota in *; unfold v_auth_mechanism, only_rt, only_exact; cbv beta iota; ok_parts.
Qed.
Hint Resolve good_auth_mechanism : good.

Lemma good_authenticate_data : good de_authenticate_data (fun _ => true).
Proof.
  ok_enum; reflexivity.
Qed.
Hint Resolve good_authenticate_data : good.

Lemma good_address : good de_address (v_address L).
Proof.
  apply good_struct; ok_fields; unfold v_address, only_rt, only_exact; cbv beta iota; ok_parts.
Qed.
Hint Resolve good_address : good.

Lemma good_envelope : good de_envelope (v_envelope L).
Proof.
  apply good_struct; ok_fields; unfold v_envelope, only_rt, only_exact; cbv beta iota; ok_parts.
Qed.
Hint Resolve good_envelope : good.

Lemma good_body_extension_n n : good (de_body_extension_n n) (v_body_extension L).
Proof.
  induction n as [|n IH]; [discriminate|]. intros t a. revert t a. cbn [de_body_extension_n].
  change (good (fun t => de_enum [(bs "NString", true, c_newtype de_nstring BENString);
    (bs "Number", true, c_newtype de_u32 BENumber);
    (bs "List", true, c_newtype (de_vec_n 1 (de_body_extension_n n)) BEList)] t)
    (v_body_extension L)).
  ok_enum; cbn [v_body_extension]; ok_parts.
Qed.
Lemma good_body_extension : good de_body_extension (v_body_extension L).
Proof. intros t a. apply good_body_extension_n. Qed.
Lemma good_body_extension' : good de_body_extension
  (fun b => v_body_extension L b && only_rt L (Nat.leb (be_depth b) 8)).
Proof.
  apply (good_weaken _ _ _ _ good_body_extension). intros a H. now rewrite H.
Qed.
Hint Resolve good_body_extension' : good.

Lemma good_location : good de_location (v_location L).
Proof.
  apply good_struct; ok_fields; unfold v_location, only_rt, only_exact; cbv beta iota; ok_parts.
Qed.
Hint Resolve good_location : good.

Lemma good_language : good de_language (v_language L).
Proof.
  apply good_struct; ok_fields; unfold v_language, only_rt, only_exact; cbv beta iota; ok_parts.
Qed.
Hint Resolve good_language : good.

Lemma good_disposition : good de_disposition (v_disposition L).
Proof.
  apply good_struct; ok_fields; unfold v_disposition, only_rt, only_exact; cbv beta iota; ok_parts.
Qed.
Hint Resolve good_disposition : good.

Lemma good_single_ext : good de_single_ext (v_single_ext L).
Proof.
  apply good_struct; ok_fields; unfold v_single_ext, only_rt, only_exact; cbv beta iota; ok_parts.
Qed.
Hint Resolve good_single_ext : good.

Lemma good_multi_ext : good de_multi_ext (v_multi_ext L).
Proof.
  apply good_struct; ok_fields; unfold v_multi_ext, only_rt, only_exact; cbv beta iota; ok_parts.
Qed.
Hint Resolve good_multi_ext : good.

Lemma good_basic_fields : good de_basic_fields (v_basic L).
Proof.
  apply good_struct; ok_fields; unfold v_basic, only_rt, only_exact; cbv beta iota; ok_parts.
Qed.
Hint Resolve good_basic_fields : good.

Lemma good_specific_fields d : good d (v_body_structure L) ->
  good (de_specific_fields d) (fun s => match s with
    | SFBasic t s => v_istring L t && v_istring L s
    | SFMessage env b' lines => v_envelope L env && v_body_structure L b' && v_u32 lines
    | SFText s lines => v_istring L s && v_u32 lines
    end).
Proof.
  intros H. ok_enum; ok_parts.
Qed.
Lemma good_body_structure_n n : good (de_body_structure_n n) (v_body_structure L).
Proof.
  induction n as [|n IH]; [discriminate|].
  pose proof (good_specific_fields _ IH) as IH'.
  intros t a E. cbn [de_body_structure_n] in E. revert t a E.
  refine (good_enum _ _ (v_body_structure L) _).
  repeat (apply Forall_cons; [cbn [fst snd]; intros _; apply good_c_struct |]); try apply Forall_nil.
  - eapply good_req with (Q := fun x => v_body_structure L (BSSingle (fst x) (snd x) None)).
    { apply good_struct.
      eapply good_req; [exact good_basic_fields | intros ? ?].
      eapply good_req; [exact IH' | intros ? ?]. apply good_fin.
      cbn [fst snd v_body_structure vopt] in *. rewrite H. cbn. now rewrite H0. }
    intros [b s] H. eapply good_opt_field; [exact good_single_ext | intros ? ?]. apply good_fin.
    cbn [fst snd v_body_structure vopt] in *. rewrite Bool.andb_true_r in H. now rewrite H, H0.
  - ok_fields. cbn [v_body_structure]. apply v1_split in H as [H' H'']. rewrite H', H''. ok_parts.
Qed.
Lemma good_body_structure : good de_body_structure (v_body_structure L).
Proof. intros t a. apply good_body_structure_n. Qed.
Lemma good_body : good de_body_structure (v_body L).
Proof.
  apply (good_weaken _ _ _ _ good_body_structure). intros a H. unfold v_body. now rewrite H.
Qed.
Hint Resolve good_body : good.

Lemma good_macro : good de_macro (fun _ => true).
Proof.
  ok_enum; reflexivity.
Qed.
Hint Resolve good_macro : good.

Lemma good_part : good de_part v_part.
Proof. unfold de_part. eauto with good. Qed.
Hint Resolve good_part : good.

Lemma good_section : good de_section (v_section L).
Proof.
  ok_enum; unfold v_section, only_rt, only_exact; cbv beta iota; ok_parts.
Qed.
Hint Resolve good_section : good.

Lemma good_item_name : good de_item_name (v_item_name L).
Proof.
  ok_enum; unfold v_item_name, only_rt, only_exact; cbv beta iota; ok_parts.
Qed.
Hint Resolve good_item_name : good.

Lemma good_macro_or_items : good de_macro_or_items (v_macro_or_items L).
Proof.
  ok_enum; unfold v_macro_or_items, only_rt, only_exact; cbv beta iota; ok_parts.
Qed.
Hint Resolve good_macro_or_items : good.

Lemma good_message_data_item : good de_message_data_item (fun a => implb (unshadowed_item a) (v_message_data_item L a)).
Proof.
  ok_enum; apply implb_intro; intros; unfold unshadowed_item in *; cbv beta iota in *; unfold v_message_data_item, only_rt, only_exact; cbv beta iota; ok_parts.
Qed.
Hint Resolve good_message_data_item : good.

Lemma good_attribute_flag : good de_attribute_flag (fun a => implb (unshadowed_attribute_flag a) (v_attribute_flag a)).
Proof.
  ok_enum; apply implb_intro; intros; unfold unshadowed_attribute_flag in *; cbv beta iota in *; unfold v_attribute_flag, only_rt, only_exact; cbv beta iota; ok_parts.
Qed.
Hint Resolve good_attribute_flag : good.

Lemma good_entry_type_req : good de_entry_type_req (fun _ => true).
Proof. ok_names; reflexivity. Qed.
Hint Resolve good_entry_type_req : good.

Lemma good_utf8_kind : good de_utf8_kind (fun _ => true).
Proof.
  ok_enum; reflexivity.
Qed.
Hint Resolve good_utf8_kind : good.

Lemma good_capability_enable : good de_capability_enable (fun a => implb (unshadowed_enable a) (v_capability_enable a)).
Proof.
  ok_enum; apply implb_intro; intros; unfold unshadowed_enable in *; cbv beta iota in *; unfold v_capability_enable, only_rt, only_exact; cbv beta iota; ok_parts.
Qed.
Hint Resolve good_capability_enable : good.

Lemma good_compression_algorithm : good de_compression_algorithm (fun _ => true).
Proof.
  ok_enum; reflexivity.
Qed.
Hint Resolve good_compression_algorithm : good.

Lemma good_resource : good de_resource (fun a => implb (unshadowed_resource a) (v_resource a)).
Proof.
  ok_enum; apply implb_intro; intros; unfold unshadowed_resource in *; cbv beta iota in *; unfold v_resource, only_rt, only_exact; cbv beta iota; ok_parts.
Qed.
Hint Resolve good_resource : good.

Lemma good_quota_get : good de_quota_get (fun a => implb (unshadowed_resource (qg_resource a)) (v_quota_get a)).
Proof.
  apply good_struct; ok_fields; apply implb_intro; intros; cbn beta in *; unfold v_quota_get, only_rt, only_exact; cbv beta iota; ok_parts.
Qed.
Hint Resolve good_quota_get : good.

Lemma good_quota_set : good de_quota_set (fun a => implb (unshadowed_resource (qs_resource a)) (v_quota_set a)).
Proof.
  apply good_struct; ok_fields; apply implb_intro; intros; cbn beta in *; unfold v_quota_set, only_rt, only_exact; cbv beta iota; ok_parts.
Qed.
Hint Resolve good_quota_set : good.

Lemma good_sort_algorithm : good de_sort_algorithm (fun a => implb (unshadowed_sort a) (v_sort_algorithm a)).
Proof.
  ok_enum; apply implb_intro; intros; unfold unshadowed_sort in *; cbv beta iota in *; unfold v_sort_algorithm, only_rt, only_exact; cbv beta iota; ok_parts.
Qed.
Hint Resolve good_sort_algorithm : good.

Lemma good_sort_key : good de_sort_key (fun _ => true).
Proof. ok_names; reflexivity. Qed.
Hint Resolve good_sort_key : good.

Lemma good_sort_criterion : good de_sort_criterion (fun _ => true).
Proof.
  apply good_struct; ok_fields; reflexivity.
Qed.
Hint Resolve good_sort_criterion : good.

Lemma good_thread_n n : good (de_thread_n n) (v_thread_tree).
Proof.
  induction n as [|n IH]; [discriminate|].
  intros t a E. cbn [de_thread_n] in E. revert t a E.
  refine (good_enum _ _ (v_thread_tree) _).
  repeat (apply Forall_cons; [cbn [fst snd]; intros _; ok_content |]); try apply Forall_nil;
    cbn [v_thread_tree].
  - destruct a0 as [l|]; [|assumption]. cbn [vopt] in *. apply v2_split in H0 as [H1 H2]. unfold v_part in *. cbn [v_thread_tree].
    now rewrite H, H1, H2.
  - exact H.
Qed.
Lemma good_thread : good de_thread (v_thread L).
Proof.
  intros t a E. unfold v_thread. rewrite Bool.andb_true_r. eapply good_thread_n, E.
Qed.
Hint Resolve good_thread : good.

Lemma good_threading_algorithm : good de_threading_algorithm (fun a => implb (unshadowed_threading a) (v_threading_algorithm a)).
Proof.
  ok_enum; apply implb_intro; intros; unfold unshadowed_threading in *; cbv beta iota in *; unfold v_threading_algorithm, only_rt, only_exact; cbv beta iota; ok_parts.
Qed.
Hint Resolve good_threading_algorithm : good.

Lemma good_uid_element : good de_uid_element v_uid_element.
Proof.
  ok_enum; unfold v_uid_element, only_rt, only_exact; cbv beta iota; ok_parts.
Qed.
Hint Resolve good_uid_element : good.

Lemma good_uid_set : good de_uid_set v_uid_set.
Proof. unfold de_uid_set. eauto with good. Qed.
Hint Resolve good_uid_set : good.

Lemma good_entry_value : good de_entry_value (v_entry_value L).
Proof.
  apply good_struct; ok_fields; unfold v_entry_value, only_rt, only_exact; cbv beta iota; ok_parts.
Qed.
Hint Resolve good_entry_value : good.

Lemma good_depth : good de_depth (fun _ => true).
Proof. ok_names; reflexivity. Qed.
Hint Resolve good_depth : good.

Lemma good_get_metadata_option : good de_get_metadata_option v_get_metadata_option.
Proof.
  ok_enum; unfold v_get_metadata_option, only_rt, only_exact; cbv beta iota; ok_parts.
Qed.
Hint Resolve good_get_metadata_option : good.

Lemma good_metadata_code : good de_metadata_code v_metadata_code.
Proof.
  ok_enum; unfold v_metadata_code, only_rt, only_exact; cbv beta iota; ok_parts.
Qed.
Hint Resolve good_metadata_code : good.

Lemma good_metadata_response : good de_metadata_response (v_metadata_response L).
Proof.
  ok_enum; unfold v_metadata_response, only_rt, only_exact; cbv beta iota; ok_parts.
Qed.
Hint Resolve good_metadata_response : good.

Lemma good_namespace_ext : good de_namespace_ext (v_namespace_ext L).
Proof.
  apply good_struct; ok_fields; unfold v_namespace_ext, only_rt, only_exact; cbv beta iota; ok_parts.
Qed.
Hint Resolve good_namespace_ext : good.

Lemma good_namespace : good de_namespace (v_namespace L).
Proof.
  apply good_struct; ok_fields; unfold v_namespace, only_rt, only_exact; cbv beta iota; ok_parts.
Qed.
Hint Resolve good_namespace : good.

Lemma good_search_key_n n : good (de_search_key_n n)
  (fun a => implb (unshadowed_search a) (v_search_tree L a)).
Proof.
  induction n as [|n IH]; [discriminate|].
  intros t a E. cbn [de_search_key_n] in E. revert t a E.
  refine (good_enum _ _ (fun a => implb (unshadowed_search a) (v_search_tree L a)) _).
  repeat (apply Forall_cons; [cbn [fst snd]; intros ?; ok_content |]); try apply Forall_nil;
    cbn [v_search_tree unshadowed_search]; try reflexivity; try assumption;
    apply implb_intro; intros U; try assumption; ok_parts.
  destruct a as [[f t]|]; [|reflexivity]. unfold vopt, vpair in *. cbn [fst snd] in *. ok_parts.
Qed.
Lemma good_search_key : good de_search_key
  (fun a => implb (unshadowed_search a) (v_search_key L a)).
Proof.
  intros t a E. unfold v_search_key. rewrite Bool.andb_true_r. eapply good_search_key_n, E.
Qed.
Hint Resolve good_search_key : good.

Lemma good_select_parameter : good de_select_parameter (v_select_parameter L).
Proof.
  ok_enum; unfold v_select_parameter, only_rt, only_exact; cbv beta iota; ok_parts.
Qed.
Hint Resolve good_select_parameter : good.

Lemma good_fetch_modifier : good de_fetch_modifier v_fetch_modifier.
Proof.
  ok_enum; unfold v_fetch_modifier, only_rt, only_exact; cbv beta iota; ok_parts.
Qed.
Hint Resolve good_fetch_modifier : good.

Lemma good_store_modifier : good de_store_modifier v_store_modifier.
Proof.
  ok_enum; unfold v_store_modifier, only_rt, only_exact; cbv beta iota; ok_parts.
Qed.
Hint Resolve good_store_modifier : good.

Lemma good_command_body : good de_command_body
  (fun b => implb (unshadowed_command (mkCommand [] b)) (v_command_body L b)).
Proof.
  ok_enum; unfold unshadowed_command; cbn [cmd_body];
    apply implb_intro; intros; unfold v_command_body, only_rt, only_exact; cbv beta iota; ok_parts.
Qed.
Hint Resolve good_command_body : good.
Lemma good_command : good de_command (fun c => implb (unshadowed_command c) (v_command L c)).
Proof.
  apply good_struct; ok_fields. apply implb_intro; intros. unfold v_command. ok_parts.
Qed.
Hint Resolve good_command : good.

Lemma good_capability : good de_capability
  (fun a => implb (unshadowed_capability a) (v_capability L a)).
Proof.
  ok_enum; apply implb_intro; intros; unfold unshadowed_capability in *; cbv beta iota in *;
    unfold v_capability, only_rt, only_exact; cbv beta iota; ok_parts.
  destruct a; [eapply implb_use; eassumption | reflexivity].
Qed.
Hint Resolve good_capability : good.

Section Other.
Variable other : bytes -> bytes -> bool.
Definition v_some_code (c : code) : bool := v_code L other c [].
Lemma code_any c t : v_some_code c = true -> v_code L other c t = true.
Proof. destruct c; auto. Qed.
Lemma good_code : good de_code (fun c => implb (unshadowed_code (Some c)) (v_some_code c)).
Proof.
  ok_enum; unfold unshadowed_code;
    apply implb_intro; intros; unfold v_some_code, v_code, only_rt, only_exact; cbv beta iota;
    ok_parts.
  now rewrite Bool.orb_comm.
Qed.
Hint Resolve good_code : good.
Lemma code_text_ok c t : vopt (fun c => implb (unshadowed_code (Some c)) (v_some_code c)) c = true ->
  text_ok t = true -> unshadowed_code c = true -> v_code_text L other c t = true.
Proof.
  intros H Ht U. unfold v_code_text. rewrite Ht. destruct c as [c|]; [|reflexivity]. cbn.
  apply code_any. cbn [vopt] in H. now rewrite U in H.
Qed.
Lemma good_greeting_kind : good de_greeting_kind (fun _ => true).
Proof. ok_names; reflexivity. Qed.
Lemma good_status_kind : good de_status_kind (fun _ => true).
Proof. ok_names; reflexivity. Qed.
Hint Resolve good_greeting_kind good_status_kind : good.
Lemma good_greeting : good de_greeting
  (fun g => implb (unshadowed_greeting g) (v_greeting L other g)).
Proof.
  apply good_struct; ok_fields. apply implb_intro; intros. now apply code_text_ok.
Qed.
Lemma good_status_body : good de_status_body
  (fun b => implb (unshadowed_code (sb_code b)) (v_status_body L other b)).
Proof.
  apply good_struct; ok_fields. apply implb_intro; intros. now apply code_text_ok.
Qed.
Hint Resolve good_status_body : good.
Lemma good_status : good de_status
  (fun s => implb (unshadowed_response (RStatus s)) (v_status L other s)).
Proof.
  ok_enum; unfold unshadowed_response;
    apply implb_intro; intros; unfold v_status; cbv beta iota; ok_parts.
  now apply code_text_ok.
Qed.
Hint Resolve good_status : good.
Lemma good_data : good de_data (fun d => implb (unshadowed_response (RData d)) (v_data L d)).
Proof.
  assert (K : forall f : list N -> option N -> data,
    (forall l m, v_data L (f l m) = v_data L (DSearch l m)) ->
    good_content (if ext_condstore_qresync then c_pair (de_vec de_nz32) (de_opt de_nz64) f
                  else c_newtype (de_vec de_nz32) (fun l => f l None))
      (fun d => implb (unshadowed_response (RData d)) (v_data L d))).
  { intros f Hf. destruct ext_condstore_qresync eqn:on; ok_content; apply implb_intro; intros _;
      rewrite Hf; cbn [v_data].
    - rewrite on. cbn [andb]. apply andb_true_intro; split; [assumption|]. destruct b; [|reflexivity]. assumption.
    - now rewrite Bool.andb_true_r. }
  apply good_enum;
  repeat (apply Forall_cons;
    [cbn [fst snd]; intros ?; first [apply K; reflexivity | ok_content] |]); try apply Forall_nil;
    unfold unshadowed_response;
    apply implb_intro; intros; unfold v_data, only_rt, only_exact; cbv beta iota; ok_parts.
Qed.
Hint Resolve good_data : good.
Lemma good_continuation : good de_continuation
  (fun c => implb (unshadowed_response (RContinue c)) (v_continuation L other c)).
Proof.
  apply good_enum.
  apply Forall_cons; [|apply Forall_cons; [|apply Forall_nil]]; cbn [fst snd]; intros _.
  - apply good_newtype with (Q := fun p =>
      implb (unshadowed_code (fst p)) (v_continuation L other (CRBasic (fst p) (snd p)))).
    2: { intros [c t] H. exact H. }
    assert (H : good (de_struct [bs "code"; bs "text"]
          (x <== opt de_code ;; y <== req de_text ;; fin (x, y)))
      (fun p => vopt (fun c => implb (unshadowed_code (Some c)) (v_some_code c)) (fst p)
                && text_ok (snd p))).
    { apply good_struct; ok_fields. ok_parts. }
    intros t [c x] E. unfold de_basic in E.
    match type of E with match ?d with _ => _ end = _ => destruct d as [[[c'|] x']|] eqn:E1 end;
      [| | discriminate].
    + injection E as <- <-. apply H in E1. cbn [fst snd vopt] in *. split_ok.
      apply implb_intro. intros U. cbn [v_continuation]. rewrite H1. apply code_any.
      now rewrite U in H0.
    + apply H in E1. cbn [fst snd vopt andb] in *.
      destruct (starts_with (bs "[") x') eqn:E2; [discriminate|].
      destruct (b64_decode x') eqn:E3; [discriminate|]. injection E as <- <-.
      apply implb_intro. intros U. cbn [v_continuation]. now rewrite E1, E2, E3.
  - ok_content. reflexivity.
Qed.
Hint Resolve good_continuation : good.
Lemma good_response : good de_response
  (fun r => implb (unshadowed_response r) (v_response L other r)).
Proof. ok_enum; exact H0. Qed.
End Other.

Lemma good_state : good de_state v_state.
Proof. ok_enum; unfold v_state; cbv beta iota; ok_parts. Qed.

End SerdeOk.
