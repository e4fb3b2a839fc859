(** Two relays in a row do what one relay with the quirks of writing of both would do. *)

From Verif Require Import Bytes BytesFacts Dec Features Nom ParserFacts Types Utf8 Conv SeqSet EncodeCtx Encode EncodeApi EncodeFacts
  Decode DecodeProps Valid ValidFacts RtFacts RtTac RtCore RtCmd RtResp SeqSpec SeqFacts SeqProps RoundTripSpec WrittenFacts OkTac OkResp OtherCode
  RoundTripProps MoreSpec MoreProps StrictSpec StrictFacts StrictProps RelaySpec.
Open Scope nat_scope.

(** [F] with the quirks of writing of [G] in addition *)
Definition joined (F G : features) : features := {|
  ext_condstore_qresync := @ext_condstore_qresync F;
  ext_id := @ext_id F;
  ext_metadata := @ext_metadata F;
  ext_namespace := @ext_namespace F;
  ext_utf8 := @ext_utf8 F;
  ext_login_referrals := @ext_login_referrals F;
  ext_mailbox_referrals := @ext_mailbox_referrals F;
  starttls := @starttls F;
  quirk_crlf_relaxed := @quirk_crlf_relaxed F;
  quirk_rectify_numbers := @quirk_rectify_numbers F;
  quirk_missing_text := @quirk_missing_text F;
  quirk_id_empty_to_nil := @quirk_id_empty_to_nil F || @quirk_id_empty_to_nil G;
  quirk_trailing_space_capability := @quirk_trailing_space_capability F;
  quirk_trailing_space_id := @quirk_trailing_space_id F;
  quirk_trailing_space_search := @quirk_trailing_space_search F;
  quirk_trailing_space_status := @quirk_trailing_space_status F;
  quirk_spaces_between_addresses := @quirk_spaces_between_addresses F;
  quirk_empty_continue_req := @quirk_empty_continue_req F;
  quirk_body_fld_enc_nil_to_empty := @quirk_body_fld_enc_nil_to_empty F;
  quirk_always_normalize_sequence_sets := @quirk_always_normalize_sequence_sets F || @quirk_always_normalize_sequence_sets G;
  quirk_excessive_space_quota_resource := @quirk_excessive_space_quota_resource F
|}.

Section Join.
Context (F G : features).
Notation J := (joined F G).

Lemma j_set s : @v_sequence_set F LDecoded s = true -> @e_sequence_set G (@w_set F s) = @e_sequence_set J s.
Proof.
  unfold v_sequence_set. cbn [only_exact]. intros H. apply andb_true_iff in H as [H _].
  destruct (v_set_vset s H) as [V Ne]. rewrite !e_sequence_set_raw. unfold w_set.
  change (@quirk_always_normalize_sequence_sets J) with
    (@quirk_always_normalize_sequence_sets F || @quirk_always_normalize_sequence_sets G)%bool.
  destruct (@quirk_always_normalize_sequence_sets F); cbn [orb]; [| reflexivity].
  destruct (@quirk_always_normalize_sequence_sets G).
  - rewrite !norm_set_normalize; [| exact V | now apply normalize_valid].
    now rewrite normalize_idem by exact V.
  - now rewrite norm_set_normalize.
Qed.
Lemma j_id p : @e_id_params G (@w_id F p) = @e_id_params J p.
Proof.
  destruct p as [[| x l] |]; cbn [w_id]; try reflexivity. unfold e_id_params.
  change (@quirk_id_empty_to_nil J) with (@quirk_id_empty_to_nil F || @quirk_id_empty_to_nil G)%bool.
  destruct (@quirk_id_empty_to_nil F); reflexivity.
Qed.
Lemma j_search_tree k : @v_search_tree F LDecoded k = true -> @e_search_key G (@w_search_key F k) = @e_search_key J k.
Proof.
  induction k as [l IH | k IH | a a' IHa IHb | k Hk] using key_ind'.
  - cbn [w_search_key v_search_tree e_search_key]. intros V. apply andb_true_iff in V as [Ne V].
    rewrite Forall_forall in IH. rewrite forallb_forall in V.
    rewrite (b_join spc (@e_search_key J) (@e_search_key G) (@w_search_key F) l); [reflexivity |]. intros x Hx. now apply IH; auto.
  - cbn [w_search_key v_search_tree e_search_key]. intros V. now rewrite (IH V).
  - cbn [w_search_key v_search_tree e_search_key]. intros V. apply andb_true_iff in V as [Va Vb].
    now rewrite (IHa Va), (IHb Vb).
  - destruct k; try destruct Hk; cbn [w_search_key v_search_tree e_search_key]; intros V; try reflexivity; now rewrite (j_set _ V).
Qed.
Lemma j_searches l : v1 (@v_search_key F LDecoded) l = true ->
  joinsp (@e_search_key G) (map (@w_search_key F) l) = joinsp (@e_search_key J) l.
Proof.
  intros V. apply b_join. intros x Hx. unfold v1 in V. apply andb_true_iff in V as [_ V].
  rewrite forallb_forall in V. specialize (V x Hx). unfold v_search_key in V. apply andb_true_iff in V as [V _]. now apply j_search_tree.
Qed.
Lemma j_parameter p : @v_select_parameter F LDecoded p = true ->
  @e_select_parameter G (@w_select_parameter F p) = @e_select_parameter J p.
Proof.
  destruct p as [| v m k s]; cbn [w_select_parameter v_select_parameter e_select_parameter]; [reflexivity |].
  intros V. vs. destruct k as [k |], s as [[x y] |]; cbn [option_map vopt e_opt fst snd] in *; vs;
    unfold vpair in *; cbn [fst snd] in *; vs;
    repeat match goal with X : v_sequence_set LDecoded ?z = true |- _ => rewrite (j_set z X); clear X end; reflexivity.
Qed.
Lemma j_parameters ps : v_gated (@ext_condstore_qresync F) (@v_select_parameter F LDecoded) ps = true ->
  e_opt_list (@e_select_parameter G) (map (@w_select_parameter F) ps) = e_opt_list (@e_select_parameter J) ps.
Proof.
  unfold v_gated. intros V. apply andb_true_iff in V as [_ V]. rewrite forallb_forall in V.
  assert (E : joinsp (@e_select_parameter G) (map (@w_select_parameter F) ps) = joinsp (@e_select_parameter J) ps).
  { apply b_join. intros x Hx. now apply j_parameter; auto. }
  unfold e_opt_list. rewrite E. now destruct ps.
Qed.
Ltac sets := repeat match goal with
  | X : v_sequence_set LDecoded ?z = true |- _ => rewrite (j_set z X); clear X
  | X : v1 (v_search_key LDecoded) ?z = true |- _ => rewrite (j_searches z X); clear X
  | X : v_gated ext_condstore_qresync (v_select_parameter LDecoded) ?z = true |- _ => rewrite (j_parameters z X); clear X
  | X : v_id_params LDecoded ?z = true |- _ => rewrite (j_id z); clear X
  end.
Lemma j_body c : @v_command_body F LDecoded c = true -> @e_command_body G (@w_command_body F c) = @e_command_body J c.
Proof.
  destruct c; cbn [w_command_body]; intros V; try reflexivity; cbn [v_command_body e_command_body] in *; vs; sets; reflexivity.
Qed.
Lemma j_command c : @v_command F LDecoded c = true -> @e_command G (@w_command F c) = @e_command J c.
Proof.
  unfold v_command, e_command, w_command. cbn [cmd_tag cmd_body]. intros V. vs. now rewrite (j_body _ H0).
Qed.
Lemma j_code other c t : @v_code F LDecoded other c t = true -> @e_code G (@w_code F c) = @e_code J c.
Proof. destruct c; cbn [w_code]; intros V; try reflexivity. cbn [v_code e_code] in *. vs. sets. reflexivity. Qed.
Lemma j_code_text other c t : @v_code_text F LDecoded other c t = true ->
  @e_code_text G (option_map (@w_code F) c) t = @e_code_text J c t.
Proof.
  unfold v_code_text, e_code_text. destruct c as [c |]; cbn [option_map]; [| reflexivity].
  intros V. vs. cbn [e_opt]. now rewrite (j_code _ _ _ H0).
Qed.
Lemma j_greeting other g : @v_greeting F LDecoded other g = true -> @e_greeting G (@w_greeting F g) = @e_greeting J g.
Proof.
  unfold v_greeting, e_greeting, w_greeting. cbn [gr_kind gr_code gr_text]. intros V. now rewrite (j_code_text _ _ _ V).
Qed.
Lemma j_response other r : @v_response F LDecoded other r = true -> @e_response G (@w_response F r) = @e_response J r.
Proof.
  destruct r as [[c t | d] | d | [x | tg x | c t]]; intros V.
  - cbn [w_response v_response v_continuation e_response e_continuation] in *.
    destruct c as [c |]; cbn [option_map]; [| reflexivity].
    unfold e_code_text. cbn [v_continuation] in *. vs. cbn [e_opt]. now rewrite (j_code _ _ _ H0).
  - reflexivity.
  - destruct d; try reflexivity; cbn [w_response v_response v_data e_response] in *; vs; unfold e_data; sets; reflexivity.
  - cbn [w_response v_response v_status e_response] in *. unfold v_status_body, e_status, w_status_body in *.
    cbn [sb_kind sb_code sb_text]. now rewrite (j_code_text _ _ _ V).
  - cbn [w_response v_response v_status e_response] in *. unfold v_status_body, e_status, w_status_body in *.
    cbn [sb_kind sb_code sb_text]. vs. now rewrite (j_code_text _ _ _ H0).
  - cbn [w_response v_response v_status e_response] in *. unfold e_status. now rewrite (j_code_text _ _ _ V).
Qed.
Lemma j_ext : same_extensions F J. Proof. repeat split. Qed.
Lemma j_more : more F J. Proof. unfold more. cbn. tauto. Qed.
Lemma j_trailing : @quirk_trailing_space_capability J = @quirk_trailing_space_capability F. Proof. reflexivity. Qed.
End Join.

(** A relay that was part of it adds nothing. *)
Definition includes (J G : features) : Prop :=
  (@quirk_id_empty_to_nil G = true -> @quirk_id_empty_to_nil J = true) /\
  (@quirk_always_normalize_sequence_sets G = true -> @quirk_always_normalize_sequence_sets J = true).
Lemma j_included J G : includes J G -> joined J G = J.
Proof.
  intros [A B]. unfold joined. destruct J. cbn in *. f_equal.
  - destruct quirk_id_empty_to_nil; [reflexivity |]. destruct (@Features.quirk_id_empty_to_nil G); [now specialize (A eq_refl) | reflexivity].
  - destruct quirk_always_normalize_sequence_sets; [reflexivity |].
    destruct (@Features.quirk_always_normalize_sequence_sets G); [now specialize (B eq_refl) | reflexivity].
Qed.
Lemma j_includes F G : includes (joined F G) G.
Proof. split; cbn; intros ->; apply orb_true_r. Qed.
Lemma j_keeps F G H : includes F H -> includes (joined F G) H.
Proof. intros [A B]. split; cbn; intros E; [rewrite (A E) | rewrite (B E)]; reflexivity. Qed.
Lemma includes_refl F : includes F F. Proof. split; auto. Qed.
