(** The message as written: same encoding, and exactly readable. *)

From Verif Require Import Bytes BytesFacts Dec Features Nom Types Utf8 Conv SeqSet EncodeCtx Encode EncodeFacts
  Valid ValidFacts RtFacts RtTac RtCore RtCmd SeqSpec SeqFacts RoundTripSpec.
Open Scope nat_scope.

Section Written.
Context {F : features}.

Lemma v_set_vset s : v1 v_sequence s = true -> vset s /\ s <> [].
Proof.
  intros H. unfold v1 in H. apply andb_true_iff in H as [H1 H2]. split.
  - unfold vset. apply Forall_forall. now apply forallb_forall.
  - now destruct s.
Qed.
Lemma vset_v_set s : vset s -> s <> [] -> v1 v_sequence s = true.
Proof.
  intros V Ne. unfold v1. apply andb_true_iff. split; [now destruct s |].
  apply forallb_forall. now apply Forall_forall.
Qed.
Lemma sequence_set_eqb_refl s : sequence_set_eqb s s = true.
Proof.
  induction s as [| q s IH]; [reflexivity |]. cbn. rewrite IH, andb_true_r.
  assert (K : forall a, seq_or_uid_eqb a a = true) by (intros [n |]; cbn; [apply N.eqb_refl | reflexivity]).
  destruct q; cbn; now rewrite ?K.
Qed.

Lemma w_set_valid s : v_sequence_set LDecoded s = true -> v_sequence_set LExact (w_set s) = true.
Proof.
  unfold v_sequence_set. cbn [only_exact]. intros H. apply andb_true_iff in H as [H _].
  unfold w_set. destruct quirk_always_normalize_sequence_sets; cbn [negb orb].
  - destruct (v_set_vset s H) as [V Ne]. apply andb_true_iff. split.
    + apply vset_v_set; [now apply normalize_valid | now apply normalize_nonempty].
    + unfold normal_set. rewrite norm_set_normalize by now apply normalize_valid.
      rewrite normalize_idem by assumption. apply sequence_set_eqb_refl.
  - now rewrite H.
Qed.
Lemma w_set_enc s : v_sequence_set LDecoded s = true -> e_sequence_set (w_set s) = e_sequence_set s.
Proof.
  unfold v_sequence_set. cbn [only_exact]. intros H. apply andb_true_iff in H as [H _].
  destruct (v_set_vset s H) as [V Ne]. rewrite !e_sequence_set_raw. unfold w_set.
  destruct quirk_always_normalize_sequence_sets; [| reflexivity].
  rewrite !norm_set_normalize by (try apply normalize_valid; assumption).
  now rewrite normalize_idem.
Qed.
Lemma w_id_valid p : v_id_params LDecoded p = true -> v_id_params LExact (w_id p) = true.
Proof.
  destruct p as [[| x l] |]; cbn [w_id]; try (intros H; exact H).
  intros _. destruct quirk_id_empty_to_nil eqn:Q; [reflexivity |]. cbn. now rewrite Q.
Qed.
Lemma w_id_enc p : e_id_params (w_id p) = e_id_params p.
Proof.
  destruct p as [[| x l] |]; cbn [w_id]; try reflexivity.
  destruct quirk_id_empty_to_nil eqn:Q; [| reflexivity]. cbn. now rewrite Q.
Qed.

Lemma v1_map {A C} (f : A -> C) v v' l : (forall x, In x l -> v x = true -> v' (f x) = true) ->
  v1 v l = true -> v1 v' (map f l) = true.
Proof.
  unfold v1. intros H V. apply andb_true_iff in V as [Ne V]. apply andb_true_iff.
  split; [now destruct l |]. rewrite forallb_forall in *. intros y Hy.
  apply in_map_iff in Hy as (x & <- & Hx). auto.
Qed.
Lemma join_map_eq {A} sep (e : A -> list op) f l : (forall x, In x l -> e (f x) = e x) ->
  join sep e (map f l) = join sep e l.
Proof.
  intros H. rewrite join_map. induction l as [| x [| y l] IH]; [reflexivity | cbn; apply H; now left |].
  change (e (f x) ++ sep ++ join sep (fun x => e (f x)) (y :: l) = e x ++ sep ++ join sep e (y :: l)).
  rewrite IH by (intros z Hz; apply H; now right). rewrite H by (now left). reflexivity.
Qed.

Lemma w_search_tree k : v_search_tree LDecoded k = true ->
  v_search_tree LExact (w_search_key k) = true /\ e_search_key (w_search_key k) = e_search_key k /\
  search_depth (w_search_key k) = search_depth k.
Proof.
  induction k as [l IH | k IH | a b IHa IHb | k Hk] using key_ind'.
  - cbn [w_search_key v_search_tree e_search_key search_depth]. intros V. apply andb_true_iff in V as [Ne V].
    rewrite Forall_forall in IH. rewrite forallb_forall in V. split; [| split].
    + apply andb_true_iff. split; [now destruct l |]. apply forallb_forall. intros y Hy.
      apply in_map_iff in Hy as (x & <- & Hx). now apply IH; auto.
    + rewrite (join_map_eq spc e_search_key w_search_key l); [reflexivity |]. intros x Hx. now apply IH; auto.
    + do 2 f_equal. rewrite map_map. apply map_ext_in. intros x Hx. now apply IH; auto.
  - cbn [w_search_key v_search_tree e_search_key search_depth]. intros V.
    destruct (IH V) as (A & B & C). now rewrite A, B, C.
  - cbn [w_search_key v_search_tree e_search_key search_depth]. intros V. apply andb_true_iff in V as [Va Vb].
    destruct (IHa Va) as (A & B & C). destruct (IHb Vb) as (A' & B' & C'). now rewrite A, B, C, A', B', C'.
  - destruct k; try destruct Hk; cbn [w_search_key v_search_tree e_search_key search_depth]; intros V;
      try (split; [exact V | split; reflexivity]).
    + rewrite w_set_enc by assumption. split; [now apply w_set_valid | split; reflexivity].
    + rewrite w_set_enc by assumption. split; [now apply w_set_valid | split; reflexivity].
Qed.
Lemma w_search k : v_search_key LDecoded k = true ->
  v_search_key LExact (w_search_key k) = true /\ e_search_key (w_search_key k) = e_search_key k.
Proof.
  unfold v_search_key. cbn [only_rt]. intros V. apply andb_true_iff in V as [V D].
  destruct (w_search_tree k V) as (A & B & C). now rewrite A, B, C, D.
Qed.
Lemma w_searches l : v1 (v_search_key LDecoded) l = true ->
  v1 (v_search_key LExact) (map w_search_key l) = true /\
  joinsp e_search_key (map w_search_key l) = joinsp e_search_key l.
Proof.
  intros V. split.
  - eapply v1_map; [| exact V]. intros x _ Hx. now apply w_search.
  - apply join_map_eq. intros x Hx. unfold v1 in V. apply andb_true_iff in V as [_ V].
    rewrite forallb_forall in V. now apply w_search; auto.
Qed.
Lemma w_parameter p : v_select_parameter LDecoded p = true ->
  v_select_parameter LExact (w_select_parameter p) = true /\
  e_select_parameter (w_select_parameter p) = e_select_parameter p.
Proof.
  destruct p as [| v m k s]; cbn [w_select_parameter v_select_parameter e_select_parameter]; [now split |].
  intros V. vs. rewrite H, H2. destruct k as [k |], s as [[a b] |]; cbn [option_map vopt e_opt fst snd] in *; vs;
    rewrite ?w_set_enc by assumption; unfold vpair in *; cbn [fst snd] in *; vs; rewrite ?w_set_valid by assumption;
    rewrite ?w_set_enc by assumption; split; reflexivity.
Qed.
Lemma w_parameters ps : v_gated ext_condstore_qresync (v_select_parameter LDecoded) ps = true ->
  v_gated ext_condstore_qresync (v_select_parameter LExact) (map w_select_parameter ps) = true /\
  e_opt_list e_select_parameter (map w_select_parameter ps) = e_opt_list e_select_parameter ps.
Proof.
  unfold v_gated. intros V. apply andb_true_iff in V as [G V]. rewrite forallb_forall in V. split.
  - apply andb_true_iff. split; [now destruct ps |]. apply forallb_forall. intros y Hy.
    apply in_map_iff in Hy as (x & <- & Hx). now apply w_parameter; auto.
  - assert (E : joinsp e_select_parameter (map w_select_parameter ps) = joinsp e_select_parameter ps).
    { apply join_map_eq. intros x Hx. now apply w_parameter; auto. }
    unfold e_opt_list. rewrite E. now destruct ps.
Qed.

Lemma w_body c : v_command_body LDecoded c = true ->
  v_command_body LExact (w_command_body c) = true /\ e_command_body (w_command_body c) = e_command_body c.
Proof.
  destruct c; cbn [w_command_body]; intros V; try (split; [exact V | reflexivity]);
    cbn [v_command_body e_command_body] in *; vs.
  - destruct (w_parameters _ H0) as [A B]. rewrite A, B. split; [now apply andb_true_iff | reflexivity].
  - destruct (w_parameters _ H0) as [A B]. rewrite A, B. split; [now apply andb_true_iff | reflexivity].
  - rewrite w_set_enc by assumption. split; [now apply w_set_valid | reflexivity].
  - destruct (w_searches _ H0) as [A B]. rewrite A, B, H. now split.
  - destruct (w_searches _ H0) as [A B]. rewrite A, B, H, H1. now split.
  - destruct (w_searches _ H0) as [A B]. rewrite A, B, H, H1. now split.
  - rewrite w_set_enc, w_set_valid, H0 by assumption. rewrite andb_true_r. split; [exact H1 | reflexivity].
  - rewrite w_set_enc, w_set_valid, H0, H1 by assumption. now split.
  - rewrite w_set_enc, w_set_valid by assumption. now split.
  - rewrite w_set_enc, w_set_valid by assumption. now split.
  - rewrite w_id_enc, w_id_valid, H by assumption. now split.
Qed.
Lemma w_command_ok c : v_command LDecoded c = true ->
  v_command LExact (w_command c) = true /\ e_command (w_command c) = e_command c.
Proof.
  unfold v_command, e_command, w_command. cbn [cmd_tag cmd_body]. intros V. vs.
  destruct (w_body _ H0) as [A B]. rewrite A, B, H. now split.
Qed.

Lemma w_code_ok other c t : v_code LDecoded other c t = true ->
  v_code LExact other (w_code c) t = true /\ e_code (w_code c) = e_code c.
Proof.
  destruct c; cbn [w_code]; intros V; try (split; [exact V | reflexivity]).
  cbn [v_code e_code] in *. vs. rewrite w_set_enc, w_set_valid, H by assumption. now split.
Qed.
Lemma w_code_text_ok other c t : v_code_text LDecoded other c t = true ->
  v_code_text LExact other (option_map w_code c) t = true /\
  e_code_text (option_map w_code c) t = e_code_text c t.
Proof.
  unfold v_code_text, e_code_text. destruct c as [c |]; cbn [option_map]; [| now split].
  intros V. vs. destruct (w_code_ok _ _ _ H0) as [A B]. cbn [e_opt]. rewrite A, B, H. now split.
Qed.
Lemma w_greeting_ok other g : v_greeting LDecoded other g = true ->
  v_greeting LExact other (w_greeting g) = true /\ e_greeting (w_greeting g) = e_greeting g.
Proof.
  unfold v_greeting, e_greeting, w_greeting. cbn [gr_kind gr_code gr_text]. intros V.
  destruct (w_code_text_ok _ _ _ V) as [A B]. rewrite A, B. now split.
Qed.
Lemma w_item i : is_modseq i = false -> v_message_data_item LDecoded i = true ->
  v_message_data_item LExact i = true.
Proof. destruct i; cbn [is_modseq]; intros E V; try exact V. discriminate. Qed.
Lemma w_response_ok other r : has_modseq r = false -> v_response LDecoded other r = true ->
  v_response LExact other (w_response r) = true /\ e_response (w_response r) = e_response r.
Proof.
  destruct r as [[c t | d] | d | [b | tg b | c t]]; intros M V.
  - cbn [w_response v_response v_continuation e_response e_continuation] in *.
    destruct c as [c |]; cbn [option_map]; [| now split].
    unfold e_code_text. cbn [v_continuation] in *. vs. destruct (w_code_ok _ _ _ H0) as [A B]. cbn [e_opt]. rewrite A, B, H. now split.
  - now split.
  - destruct d; try (split; [exact V | reflexivity]).
    + split; [| reflexivity]. cbn [w_response v_response v_data] in *. vs. rewrite H. cbn [andb].
      unfold v1 in *. apply andb_true_iff in H0 as [Ne H0]. rewrite Ne. cbn [andb].
      rewrite forallb_forall in *. intros x Hx.
      apply w_item; [| now apply H0]. cbn [has_modseq] in M.
      destruct (is_modseq x) eqn:E; [| reflexivity].
      assert (existsb is_modseq items = true) by (apply existsb_exists; eauto). congruence.
    + cbn [w_response v_response v_data e_response] in *. vs. unfold e_data.
      rewrite w_id_enc, w_id_valid, H by assumption. now split.
    + cbn [w_response v_response v_data e_response] in *. vs. unfold e_data.
      rewrite w_set_enc, w_set_valid, H by assumption. now split.
  - cbn [w_response v_response v_status e_response] in *. unfold v_status_body, e_status, w_status_body in *.
    cbn [sb_kind sb_code sb_text]. destruct (w_code_text_ok _ _ _ V) as [A B]. rewrite A, B. now split.
  - cbn [w_response v_response v_status e_response] in *. unfold v_status_body, e_status, w_status_body in *.
    cbn [sb_kind sb_code sb_text]. vs. destruct (w_code_text_ok _ _ _ H0) as [A B]. rewrite A, B, H. now split.
  - cbn [w_response v_response v_status e_response] in *. unfold e_status.
    destruct (w_code_text_ok _ _ _ V) as [A B]. rewrite A, B. now split.
Qed.
End Written.
