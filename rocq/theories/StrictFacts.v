(** A message as written by one build is read by every build with the same extensions. *)

From Verif Require Import Bytes BytesFacts Dec Features Nom ParserFacts Types Utf8 Conv SeqSet EncodeCtx Encode EncodeApi EncodeFacts
  Decode DecodeProps Valid ValidFacts RtFacts RtTac RtCore RtCmd RtResp SeqSpec SeqFacts RoundTripSpec WrittenFacts OkTac OkResp OtherCode
  ValueSpec ValueFacts Grammar SoundCore SoundCap RespGrammar RoundTripProps MoreSpec MoreFacts MoreProps StrictSpec.
Open Scope nat_scope.

(** ** Nothing to learn from quirks *)
Section Learn.
Context (F F' : features) (S : same_extensions F F').

Lemma same_enable_table : @enable_table F' = @enable_table F.
Proof. destruct S as (A1 & A2 & A3 & A4 & A5 & A6 & A7 & A8). unfold enable_table. now rewrite A1, A3, A5. Qed.
Lemma same_capability_table : @capability_table F' = @capability_table F.
Proof. destruct S as (A1 & A2 & A3 & A4 & A5 & A6 & A7 & A8). unfold capability_table. now rewrite A1, A2, A3, A5, A6, A7, A8. Qed.
Lemma same_code_words : @code_words F' = @code_words F.
Proof. destruct S as (A1 & A2 & A3 & A4 & A5 & A6 & A7 & A8). unfold code_words. now rewrite A1, A3. Qed.
Lemma same_code_numbers : @code_numbers F' = @code_numbers F.
Proof. destruct S as (A1 & A2 & A3 & A4 & A5 & A6 & A7 & A8). unfold code_numbers. now rewrite A1, A3. Qed.

Lemma kept_enable c c' : @v_capability_enable F c = true -> learn_enable F' c c' -> c' = c.
Proof.
  intros V L. destruct L as [x | t x W]; [reflexivity |]. exfalso. rewrite same_enable_table in W.
  cbn [v_capability_enable] in V. apply andb_true_iff in V as [A V].
  apply atom_ok_spec in A. pose proof (@look_name _ (@enable_table F) CEOther t A) as L.
  rewrite <- (@enable_table_ok F t) in L. destruct (capability_enable_from t) as [| | | u | u]; try discriminate V.
  inversion L as [v s c I E Q | v _ N Q]; subst.
  - unfold enable_table in I. rewrite !in_app_iff in I. unfold when in I.
    destruct ext_condstore_qresync, ext_metadata, ext_utf8; cbn in I; intuition discriminate.
  - inversion W as [v s c I E]; subst. exact (N _ _ I E).
Qed.
Lemma kept_capability lv c c' : @v_capability F lv c = true -> learn_capability F' c c' -> c' = c.
Proof.
  intros V L. destruct L as [x | t x W]; [reflexivity |]. exfalso. rewrite same_capability_table in W.
  cbn [v_capability] in V. apply andb_true_iff in V as [_ V].
  rewrite capability_from_known in V. unfold known_cap in V. rewrite (@fixed_word F _ _ W) in V.
  destruct W as [t k x I E]. unfold capability_table in I. rewrite !in_app_iff in I. unfold when in I.
  repeat match type of I with
  | _ \/ _ => destruct I as [I | I]
  | In _ (if ?b then _ else _) => destruct b; [| destruct I]
  end.
  all: cbn [In] in I; repeat (destruct I as [I | I]; [injection I as <- <-; discriminate V |]); destruct I.
Qed.
Lemma kept_list {A} (v : A -> bool) (R : A -> A -> Prop) l l' : (forall a b, v a = true -> R a b -> b = a) ->
  forallb v l = true -> Forall2 R l l' -> l' = l.
Proof.
  intros H V E. induction E as [| a b l l' r E IH]; [reflexivity |]. cbn in V. apply andb_true_iff in V as [V1 V2]. f_equal; auto.
Qed.

Lemma same_known_capability t c : @G_known_capability F' t c -> @G_known_capability F t c.
Proof.
  intros [u a X | k u m K X | k u K X | k u x K X | k u x K X | k x r u v a K X R N E V G].
  - apply g_cap_word. now rewrite same_capability_table in X.
  - now apply g_cap_auth.
  - now apply g_cap_compress.
  - now apply g_cap_sort.
  - now apply g_cap_thread.
  - now apply (g_cap_quota k x r u v).
Qed.
Lemma back_known_capability t c : @G_known_capability F t c -> @G_known_capability F' t c.
Proof.
  intros [u a X | k u m K X | k u K X | k u x K X | k u x K X | k x r u v a K X R N E V G].
  - apply g_cap_word. now rewrite same_capability_table.
  - now apply g_cap_auth.
  - now apply g_cap_compress.
  - now apply g_cap_sort.
  - now apply g_cap_thread.
  - now apply (g_cap_quota k x r u v).
Qed.
Lemma same_capability t c : @G_capability F' t c -> @G_capability F t c.
Proof.
  intros [u a X | u A N]; [apply g_cap_known; now apply same_known_capability |].
  apply g_cap_other; [exact A |]. intros c' K. apply (N c'). now apply back_known_capability.
Qed.
Lemma sep_map {A} sep (L L' : lang A) t l : (forall t a, L t a -> L' t a) -> sep_by sep L t l -> sep_by sep L' t l.
Proof. intros H. induction 1; econstructor; eauto. Qed.
Lemma same_known_code t c : no_new_trailing_space F F' -> @G_known_code F' t c -> @G_known_code F t c.
Proof.
  intros Z. intros [u a W | k L f u n W X | k u l K X | u l X | k u l K X | k tv v tu w K X Y | k tv v ts s td d K X Y Q | k u s Q K X].
  - apply g_code_word. now rewrite same_code_words in W.
  - apply (g_code_number k L); [now rewrite same_code_numbers in W | exact X].
  - now apply g_code_badcharset.
  - apply g_code_capability. destruct X as [k w l z K X T]. constructor; [exact K | exact (sep_map _ _ _ _ _ same_capability X) |].
    destruct T as [T | [T ->]]; [now left | right; split; [now apply Z | reflexivity]].
  - now apply g_code_permanentflags.
  - now apply g_code_appenduid.
  - now apply g_code_copyuid.
  - apply g_code_modified; [| exact K | exact X]. destruct S as (A1 & _). now rewrite A1.
Qed.

(** A code that is not read as a known one stays so. *)
Lemma kept_code other c c' t : no_new_trailing_space F F' -> @other_kept F other ->
  @v_code F LDecoded other c t = true -> learn_code F' c c' -> c' = c.
Proof.
  intros Z O V L. destruct L as [x | l l' R | u x K]; [reflexivity | |].
  - f_equal. cbn [v_code] in V. unfold v1 in V. vs. refine (kept_list _ _ _ _ (kept_capability LDecoded) _ R). assumption.
  - exfalso. cbn [v_code] in V.
    assert (V' : other u t = true) by exact V.
    destruct (O _ _ V') as (_ & J & _). apply (same_known_code _ _ Z) in K. specialize (J [bCR]).
    rewrite !dump_app, !dump_W, <- !app_assoc in J.
    change (bs "] " ++ t ++ [bCR]) with ("]"%byte :: bSP :: t ++ [bCR]) in J.
    pose proof (@code_end_go F _ _ (bSP :: t ++ [bCR]) K) as Y. unfold code_end in Y. rewrite Y in J. discriminate (J eq_refl).
Qed.
Lemma kept_code_text other c c' t : no_new_trailing_space F F' -> @other_kept F other ->
  @v_code_text F LDecoded other c t = true -> learn_opt_code F' c c' -> c' = c.
Proof.
  intros Z O V L. destruct L as [| a b L]; [reflexivity |]. f_equal. unfold v_code_text in V. vs.
  eapply kept_code; eassumption.
Qed.
Lemma kept_command c c' : @v_command F LDecoded c = true -> learn_command F' c c' -> c' = c.
Proof.
  intros V L. destruct L as [c | tag l l' R]; [reflexivity |]. do 2 f_equal.
  unfold v_command in V. cbn [cmd_tag cmd_body v_command_body] in V. vs. unfold v1 in *. vs.
  refine (kept_list _ _ _ _ kept_enable _ R). assumption.
Qed.
Lemma kept_greeting other g g' : no_new_trailing_space F F' -> @other_kept F other ->
  @v_greeting F LDecoded other g = true -> learn_greeting F' g g' -> g' = g.
Proof.
  intros Z O V L. destruct L as [k c c' t L]. unfold v_greeting in V. cbn [gr_kind gr_code gr_text] in V.
  f_equal. eapply kept_code_text; eassumption.
Qed.
Lemma kept_response other r r' : no_new_trailing_space F F' -> @other_kept F other ->
  @v_response F LDecoded other r = true -> learn_response F' r r' -> r' = r.
Proof.
  intros Z O V L. destruct L as [c c' t L | d | d d' L | b b' L | t b b' L | c c' t L].
  - cbn [v_response v_continuation] in V. destruct L as [| a b L]; [reflexivity |]. cbn [v_continuation] in V. do 3 f_equal. vs. eapply kept_code; eassumption.
  - reflexivity.
  - f_equal. destruct L as [d | l l' R | l l' R]; [reflexivity | |]; f_equal; cbn [v_response v_data] in V; unfold v1 in V; vs.
    + refine (kept_list _ _ _ _ (kept_capability LDecoded) _ R). assumption.
    + refine (kept_list _ _ _ _ kept_enable _ R). assumption.
  - destruct L as [k c c' t L]. do 2 f_equal. cbn [v_response v_status] in V. unfold v_status_body in V. cbn [sb_kind sb_code sb_text] in V. vs.
    f_equal. eapply kept_code_text; eassumption.
  - destruct L as [k c c' u L]. do 2 f_equal. cbn [v_response v_status] in V. unfold v_status_body in V. cbn [sb_kind sb_code sb_text] in V. vs.
    f_equal. eapply kept_code_text; eassumption.
  - cbn [v_response v_status] in V. do 2 f_equal. eapply kept_code_text; eassumption.
Qed.
End Learn.

(** ** What is written, without the quirks of writing *)
(** The extensions of [F] and no quirks, except that a space after the last capability may be accepted. *)
Definition base (F : features) (b : bool) : features := {|
  ext_condstore_qresync := @ext_condstore_qresync F;
  ext_id := @ext_id F;
  ext_metadata := @ext_metadata F;
  ext_namespace := @ext_namespace F;
  ext_utf8 := @ext_utf8 F;
  ext_login_referrals := @ext_login_referrals F;
  ext_mailbox_referrals := @ext_mailbox_referrals F;
  starttls := @starttls F;
  quirk_crlf_relaxed := false;
  quirk_rectify_numbers := false;
  quirk_missing_text := false;
  quirk_id_empty_to_nil := false;
  quirk_trailing_space_capability := b;
  quirk_trailing_space_id := false;
  quirk_trailing_space_search := false;
  quirk_trailing_space_status := false;
  quirk_spaces_between_addresses := false;
  quirk_empty_continue_req := false;
  quirk_body_fld_enc_nil_to_empty := false;
  quirk_always_normalize_sequence_sets := false;
  quirk_excessive_space_quota_resource := false
|}.

Section Base.
Context (F : features) (b : bool).
Notation B := (base F b).

Lemma b_set s : @v_sequence_set F LDecoded s = true ->
  @v_sequence_set B LExact (@w_set F s) = true /\ @e_sequence_set B (@w_set F s) = @e_sequence_set F s.
Proof.
  unfold v_sequence_set. cbn [only_exact]. intros H. apply andb_true_iff in H as [H _].
  destruct (v_set_vset s H) as [V Ne]. rewrite !e_sequence_set_raw. unfold w_set.
  change (@quirk_always_normalize_sequence_sets B) with false. cbn [negb orb only_exact].
  destruct (@quirk_always_normalize_sequence_sets F).
  - rewrite norm_set_normalize by assumption. split; [| reflexivity]. apply andb_true_iff. split; [| reflexivity].
    apply vset_v_set; [now apply normalize_valid | now apply normalize_nonempty].
  - rewrite H. now split.
Qed.
Lemma b_id p : @v_id_params F LDecoded p = true ->
  @v_id_params B LExact (@w_id F p) = true /\ @e_id_params B (@w_id F p) = @e_id_params F p.
Proof.
  destruct p as [[| x l] |]; cbn [w_id]; try (intros H; split; [exact H | reflexivity]).
  intros _. unfold e_id_params. destruct (@quirk_id_empty_to_nil F); split; reflexivity.
Qed.
Lemma b_join {A} sep (e e' : A -> list op) f l : (forall x, In x l -> e' (f x) = e x) ->
  join sep e' (map f l) = join sep e l.
Proof.
  intros H. rewrite join_map. induction l as [| x [| y l] IH]; [reflexivity | cbn; apply H; now left |].
  change (e' (f x) ++ sep ++ join sep (fun x => e' (f x)) (y :: l) = e x ++ sep ++ join sep e (y :: l)).
  rewrite IH by (intros z Hz; apply H; now right). rewrite H by (now left). reflexivity.
Qed.
Lemma b_search_tree k : @v_search_tree F LDecoded k = true ->
  @v_search_tree B LExact (@w_search_key F k) = true /\ @e_search_key B (@w_search_key F k) = @e_search_key F k /\
  search_depth (@w_search_key F k) = search_depth k.
Proof.
  induction k as [l IH | k IH | a a' IHa IHb | k Hk] using key_ind'.
  - cbn [w_search_key v_search_tree e_search_key search_depth]. intros V. apply andb_true_iff in V as [Ne V].
    rewrite Forall_forall in IH. rewrite forallb_forall in V. split; [| split].
    + apply andb_true_iff. split; [now destruct l |]. apply forallb_forall. intros y Hy.
      apply in_map_iff in Hy as (x & <- & Hx). now apply IH; auto.
    + rewrite (b_join spc (@e_search_key F) (@e_search_key B) (@w_search_key F) l); [reflexivity |]. intros x Hx. now apply IH; auto.
    + do 2 f_equal. rewrite map_map. apply map_ext_in. intros x Hx. now apply IH; auto.
  - cbn [w_search_key v_search_tree e_search_key search_depth]. intros V.
    destruct (IH V) as (A & C & D). now rewrite A, C, D.
  - cbn [w_search_key v_search_tree e_search_key search_depth]. intros V. apply andb_true_iff in V as [Va Vb].
    destruct (IHa Va) as (A & C & D). destruct (IHb Vb) as (A' & C' & D'). now rewrite A, C, D, A', C', D'.
  - destruct k; try destruct Hk; cbn [w_search_key v_search_tree e_search_key search_depth]; intros V;
      try (split; [exact V | split; reflexivity]).
    + destruct (b_set _ V) as [A C]. rewrite C. now split.
    + destruct (b_set _ V) as [A C]. rewrite C. now split.
Qed.
Lemma b_search k : @v_search_key F LDecoded k = true ->
  @v_search_key B LExact (@w_search_key F k) = true /\ @e_search_key B (@w_search_key F k) = @e_search_key F k.
Proof.
  unfold v_search_key. cbn [only_rt]. intros V. apply andb_true_iff in V as [V D].
  destruct (b_search_tree k V) as (A & C & E). now rewrite A, C, E, D.
Qed.
Lemma b_searches l : v1 (@v_search_key F LDecoded) l = true ->
  v1 (@v_search_key B LExact) (map (@w_search_key F) l) = true /\
  joinsp (@e_search_key B) (map (@w_search_key F) l) = joinsp (@e_search_key F) l.
Proof.
  intros V. split.
  - eapply v1_map; [| exact V]. intros x _ Hx. now apply b_search.
  - apply b_join. intros x Hx. unfold v1 in V. apply andb_true_iff in V as [_ V].
    rewrite forallb_forall in V. now apply b_search; auto.
Qed.
Lemma b_parameter p : @v_select_parameter F LDecoded p = true ->
  @v_select_parameter B LExact (@w_select_parameter F p) = true /\
  @e_select_parameter B (@w_select_parameter F p) = @e_select_parameter F p.
Proof.
  destruct p as [| v m k s]; cbn [w_select_parameter v_select_parameter e_select_parameter]; [now split |].
  intros V. vs. rewrite H, H2. destruct k as [k |], s as [[x y] |]; cbn [option_map vopt e_opt fst snd] in *; vs;
    unfold vpair in *; cbn [fst snd] in *; vs;
    repeat match goal with X : v_sequence_set LDecoded ?z = true |- _ =>
      let A := fresh "A" in let C := fresh "C" in destruct (b_set z X) as [A C]; clear X; rewrite ?A, ?C end; split; reflexivity.
Qed.
Lemma b_parameters ps : v_gated (@ext_condstore_qresync F) (@v_select_parameter F LDecoded) ps = true ->
  v_gated (@ext_condstore_qresync F) (@v_select_parameter B LExact) (map (@w_select_parameter F) ps) = true /\
  e_opt_list (@e_select_parameter B) (map (@w_select_parameter F) ps) = e_opt_list (@e_select_parameter F) ps.
Proof.
  unfold v_gated. intros V. apply andb_true_iff in V as [G V]. rewrite forallb_forall in V. split.
  - apply andb_true_iff. split; [now destruct ps |]. apply forallb_forall. intros y Hy.
    apply in_map_iff in Hy as (x & <- & Hx). now apply b_parameter; auto.
  - assert (E : joinsp (@e_select_parameter B) (map (@w_select_parameter F) ps) = joinsp (@e_select_parameter F) ps).
    { apply b_join. intros x Hx. now apply b_parameter; auto. }
    unfold e_opt_list. rewrite E. now destruct ps.
Qed.
Ltac sets := repeat match goal with
  | X : v_sequence_set LDecoded ?z = true |- _ =>
      let A := fresh "A" in let C := fresh "C" in destruct (b_set z X) as [A C]; clear X; rewrite ?A, ?C
  | X : v1 (v_search_key LDecoded) ?z = true |- _ =>
      let A := fresh "A" in let C := fresh "C" in destruct (b_searches z X) as [A C]; clear X; rewrite ?A, ?C
  | X : v_gated ext_condstore_qresync (v_select_parameter LDecoded) ?z = true |- _ =>
      let A := fresh "A" in let C := fresh "C" in destruct (b_parameters z X) as [A C]; clear X;
      change (@ext_condstore_qresync B) with (@ext_condstore_qresync F); rewrite ?A, ?C
  | X : v_id_params LDecoded ?z = true |- _ =>
      let A := fresh "A" in let C := fresh "C" in destruct (b_id z X) as [A C]; clear X; rewrite ?A, ?C
  end.
Lemma b_body c : @v_command_body F LDecoded c = true ->
  @v_command_body B LExact (@w_command_body F c) = true /\ @e_command_body B (@w_command_body F c) = @e_command_body F c.
Proof.
  destruct c; cbn [w_command_body]; intros V; try (split; [exact V | reflexivity]);
    cbn [v_command_body e_command_body] in *; vs; sets; change (@ext_id B) with (@ext_id F); (split; [| reflexivity]);
    repeat first [reflexivity | match goal with H : _ = true |- _ => exact H end | apply andb_true_iff; split].
Qed.
Lemma b_command c : @v_command F LDecoded c = true ->
  @v_command B LExact (@w_command F c) = true /\ @e_command B (@w_command F c) = @e_command F c.
Proof.
  unfold v_command, e_command, w_command. cbn [cmd_tag cmd_body]. intros V. vs.
  destruct (b_body _ H0) as [A C]. rewrite A, C, H. now split.
Qed.
Lemma b_code other c t : @v_code F LDecoded other c t = true ->
  @v_code B LExact other (@w_code F c) t = true /\ @e_code B (@w_code F c) = @e_code F c.
Proof.
  destruct c; cbn [w_code]; intros V; try (split; [exact V | reflexivity]).
  cbn [v_code e_code] in *. vs. change (@ext_condstore_qresync B) with (@ext_condstore_qresync F). sets. rewrite H. now split.
Qed.
Lemma b_code_text other c t : @v_code_text F LDecoded other c t = true ->
  @v_code_text B LExact other (option_map (@w_code F) c) t = true /\
  @e_code_text B (option_map (@w_code F) c) t = @e_code_text F c t.
Proof.
  unfold v_code_text, e_code_text. destruct c as [c |]; cbn [option_map]; [| now split].
  intros V. vs. destruct (b_code _ _ _ H0) as [A C]. cbn [e_opt]. rewrite A, C, H. now split.
Qed.
Lemma b_greeting other g : @v_greeting F LDecoded other g = true ->
  @v_greeting B LExact other (@w_greeting F g) = true /\ @e_greeting B (@w_greeting F g) = @e_greeting F g.
Proof.
  unfold v_greeting, e_greeting, w_greeting. cbn [gr_kind gr_code gr_text]. intros V.
  destruct (b_code_text _ _ _ V) as [A C]. rewrite A, C. now split.
Qed.
Lemma b_response other r : has_modseq r = false -> @v_response F LDecoded other r = true ->
  @v_response B LExact other (@w_response F r) = true /\ @e_response B (@w_response F r) = @e_response F r.
Proof.
  destruct r as [[c t | d] | d | [x | tg x | c t]]; intros M V.
  - cbn [w_response v_response v_continuation e_response e_continuation] in *.
    destruct c as [c |]; cbn [option_map]; [| now split].
    unfold e_code_text. cbn [v_continuation] in *. vs. destruct (b_code _ _ _ H0) as [A C]. cbn [e_opt]. rewrite A, C, H. now split.
  - now split.
  - destruct d; try (split; [exact V | reflexivity]).
    + split; [| reflexivity]. cbn [w_response v_response v_data] in *. vs. rewrite H. cbn [andb].
      unfold v1 in *. apply andb_true_iff in H0 as [Ne H0]. rewrite Ne. cbn [andb].
      rewrite forallb_forall in *. intros x Hx. specialize (H0 x Hx).
      apply (@w_item F) in H0; [exact H0 |]. cbn [has_modseq] in M.
      destruct (is_modseq x) eqn:E; [| reflexivity].
      assert (existsb is_modseq items = true) by (apply existsb_exists; eauto). congruence.
    + cbn [w_response v_response v_data e_response] in *. vs. unfold e_data. change (@ext_id B) with (@ext_id F). sets. rewrite H. now split.
    + cbn [w_response v_response v_data e_response] in *. vs. unfold e_data.
      change (@ext_condstore_qresync B) with (@ext_condstore_qresync F). sets. rewrite H. now split.
  - cbn [w_response v_response v_status e_response] in *. unfold v_status_body, e_status, w_status_body in *.
    cbn [sb_kind sb_code sb_text]. destruct (b_code_text _ _ _ V) as [A C]. rewrite A, C. now split.
  - cbn [w_response v_response v_status e_response] in *. unfold v_status_body, e_status, w_status_body in *.
    cbn [sb_kind sb_code sb_text]. vs. destruct (b_code_text _ _ _ H0) as [A C]. rewrite A, C, H. now split.
  - cbn [w_response v_response v_status e_response] in *. unfold e_status.
    destruct (b_code_text _ _ _ V) as [A C]. rewrite A, C. now split.
Qed.
End Base.

Lemma b_same F F' b : same_extensions F F' -> same_extensions (base F b) F'.
Proof. intros H. exact H. Qed.
Lemma b_more F F' b : same_extensions F F' -> (b = true -> @quirk_trailing_space_capability F' = true) -> more (base F b) F'.
Proof.
  intros (A1 & A2 & A3 & A4 & A5 & A6 & A7 & A8) Hb. unfold more, base. cbn. rewrite A1, A2, A3, A4, A5, A6, A7, A8.
  repeat split; try discriminate; auto.
Qed.
Lemma b_other_name F b : @other_name (base F b) = @other_name F.
Proof. reflexivity. Qed.
(** Fewer quirks make fewer codes known. *)
Lemma b_other_read F b x t : (b = true -> @quirk_trailing_space_capability F = true) ->
  @other_read F x t = true -> @other_read (base F b) x t = true.
Proof.
  intros Hb H. unfold other_read in *. apply andb_true_iff in H as [Hx H]. rewrite Hx. cbn [andb].
  destruct (@code_end F (x ++ bs "] " ++ t ++ [bCR])) as [| | | |] eqn:E; try discriminate H. clear H.
  assert (T : tail (bCR :: [bLF])) by (exists [], bCR, [bLF]; auto).
  assert (T' : tail [bCR]) by (exists [], bCR, []; auto).
  assert (K : @code_end (base F b) (x ++ bs "] " ++ t ++ [bCR]) = RErr); [| now rewrite K].
  rewrite !app_assoc in *. rewrite <- (app_assoc x) in *.
  apply (@code_end_same F _ _ _ T' T) in E; [| easy]. apply (@code_end_same (base F b) _ _ _ T T'); [easy |].
  change [bCR; bLF] with ([bCR; bLF] ++ []) in E |- *.
  destruct (@code_end_cases (base F b) (x ++ bs "] " ++ t) [bCR; bLF] []) as [G | (u & w & c & G & K)]; [now left | exact G |].
  exfalso. assert (M : more (base F b) F) by (apply b_more; [repeat split | exact Hb]).
  destruct (m_known_code _ _ M _ _ K) as (c' & K' & _). rewrite G, <- app_assoc in E.
  change (("]"%byte :: w) ++ ?y) with ("]"%byte :: (w ++ y)) in E. rewrite (@code_end_go F _ _ _ K') in E. discriminate E.
Qed.
