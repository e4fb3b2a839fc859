(** What clients send is documented: lemmas for each part of a command. *)

From Verif Require Import Bytes BytesFacts Dec Features Nom Types Utf8 Conv SeqSet SeqFacts Base64 Date EncodeCtx Encode EncodeFacts
  Valid ValidFacts ValueSpec ValueFacts RoundTripSpec AbnfSpec AbnfFacts SentSpec SentFacts.
Open Scope N_scope.
Open Scope abnf_scope.

Create HintDb sent discriminated.
#[global] Hint Constants Opaque : sent.
#[global] Hint Resolve l_atom l_atom' l_tag l_text l_num l_num64 l_nz l_nz64 l_valzer l_quoted l_literal l_literal8
  l_istring l_nstring l_astring l_charset l_nstring8 l_quoted_char l_b64 l_joinsp1 l_joinsp0 l_flat_sp l_joinsp : sent.

Section Extra.
Context {F : features} (z : list op).
Lemma s_sp l o : Sents z l o -> Sents z (SP :: l) (B bSP :: o).
Proof. intros H. unfold SP. apply s_str1; [reflexivity |]. now apply s_str0. Qed.
Lemma s_dq l o : Sents z l o -> Sents z (DQUOTE :: l) (B bDQ :: o).
Proof. intros H. unfold DQUOTE. apply s_str1; [reflexivity |]. now apply s_str0. Qed.
End Extra.

Ltac norm := repeat (progress (cbn [app W map bs spc paren e_opt e_uid fst snd]; rewrite <- ?app_assoc));
  repeat match goal with |- context [map B ?s] => change (map B s) with (W s) end.
Ltac sleaf := eauto 5 with nocore sent.
Ltac go :=
  lazymatch goal with
  | |- Sents _ [] [] => apply s_end
  | |- Sents _ [Ref CRLF] [] => apply s_crlf
  | |- Sents _ (?a :: _) ?T =>
    tryif (lazymatch T with _ ++ _ => apply s_leaf; [solve [sleaf] |] end) then go else
    lazymatch a with
    | Str [] => apply s_str0; go
    | Str (_ :: _) => lazymatch T with B _ :: _ => apply s_str1; [reflexivity |]; go end
    | SP => lazymatch T with B _ :: _ => apply s_sp; go end
    | DQUOTE => lazymatch T with B _ :: _ => apply s_dq; go end
    | opt _ => first [apply s_opt; go | apply s_none; go]
    | some (SP ^ _) => apply s_some; [solve [sleaf] |]; go
    | Or _ _ => first [apply s_or_l; go | apply s_or_r; go]
    | Cat _ _ => apply s_cat; go
    | Ref _ => apply s_ref; cbn [rules]; go
    | Feature _ _ => apply s_feature; [first [assumption | reflexivity] |]; go
    | Limit _ _ => apply s_limit; go
    | deeper _ _ => apply s_deeper; intros ?; cbv beta; go
    end
  end.
Ltac conj := repeat match goal with
  | H : (_ && _)%bool = true |- _ => apply andb_prop in H; destruct H
  | H : vpair _ _ _ = true |- _ => unfold vpair in H; cbn [fst snd] in H
  end.
Ltac sent := apply s_enter; norm; go.

Section Cmd.
Context {F : features}.
Local Notation D := (derives false false).

(** ** Sequence sets *)
Lemma norm_seq q : v_sequence q = true -> v_sequence (sequence_normalize q) = true.
Proof. destruct q as [a | a b]; [trivial |]. cbn. destruct (seq_or_uid_cmp a b); cbn; intros H; conj; auto; now apply andb_true_intro. Qed.
Lemma l_seq_number a : v_seq_or_uid a = true -> Sent SeqNumber (e_seq_or_uid a).
Proof. intros V. destruct a; cbn [v_seq_or_uid e_seq_or_uid] in *; sent. Qed.
Hint Resolve l_seq_number : sent.
Lemma l_sequence q : v_sequence q = true -> Sent (SeqNumber / SeqRange) (e_sequence q).
Proof.
  intros V. unfold e_sequence. destruct quirk_always_normalize_sequence_sets; [apply norm_seq in V |].
  all: [> destruct (sequence_normalize q) as [a | a b] | destruct q as [a | a b]]; cbn [v_sequence] in V; conj; sent.
Qed.
Lemma set_elements lv s : v_sequence_set lv s = true -> Forall (fun q => v_sequence q = true) (w_set s) /\ w_set s <> [].
Proof.
  intros V. unfold v_sequence_set, v1 in V. conj. assert (X : vset s) by (apply Forall_forall; now apply forallb_forall).
  assert (N : s <> []) by now apply nonempty_ne. unfold w_set. destruct quirk_always_normalize_sequence_sets; [| split; assumption].
  split; [now apply normalize_valid | now apply normalize_nonempty].
Qed.
Lemma l_set lv s : v_sequence_set lv s = true -> Sent SequenceSet (e_sequence_set s).
Proof.
  intros V K. apply set_elements in V as [V N]. apply d_ref. cbn [rules]. apply (l_join _ (bs ",")); [reflexivity | | assumption | assumption].
  revert V. apply Forall_impl. apply l_sequence.
Qed.
Hint Resolve l_set : sent.

Lemma digits_star n : ~ In "*"%byte (dec n).
Proof. intros I. pose proof (dec_digits n) as H. rewrite forallb_forall in H. now apply H in I. Qed.
Definition star_free (q : sequence) : Prop :=
  match q with SSingle a => a <> SAsterisk | SRange a b => a <> SAsterisk /\ b <> SAsterisk end.
Lemma star_number a : a <> SAsterisk -> ~ In "*"%byte (dump (e_seq_or_uid a)).
Proof. destruct a; [| easy]. intros _. cbn [e_seq_or_uid]. unfold e_num. rewrite dump_W. apply digits_star. Qed.
Lemma star_sequence q : star_free q -> ~ In "*"%byte (dump (e_sequence q)).
Proof.
  intros H. unfold e_sequence. set (q' := if quirk_always_normalize_sequence_sets then sequence_normalize q else q). assert (S : star_free q').
  { unfold q'. destruct quirk_always_normalize_sequence_sets; [| assumption]. destruct q as [a | a b]; [assumption |]. cbn [sequence_normalize].
    destruct (seq_or_uid_cmp a b); cbn [star_free] in *; tauto. }
  clearbody q'. destruct q' as [a | a b]; [now apply star_number |]. rewrite !dump_app, dump_W, !in_app_iff. destruct S as [A B'].
  apply star_number in A, B'. intros [I | [[I | []] | I]]; [tauto | discriminate | tauto].
Qed.
Lemma star_join l : Forall star_free l -> ~ In "*"%byte (dump (join (W (bs ",")) e_sequence l)).
Proof.
  induction 1 as [| q l Q Hl IH]; [easy |]. cbn [join]. apply star_sequence in Q. destruct l as [| y l]; [assumption |].
  change (match l with [] => e_sequence y | _ :: _ => _ end) with (join (W (bs ",")) e_sequence (y :: l)).
  rewrite !dump_app, dump_W, !in_app_iff. intros [I | [[I | []] | I]]; [tauto | discriminate | tauto].
Qed.
Lemma D_no_star s : no_star s -> no_asterisk (dump (e_sequence_set s)).
Proof. apply star_join. Qed.
Lemma l_known lv r s : rules r = (Where no_asterisk SequenceSet / Extra SequenceSet) -> v_sequence_set lv s = true -> no_star s ->
  Sent r (e_sequence_set s).
Proof.
  intros E V N K. apply d_ref. rewrite E. apply d_or_l, d_where; [now apply (l_set lv) | now apply D_no_star].
Qed.
Lemma l_known_uids lv s : v_sequence_set lv s = true -> no_star s -> Sent KnownUids (e_sequence_set s).
Proof. now apply l_known. Qed.
Lemma l_known_set lv s : v_sequence_set lv s = true -> no_star s -> Sent KnownSequenceSet (e_sequence_set s).
Proof. now apply l_known. Qed.
Lemma l_known_uid_set lv s : v_sequence_set lv s = true -> no_star s -> Sent KnownUidSet (e_sequence_set s).
Proof. now apply l_known. Qed.
Hint Resolve l_known_uids l_known_set l_known_uid_set : sent.

(** ** Mailboxes, flags, names *)
Lemma l_mailbox lv m : v_mailbox lv m = true -> Sent Mailbox (e_mailbox m).
Proof. intros V. destruct m; cbn [v_mailbox e_mailbox] in *; conj; sent. Qed.
Lemma l_list_mailbox lv m : v_list_mailbox lv m = true -> Sent ListMailbox (e_list_mailbox m).
Proof.
  intros V K. apply d_ref. cbn [rules]. destruct m as [s | s]; cbn [v_list_mailbox e_list_mailbox] in *.
  - apply d_or_l. unfold e_bytes. rewrite dump_W. apply D_some. now apply list_char_string_ok_spec.
  - apply d_or_r. now apply (l_istring lv).
Qed.
Lemma l_flag f : v_flag f = true -> Sent Flag (e_flag f).
Proof. intros V. destruct f; cbn [v_flag] in V; conj; unfold e_flag; cbn [flag_str]; sent. Qed.
Lemma l_status_name n : v_status_name n = true -> Sent StatusAtt (e_status_name n).
Proof. intros V. destruct n; cbn [v_status_name e_status_name] in *; sent. Qed.
Hint Resolve l_mailbox l_list_mailbox l_flag l_status_name : sent.

Lemma l_auth lv m : v_auth_mechanism lv m = true -> Sent Atom (W (auth_mechanism_str m)).
Proof.
  intros V. apply l_atom. destruct m; try reflexivity. cbn [v_auth_mechanism] in V. now conj.
Qed.
Lemma l_attr f : v_attribute_flag f = true -> Sent AttrFlag (W (attribute_flag_str f)).
Proof. intros V. destruct f; cbn [v_attribute_flag attribute_flag_str] in *; conj; sent. Qed.
Lemma l_entry_type t : Sent EntryTypeReq (W (entry_type_req_str t)).
Proof. destruct t; cbn [entry_type_req_str]; sent. Qed.
Lemma l_resource r : v_resource r = true -> Sent ResourceName (e_resource r).
Proof. intros V. destruct r; unfold e_resource; cbn [v_resource resource_str] in *; conj; sent. Qed.
Lemma l_thread_alg a : v_threading_algorithm a = true -> Sent ThreadAlg (e_threading_algorithm a).
Proof. intros V. destruct a; unfold e_threading_algorithm; cbn [v_threading_algorithm threading_algorithm_str] in *; conj; sent. Qed.
Lemma l_sort_criterion c : Sent SortCriterion (e_sort_criterion c).
Proof. destruct c as [[] []]; unfold e_sort_criterion; cbn [so_reverse so_key sort_key_str]; sent. Qed.
Lemma l_enable c : v_capability_enable c = true -> Sent Capability (e_capability_enable c).
Proof.
  intros V K. apply d_ref. cbn [rules]. apply d_or_r. revert K. unfold e_capability_enable. apply l_atom.
  destruct c as [| | | [] |]; try reflexivity. cbn [v_capability_enable] in V. now conj.
Qed.
Hint Resolve l_auth l_attr l_entry_type l_resource l_thread_alg l_sort_criterion l_enable : sent.

(** ** Dates *)
Lemma W_app a b : W (a ++ b) = W a ++ W b.
Proof. apply map_app. Qed.
Lemma D_digit n : D DIGIT [digit (n mod 10)].
Proof.
  apply d_chr. unfold is_DIGIT, digit. pose proof (N.mod_lt n 10 ltac:(lia)). rewrite bN_byte_of by lia. generalize dependent (n mod 10). intros m H. lia.
Qed.
Lemma D_dec2 n : D (times 2 DIGIT) (dec2 n).
Proof. unfold dec2. change [?a; ?b] with ([a] ++ [b] ++ []). cbn [times]. repeat apply d_cat; try apply D_digit. constructor. Qed.
Lemma D_dec4 n : D (times 4 DIGIT) (dec4 n).
Proof. unfold dec4. change [?a; ?b; ?c; ?d] with ([a] ++ [b] ++ [c] ++ [d] ++ []). cbn [times]. repeat apply d_cat; try apply D_digit. constructor. Qed.
Lemma l_month m : Sent DateMonth (W (month_str m)).
Proof.
  unfold month_str.
  destruct m as [| p]; [sent |]. do 5 (try destruct p as [p | p |]); sent.
Qed.
Lemma l_dec2 n : Sent (times 2 DIGIT) (W (dec2 n)).
Proof. intros _. rewrite dump_W. apply D_dec2. Qed.
Lemma l_day n : Sent DateDay (W (dec2 n)).
Proof.
  intros _. rewrite dump_W. apply d_ref. cbn [rules]. apply d_or_r.
  unfold dec2. change [?a; ?b] with ([a] ++ [b]). apply d_cat; apply D_digit.
Qed.
Lemma l_day_fixed n : Sent DateDayFixed (W (dec2 n)).
Proof.
  intros _. rewrite dump_W. apply d_ref. cbn [rules]. apply d_or_r. apply D_dec2.
Qed.
Lemma l_year n : Sent DateYear (W (dec4 n)).
Proof. intros _. rewrite dump_W. apply d_ref. cbn [rules]. apply D_dec4. Qed.
Lemma l_zone_digits a b : Sent (times 4 DIGIT) (W (dec2 a) ++ W (dec2 b)).
Proof.
  intros _. rewrite dump_app. rewrite !dump_W. 
  unfold dec2. cbn [app]. change [?a; ?b; ?c; ?d] with ([a] ++ [b] ++ [c] ++ [d] ++ []). cbn [times].
  repeat apply d_cat; try apply D_digit. constructor.
Qed.
Hint Resolve l_month l_dec2 l_day l_day_fixed l_year : sent.
Lemma l_date d : Sent Date (e_date d).
Proof. unfold e_date, format_date. rewrite !W_app. sent. Qed.
Lemma l_zone o : Sent Zone (W (format_zone o)).
Proof.
  unfold format_zone. destruct (Z.ltb o 0); rewrite !W_app; apply s_enter; norm; apply s_ref; cbn [rules]; apply s_cat;
    [apply s_or_r | apply s_or_l]; (apply s_str1; [reflexivity |]); apply s_str0; rewrite app_assoc; (apply s_leaf; [apply l_zone_digits | apply s_end]).
Qed.
Hint Resolve l_zone : sent.
Lemma l_date_time t : Sent DateTime (e_date_time t).
Proof. unfold e_date_time, format_date_time, format_date. rewrite !W_app. sent. Qed.
Hint Resolve l_date l_date_time : sent.

(** ** Search keys *)
Lemma l_key lv k : v_search_tree lv k = true -> forall n, Sent (SearchKey n) (e_search_key k).
Proof.
  induction k as [l IH | k IH | a b IHa IHb | k L] using key_ind'; intros V n.
  - cbn [v_search_tree] in V. conj. assert (X : forall m, Sent (SearchKey m ^ Many (SP ^ SearchKey m)) (join spc e_search_key l)).
    { intros m. apply l_joinsp; [| now apply nonempty_ne]. rewrite forallb_forall in H0. rewrite Forall_forall in *.
      intros k I. apply IH; auto. }
    cbn [e_search_key]. unfold paren. apply s_enter. norm. go.
  - cbn [v_search_tree e_search_key] in *. specialize (IH V). sent.
  - cbn [v_search_tree e_search_key] in *. conj. specialize (IHa H). specialize (IHb H0). sent.
  - destruct k; try contradiction;
      try match goal with o : option (attribute_flag * entry_type_req) |- _ => destruct o as [[? ?] |] end;
      cbn [v_search_tree e_search_key vopt fst snd] in *; unfold vpair in *; cbn [fst snd] in *; conj; rewrite ?W_app; sent.
Qed.
Lemma l_search_key lv k n : v_search_key lv k = true -> Sent (SearchKey n) (e_search_key k).
Proof. intros H. unfold v_search_key in H. conj. now apply (l_key lv). Qed.
Hint Resolve l_search_key : sent.

(** ** FETCH *)
Lemma l_part p : v_part p = true -> Sent SectionPart (e_part p).
Proof.
  intros V K. apply d_ref. cbn [rules]. unfold v_part, v1 in V. conj. apply (l_join _ (bs ".")); [reflexivity | | now apply nonempty_ne | assumption].
  apply (forallb_Sent v_nz32); [assumption |]. apply l_nz.
Qed.
Lemma l_part0 p : forallb v_nz32 p = true -> Sent (opt SectionPart) (e_part p).
Proof.
  intros V. destruct p as [| x p]; [intros _; apply d_or_l, d_eps |]. intros K. apply d_or_r. now apply l_part.
Qed.
Hint Resolve l_part l_part0 : sent.
Lemma l_field lv s : v_astring lv s = true -> Sent HeaderFldName (e_astring s).
Proof. intros V. sent. Qed.
Hint Resolve l_field : sent.
Lemma l_section lv s : v_section lv s = true -> Sent SectionSpec (e_section s).
Proof.
  intros V. destruct s as [p | [p |] | [p |] l | [p |] l | [p |] | p]; cbn [v_section vopt] in V; conj; cbn [e_section e_part_dot]; sent.
Qed.
Hint Resolve l_section : sent.
Lemma l_partial p : v_partial p = true -> Sent ("<" ^ Number ^ "." ^ NzNumber ^ ">") (e_partial p).
Proof. intros V. unfold v_partial, vpair in V. conj. unfold e_partial. sent. Qed.
Lemma l_partial' p : v_partial p = true -> Sent Partial (e_partial p).
Proof. intros V K. apply d_ref. cbn [rules]. now apply l_partial. Qed.
Hint Resolve l_partial l_partial' : sent.
Lemma l_item_name lv i : v_item_name lv i = true -> Sent FetchAtt (e_item_name i).
Proof.
  intros V. destruct i as [| [s |] [p |] [] | | | | | | | | | | s [p |] [] | |]; cbn [v_item_name vopt] in V; conj; cbn [e_item_name]; sent.
Qed.
Hint Resolve l_item_name : sent.
Lemma l_fetch_modifier m : v_fetch_modifier m = true -> Sent FetchModifier (e_fetch_modifier m).
Proof. intros V. destruct m; cbn [v_fetch_modifier e_fetch_modifier] in *; sent. Qed.
Lemma l_store_modifier m : v_store_modifier m = true -> Sent StoreModifier (e_store_modifier m).
Proof. intros V. destruct m; cbn [v_store_modifier e_store_modifier] in *; sent. Qed.
Hint Resolve l_fetch_modifier l_store_modifier : sent.

(** ** Extensions *)
Lemma l_select_parameter lv p : v_select_parameter lv p = true -> doc_select_parameter p -> Sent SelectParam (e_select_parameter p).
Proof.
  intros V S. destruct p as [| v m [k |] [[a b] |]]; cbn [v_select_parameter vopt vpair fst snd doc_select_parameter] in *; conj;
    cbn [e_select_parameter fst snd]; [sent | destruct S as [S1 S2]; try specialize (S1 _ eq_refl); try destruct (S2 _ _ eq_refl); sent ..].
Qed.
Lemma l_quota_set q : v_quota_set q = true -> in63 (qs_limit q) -> Sent SetquotaResource (e_quota_set q).
Proof. intros V S. unfold v_quota_set in V. conj. unfold e_quota_set. sent. Qed.
Lemma l_entry_value lv e : v_entry_value lv e = true -> Sent EntryValue (e_entry_value e).
Proof. intros V. unfold v_entry_value in V. conj. unfold e_entry_value. sent. Qed.
Lemma l_metadata_option o : v_get_metadata_option o = true -> Sent GetmetadataOption (e_get_metadata_option o).
Proof. intros V. destruct o as [n | []]; cbn [v_get_metadata_option e_get_metadata_option e_depth] in *; sent. Qed.
Lemma l_id_param lv p : vpair (v_istring lv) (v_nstring lv) p = true -> Sent IdParam (e_pair e_istring e_nstring p).
Proof. intros V. unfold vpair in V. conj. unfold e_pair. sent. Qed.
Hint Resolve l_entry_value l_metadata_option l_id_param : sent.
Lemma l_id_params lv p : v_id_params lv p = true -> Sent IdParamsList (e_id_params p).
Proof.
  intros V. destruct p as [[| x l] |]; cbn [v_id_params e_id_params] in *.
  - destruct quirk_id_empty_to_nil; sent.
  - sent.
  - sent.
Qed.
Hint Resolve l_id_params : sent.

(** ** Commands *)
Lemma l_gated {A} r (v : A -> bool) a (e : A -> list op) l :
  rules r = Feature ext_condstore_qresync (SP ^ "(" ^ (a ^ Many (SP ^ a)) ^ ")") -> v_gated ext_condstore_qresync v l = true ->
  Forall (fun x => v x = true -> Sent a (e x)) l -> Sent (opt r) (e_opt_list e l).
Proof.
  intros E V S. unfold v_gated in V. conj. destruct l as [| x l]; [intros _; apply d_or_l, d_eps |].
  cbn [nonempty negb] in H. rewrite Bool.orb_false_r in H.
  assert (X : Sent (a ^ Many (SP ^ a)) (joinsp e (x :: l))).
  { apply l_joinsp; [| easy]. rewrite forallb_forall in H0. rewrite Forall_forall in *. auto. }
  cbn [e_opt_list]. apply s_enter. norm. apply s_opt, s_ref. rewrite E. go.
Qed.
Lemma l_selected lv l : v_gated ext_condstore_qresync (v_select_parameter lv) l = true -> Forall doc_select_parameter l ->
  Sent (opt SelectParams) (e_opt_list e_select_parameter l).
Proof.
  intros V S. apply (l_gated SelectParams (v_select_parameter lv) SelectParam); [reflexivity | assumption |]. revert S. apply Forall_impl.
  intros p S V'. now apply (l_select_parameter lv).
Qed.
Lemma l_fetch_modifiers l : v_gated ext_condstore_qresync v_fetch_modifier l = true -> Sent (opt FetchModifiers) (e_opt_list e_fetch_modifier l).
Proof.
  intros V. apply (l_gated FetchModifiers v_fetch_modifier FetchModifier); [reflexivity | assumption |]. apply Forall_forall.
  intros p _. apply l_fetch_modifier.
Qed.
Lemma l_lit_or_lit8 lv l : v_lit_or_lit8 lv l = true -> Sent (Literal / Literal8) (e_lit_or_lit8 l).
Proof. intros V. destruct l; cbn [v_lit_or_lit8 e_lit_or_lit8] in *; sent. Qed.
Lemma l_items lv l : forallb (v_item_name lv) l = true -> l <> [] -> Sent (FetchAtt ^ Many (SP ^ FetchAtt)) (joinsp e_item_name l).
Proof. intros V N. apply l_joinsp; [| assumption]. apply (forallb_Sent (v_item_name lv)); [assumption |]. apply l_item_name. Qed.
Lemma l_status_names l : forallb v_status_name l = true -> l <> [] -> Sent (StatusAtt ^ Many (SP ^ StatusAtt)) (joinsp e_status_name l).
Proof. intros V N. apply l_joinsp; [| assumption]. apply (forallb_Sent v_status_name); [assumption |]. apply l_status_name. Qed.
Lemma l_sort_criteria l : nonempty l = true -> Sent (SortCriterion ^ Many (SP ^ SortCriterion)) (joinsp e_sort_criterion l).
Proof. intros N. apply l_joinsp; [| now apply nonempty_ne]. apply Forall_forall. intros. apply l_sort_criterion. Qed.
Lemma l_quota_sets l : forallb v_quota_set l = true -> Forall (fun q => in63 (qs_limit q)) l ->
  Sent (opt (SetquotaResource ^ Many (SP ^ SetquotaResource))) (joinsp e_quota_set l).
Proof.
  intros V S. destruct l as [| q l]; [intros _; apply d_or_l, d_eps |]. intros K. apply d_or_r. revert K. apply l_joinsp; [| easy].
  rewrite forallb_forall in V. rewrite Forall_forall in *. intros x I. apply l_quota_set; auto.
Qed.
Lemma l_entry lv s : v_astring lv s = true -> Sent Entry (e_astring s).
Proof. intros V. sent. Qed.
Lemma l_macro m : Sent ("ALL" / "FULL" / "FAST") (e_macro m).
Proof. destruct m; unfold e_macro; cbn [macro_str]; sent. Qed.
Hint Resolve l_selected l_fetch_modifiers l_lit_or_lit8 l_items l_status_names l_sort_criteria l_quota_sets l_entry : sent.

Lemma l_append_flags l : forallb v_flag l = true -> Sent (opt (SP ^ FlagList)) (e_opt_list e_flag l).
Proof. intros V. destruct l as [| x l]; [intros _; apply d_or_l, d_eps |]. cbn [e_opt_list]. sent. Qed.
Lemma l_metadata_options l : forallb v_get_metadata_option l = true ->
  Sent (opt (SP ^ GetmetadataOptions)) (e_opt_list e_get_metadata_option l).
Proof.
  intros V. destruct l as [| x l]; [intros _; apply d_or_l, d_eps |]. cbn [e_opt_list].
  assert (X : v1 v_get_metadata_option (x :: l) = true) by exact V. sent.
Qed.
Lemma l_entries lv l : v1 (v_astring lv) l = true -> Sent Entries (match l with [x] => e_astring x | _ => paren (joinsp e_astring l) end).
Proof.
  intros V. destruct l as [| x [| y l]]; [discriminate | | sent].
  unfold v1 in V. cbn [forallb] in V. conj. sent.
Qed.
Lemma l_macro_or_items lv m : v_macro_or_items lv m = true -> match m with MIItems l => l <> [] | _ => True end ->
  Sent ("ALL" / "FULL" / "FAST" / FetchAtt / "(" ^ (FetchAtt ^ Many (SP ^ FetchAtt)) ^ ")" / Extra ("(" ^ ")")) (e_macro_or_items m).
Proof.
  intros V S. destruct m as [[] | l]; cbn [v_macro_or_items] in V; [unfold e_macro_or_items, e_macro; cbn [macro_str]; sent .. |].
  assert (X := l_items lv l V S). destruct l as [| x [| y l]]; [easy | | cbn [e_macro_or_items]; sent].
  cbn [forallb] in V. conj. cbn [e_macro_or_items]. sent.
Qed.
Hint Resolve l_append_flags l_metadata_options l_entries l_macro_or_items : sent.

Ltac parts := repeat match goal with
  | o : option _ |- _ => destruct o
  | b : bool |- _ => destruct b
  | H : context [vopt _ _] |- _ => progress cbn [vopt] in H
  end; conj.
Lemma l_body lv c : v_command_body lv (cmd_body c) = true -> doc_command c ->
  Sent (CommandAny / CommandAuth / CommandNonauth / CommandSelect) (e_command_body (cmd_body c)).
Proof.
  unfold doc_command. destruct (cmd_body c); intros V S; cbn [v_command_body] in V; cbn [e_command_body]; parts; try solve [sent].
  1: destruct b; sent.
  3: destruct a; unfold e_compression; cbn [compression_str]; sent.
  all: unfold v_gated in *; conj; destruct mods as [| x mods]; [destruct kind, resp; sent |]; cbn [nonempty negb] in *;
    rewrite Bool.orb_false_r in *; assert (X : v1 v_store_modifier (x :: mods) = true) by assumption; destruct kind, resp; sent.
Qed.

Lemma l_command lv c : v_command lv c = true -> doc_command c -> regular (fragments (e_command c)) -> D Command (dump (e_command c)).
Proof.
  intros V S R. unfold v_command in V. conj. unfold e_command in *. rewrite !app_assoc in *. apply s_message; [| assumption].
  pose proof (l_body lv c H0 S) as X. rewrite <- !app_assoc. norm. apply s_ref. cbn [rules]. go.
Qed.
Lemma l_authenticate_data a : regular (fragments (e_authenticate_data a)) -> D AuthenticateData (dump (e_authenticate_data a)).
Proof.
  intros R. destruct a; cbn [e_authenticate_data] in *; (apply s_message; [| assumption]); norm; apply s_ref; cbn [rules]; go.
Qed.
Lemma l_idle_done : D IdleDone (dump e_idle_done).
Proof.
  unfold e_idle_done. apply s_message; [norm; apply s_ref; cbn [rules]; go |]. repeat constructor. exists (bs "DONE"). split; [reflexivity |].
  repeat constructor; discriminate.
Qed.
End Cmd.
#[global] Hint Resolve
  l_seq_number l_set l_known_uids l_known_set l_known_uid_set l_mailbox l_list_mailbox l_flag l_status_name l_auth l_attr
  l_entry_type l_resource l_thread_alg l_sort_criterion l_enable l_month l_dec2 l_day l_day_fixed l_year l_zone l_date
  l_date_time l_search_key l_part l_part0 l_field l_section l_partial l_partial' l_item_name l_fetch_modifier
  l_store_modifier l_entry_value l_metadata_option l_id_param l_id_params l_selected l_fetch_modifiers l_lit_or_lit8 l_items
  l_status_names l_sort_criteria l_quota_sets l_entry l_append_flags l_metadata_options l_entries l_macro_or_items : sent.
