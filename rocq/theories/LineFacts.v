(** The lines of an encoding: where LF and "{" may occur outside of literals.

    [fine l]: every "{" that the operations [l] write outside of a literal header is followed by
    a literal or by a byte that cannot be part of an announcement; no LF is written outside of
    literals (without [ext_utf8]); literals are short enough to be announced. *)

From Verif Require Import Bytes BytesFacts Dec Features Nom Types Utf8 Conv SeqSet Base64 Date
  ParseCore ParseResp EncodeCtx Encode EncodeFacts Valid ValidFacts QuotedFacts RtFacts RtTac RtCore RtResp OtherCode.
Open Scope nat_scope.

(** A byte that may follow the "{" of an announcement *)
Definition ann_char (b : byte) : bool := is_digit b || beq b "+"%byte || beq b "}"%byte.
Definition stops (o : op) : bool := match o with B b => negb (ann_char b) | Lit _ _ _ => true end.
Definition is_brace (o : op) : bool := match o with B b => beq b "{"%byte | Lit _ _ _ => false end.
Fixpoint braces (l : list op) : bool :=
  match l with
  | [] => true
  | o :: l' => (negb (is_brace o) || existsb stops l') && braces l'
  end.
Definition no_lf (o : op) : bool := match o with B b => negb (beq b bLF) | Lit _ _ _ => true end.
Definition plain (b : byte) : bool := negb (beq b bLF) && negb (beq b "{"%byte).

Lemma braces_app a b : braces a = true -> braces b = true -> braces (a ++ b) = true.
Proof.
  induction a as [| o a IH]; [easy |]. cbn. intros Ha Hb. apply andb_true_iff in Ha as [H1 H2].
  rewrite (IH H2 Hb), existsb_app, andb_true_r.
  apply orb_true_iff in H1 as [-> | ->]; now rewrite ?orb_true_r.
Qed.
Lemma braces_stop a b : stops b = true -> is_brace b = false -> braces (a ++ [b]) = true.
Proof.
  intros S K. induction a as [| o a IH]; cbn; [now rewrite K |].
  rewrite IH, existsb_app. cbn. now rewrite S, !orb_true_r.
Qed.
Lemma braces_plain l : forallb (fun o => negb (is_brace o)) l = true -> braces l = true.
Proof.
  induction l as [| o l IH]; [easy |]. cbn. intros H. apply andb_true_iff in H as [-> H]. now rewrite IH.
Qed.

Section Fine.
Context {F : features}.
Variable lv : level.

Definition short_lit (o : op) : bool :=
  match o with B _ => true | Lit _ _ d => only_rt lv (N.leb (lenN d) u32_max) end.
Definition fine (l : list op) : Prop :=
  braces l = true /\ (ext_utf8 = false -> forallb no_lf l = true) /\ forallb short_lit l = true.

Lemma fine_nil : fine [].
Proof. repeat split. Qed.
Lemma fine_app a b : fine a -> fine b -> fine (a ++ b).
Proof.
  intros (A1 & A2 & A3) (B1 & B2 & B3). split; [now apply braces_app |].
  split; [intros U; rewrite forallb_app, A2, B2 by exact U; reflexivity | now rewrite forallb_app, A3, B3].
Qed.
Lemma short_W s : forallb short_lit (W s) = true.
Proof. induction s; [reflexivity | exact IHs]. Qed.
Lemma fine_W s : forallb plain s = true -> fine (W s).
Proof.
  intros H. split; [| split; [intros _ | apply short_W]].
  - apply braces_plain. unfold W. rewrite forallb_forall in *. intros o Ho.
    apply in_map_iff in Ho as (b & <- & Hb). specialize (H b Hb). now apply andb_true_iff in H as [_ H].
  - unfold W. rewrite forallb_forall in *. intros o Ho.
    apply in_map_iff in Ho as (b & <- & Hb). specialize (H b Hb). now apply andb_true_iff in H as [H _].
Qed.
Lemma fine_const l : forallb (fun o => match o with B b => plain b | _ => false end) l = true -> fine l.
Proof.
  intros H. assert (K : exists s, l = W s /\ forallb plain s = true).
  { induction l as [| [b |] l IH]; [now exists [] | | discriminate]. cbn in H. apply andb_true_iff in H as [H1 H2].
    destruct (IH H2) as (s & -> & K). exists (b :: s). cbn. now rewrite H1. }
  destruct K as (s & -> & K). now apply fine_W.
Qed.
Lemma fine_cons b l : plain b = true -> fine l -> fine (B b :: l).
Proof. intros H K. apply (fine_app (W [b])); [| exact K]. apply fine_W. cbn. now rewrite H. Qed.
Lemma fine_paren l : fine l -> fine (paren l).
Proof. intros H. unfold paren. apply fine_cons; [reflexivity |]. apply fine_app; [exact H |]. now apply (fine_W [")"%byte]). Qed.
Lemma fine_spc : fine spc.
Proof. now apply (fine_W [bSP]). Qed.
Lemma fine_join {A} sep (e : A -> list op) l : fine sep -> (forall x, In x l -> fine (e x)) -> fine (join sep e l).
Proof.
  intros Hs He. induction l as [| x l IH]; [apply fine_nil |].
  destruct l as [| y l]; [apply He; now left |].
  change (join sep e (x :: y :: l)) with (e x ++ sep ++ join sep e (y :: l)).
  apply fine_app; [apply He; now left |]. apply fine_app; [exact Hs |]. apply IH. intros z Hz. apply He. now right.
Qed.
Lemma fine_flat {A} (e : A -> list op) l : (forall x, In x l -> fine (e x)) -> fine (flat_map e l).
Proof.
  intros He. induction l as [| x l IH]; [apply fine_nil |]. cbn. apply fine_app; [apply He; now left |].
  apply IH. intros z Hz. apply He. now right.
Qed.
(** Between quotes anything but LF *)
Lemma fine_closed s b : (ext_utf8 = false -> forallb (fun b => negb (beq b bLF)) s = true) ->
  ann_char b = false -> plain b = true -> fine (W s ++ [B b]).
Proof.
  intros H S K. apply andb_true_iff in K as [K1 K2]. split; [| split].
  - apply braces_stop; cbn; [now rewrite S | now apply negb_true_iff in K2].
  - intros U. specialize (H U). rewrite forallb_app. cbn. rewrite K1, !andb_true_r. unfold W.
    rewrite forallb_forall in *. intros o Ho. apply in_map_iff in Ho as (x & <- & Hx). now apply H.
  - rewrite forallb_app, short_W. reflexivity.
Qed.

(** *** Character classes *)
Lemma forallb_plain (g : byte -> bool) s :
  forallb (fun b => implb (g b) (plain b)) all_bytes = true -> forallb g s = true -> forallb plain s = true.
Proof.
  intros H. apply forallb_impl. intros b Hb.
  pose proof (byte_forall _ H b) as K. cbn beta in K. rewrite Hb in K. exact K.
Qed.
Lemma plain_atom s : atom_ok s = true -> forallb plain s = true.
Proof. destruct s; [discriminate |]. now apply forallb_plain. Qed.
Lemma plain_atom_ext s : atom_ext_ok s = true -> forallb plain s = true.
Proof. destruct s; [discriminate |]. now apply forallb_plain. Qed.
Lemma plain_tag s : tag_ok s = true -> forallb plain s = true.
Proof. destruct s; [discriminate |]. now apply forallb_plain. Qed.
Lemma plain_list s : list_char_string_ok s = true -> forallb plain s = true.
Proof. destruct s; [discriminate |]. now apply forallb_plain. Qed.
Lemma plain_dec n : forallb plain (dec n) = true.
Proof. apply (forallb_plain is_digit); [reflexivity | apply dec_digits]. Qed.
Lemma plain_digit n : (n < 10)%N -> plain (digit n) = true.
Proof.
  intros H. assert (K : In n (map N.of_nat (seq 0 10))).
  { apply in_map_iff. exists (N.to_nat n). split; [lia |]. apply in_seq. lia. }
  cbn in K. repeat destruct K as [<- | K]; try reflexivity. contradiction.
Qed.
Lemma plain_dec2 n : forallb plain (dec2 n) = true.
Proof. cbn. now rewrite !plain_digit by now apply N.mod_lt. Qed.
Lemma plain_dec4 n : forallb plain (dec4 n) = true.
Proof. cbn. now rewrite !plain_digit by now apply N.mod_lt. Qed.
Lemma plain_month m : forallb plain (month_str m) = true.
Proof.
  unfold month_str. repeat match goal with |- context[match ?x with _ => _ end] => destruct x end; reflexivity.
Qed.
Lemma plain_date d : forallb plain (format_date d) = true.
Proof. unfold format_date. now rewrite !forallb_app, plain_dec2, plain_month, plain_dec4. Qed.
Lemma plain_date_time d : forallb plain (format_date_time d) = true.
Proof.
  unfold format_date_time, format_zone. rewrite !forallb_app, plain_date, !plain_dec2.
  now destruct (Z.ltb _ _).
Qed.
Lemma plain_b64 d : forallb plain (b64_encode d) = true.
Proof.
  destruct (b64_shape d) as (x & pad & -> & Hx & Hp). rewrite forallb_app.
  rewrite (forallb_plain is_base64_char x eq_refl Hx).
  destruct Hp as [-> | [-> | ->]]; reflexivity.
Qed.
Lemma lf_quoted s : quoted_ok s = true -> forallb (fun b => negb (beq b bLF)) (escape_quoted s) = true.
Proof.
  rewrite escape_quoted_flat. unfold quoted_ok. induction s as [| b s IH]; [reflexivity |].
  cbn [forallb flat_map]. intros H. apply andb_true_iff in H as [H1 H2]. rewrite forallb_app, IH by exact H2.
  rewrite andb_true_r. revert H1. unfold esc_char.
  destruct (is_quoted_specials b) eqn:E; cbn; intros H1; rewrite ?andb_true_r;
    destruct (beq_spec b bLF) as [-> |]; try reflexivity; discriminate.
Qed.

(** *** The encoders *)
Create HintDb fine.
#[local] Hint Resolve fine_nil fine_spc : fine.
Ltac fc := solve [apply fine_W; reflexivity | apply fine_const; reflexivity].
Ltac split_v :=
  repeat match goal with
  | H : (_ && _)%bool = true |- _ => apply andb_true_iff in H as [? ?]
  end.
Ltac fapp :=
  lazymatch goal with
  | |- fine (_ ++ _) => apply fine_app
  | |- fine (paren _) => apply fine_paren
  end.
Ltac fin :=
  split_v;
  repeat first
    [ assumption | fc | fapp | apply fine_spc | apply fine_nil
    | solve [auto with fine] ].

Lemma fine_num n : fine (e_num n).
Proof. apply fine_W, plain_dec. Qed.
#[local] Hint Resolve fine_num : fine.
Lemma fine_quoted s : (ext_utf8 = false -> quoted_ok s = true) -> fine (e_quoted s).
Proof.
  intros H. unfold e_quoted. apply fine_cons; [reflexivity |]. apply fine_closed; [| reflexivity | reflexivity].
  intros U. now apply lf_quoted, H.
Qed.
Lemma fine_literal l : v_literal lv l = true -> fine (e_literal l).
Proof.
  intros H. apply andb_true_iff in H as [_ H]. repeat split. cbn [forallb e_literal short_lit]. now rewrite H.
Qed.
Lemma fine_literal8 l : v_literal8 lv l = true -> fine (e_literal8 l).
Proof. intros H. repeat split. cbn [forallb e_literal8 short_lit]. unfold v_literal8 in H. now rewrite H. Qed.
#[local] Hint Resolve fine_literal fine_literal8 : fine.
Lemma fine_lit_or_lit8 l : v_lit_or_lit8 lv l = true -> fine (e_lit_or_lit8 l).
Proof. destruct l; cbn; auto with fine. Qed.
Lemma fine_istring s : v_istring lv s = true -> fine (e_istring s).
Proof.
  destruct s as [s | s | l]; cbn [v_istring e_istring]; intros H.
  - now apply fine_quoted.
  - split_v. apply fine_quoted. congruence.
  - auto with fine.
Qed.
#[local] Hint Resolve fine_lit_or_lit8 fine_istring : fine.
Lemma fine_astring s : v_astring lv s = true -> fine (e_astring s).
Proof. destruct s; cbn; intros H; [now apply fine_W, plain_atom_ext | auto with fine]. Qed.
Lemma fine_nstring s : v_nstring lv s = true -> fine (e_nstring s).
Proof. destruct s; cbn; intros H; [auto with fine | fc]. Qed.
#[local] Hint Resolve fine_astring fine_nstring : fine.
Lemma fine_nstring8 s : v_nstring8 lv s = true -> fine (e_nstring8 s).
Proof. destruct s; cbn; intros H; auto with fine. Qed.
Lemma fine_charset c : v_charset c = true -> fine (e_charset c).
Proof. destruct c; cbn; intros H; [now apply fine_W, plain_atom | now apply fine_quoted]. Qed.
#[local] Hint Resolve fine_nstring8 fine_charset : fine.
Lemma fine_delimiter d : vopt quoted_char_ok d = true -> fine (e_delimiter d).
Proof.
  destruct d as [c |]; cbn [e_delimiter vopt]; intros H; [| fc]. apply fine_cons; [reflexivity |].
  assert (K : exists s, e_quoted_char c = W s /\ forallb (fun b => negb (beq b bLF)) s = true).
  { unfold e_quoted_char. destruct (beq c bBS); [now exists [bBS; bBS] |].
    destruct (beq c bDQ); [now exists [bBS; bDQ] |]. exists [c]. split; [reflexivity |]. cbn.
    destruct (beq_spec c bLF) as [-> |]; [discriminate | reflexivity]. }
  destruct K as (s & -> & K). now apply fine_closed.
Qed.
Lemma fine_params l : v_params lv l = true -> fine (e_params l).
Proof.
  intros H. unfold e_params, list1_or_nil. destruct l as [| p l]; [fc |]. apply fine_paren, fine_join; [fin |].
  unfold v_params in H. rewrite forallb_forall in H. intros x Hx. specialize (H x Hx).
  unfold vpair in H. unfold e_pair. fin.
Qed.
#[local] Hint Resolve fine_delimiter fine_params : fine.
Lemma fine_mailbox m : v_mailbox lv m = true -> fine (e_mailbox m).
Proof. destruct m; cbn; intros H; fin. Qed.
Lemma fine_list_mailbox m : v_list_mailbox lv m = true -> fine (e_list_mailbox m).
Proof. destruct m; cbn; intros H; [now apply fine_W, plain_list | fin]. Qed.
Lemma fine_status_name s : fine (e_status_name s).
Proof. destruct s; fc. Qed.
#[local] Hint Resolve fine_mailbox fine_list_mailbox fine_status_name : fine.
Lemma fine_atomw a : atom_ok a = true -> fine (W a).
Proof. intros H. now apply fine_W, plain_atom. Qed.
Lemma fine_atomb a : atom_ok a = true -> fine (W (bBS :: a)).
Proof. intros H. apply fine_cons; [reflexivity | now apply fine_atomw]. Qed.
#[local] Hint Resolve fine_atomw fine_atomb : fine.
Lemma fine_flag f : v_flag f = true -> fine (e_flag f).
Proof. destruct f; cbn [v_flag]; intros H; unfold e_flag; cbn [flag_str]; fin. Qed.
#[local] Hint Resolve fine_flag : fine.
Lemma fine_flag_fetch f : v_flag_fetch lv f = true -> fine (e_flag_fetch f).
Proof. destruct f; cbn [v_flag_fetch e_flag_fetch]; intros H; fin. Qed.
Lemma fine_flag_perm f : v_flag_perm f = true -> fine (e_flag_perm f).
Proof. destruct f; cbn [v_flag_perm e_flag_perm]; intros H; fin. Qed.
Lemma fine_flag_name f : v_flag_name f = true -> fine (e_flag_name f).
Proof. destruct f; cbn [v_flag_name]; intros H; unfold e_flag_name; cbn [flag_name_attribute_str]; fin. Qed.
#[local] Hint Resolve fine_flag_fetch fine_flag_perm fine_flag_name : fine.
Lemma fine_date_time d : fine (e_date_time d).
Proof. unfold e_date_time. apply fine_cons; [reflexivity |]. apply fine_app; [apply fine_W, plain_date_time | now apply (fine_W [bDQ])]. Qed.
Lemma fine_date d : fine (e_date d).
Proof. unfold e_date. apply fine_cons; [reflexivity |]. apply fine_app; [apply fine_W, plain_date | now apply (fine_W [bDQ])]. Qed.
#[local] Hint Resolve fine_date_time fine_date : fine.
Lemma fine_seq_or_uid s : fine (e_seq_or_uid s).
Proof. destruct s; cbn; fin. Qed.
#[local] Hint Resolve fine_seq_or_uid : fine.
Lemma fine_sequence s : fine (e_sequence s).
Proof. unfold e_sequence. destruct (if quirk_always_normalize_sequence_sets then _ else _); fin. Qed.
Lemma fine_sequence_set s : fine (e_sequence_set s).
Proof. apply fine_join; [fc |]. intros x _. apply fine_sequence. Qed.
#[local] Hint Resolve fine_sequence_set : fine.
Lemma fine_attribute_flag f : v_attribute_flag f = true -> forallb plain (attribute_flag_str f) = true.
Proof.
  destruct f; cbn [v_attribute_flag attribute_flag_str]; intros H; split_v; try reflexivity.
  - cbn [forallb]. now rewrite plain_atom.
  - now apply plain_atom.
Qed.
Lemma fine_search_key k : v_search_tree lv k = true -> fine (e_search_key k).
Proof.
  induction k as [l IH | k IH | a b IHa IHb | k Hk] using key_ind'; cbn [v_search_tree e_search_key]; intros H.
  - split_v. apply fine_paren, fine_join; [fin |]. rewrite Forall_forall in IH. rewrite forallb_forall in H0. auto.
  - fin.
  - fin.
  - destruct k; try contradiction; cbn [v_search_tree e_search_key] in *; try fc; try (unfold e_bytes; fin; fail).
    destruct entry as [[f t] |]; [| fin]. split_v. cbn [vopt] in *. unfold vpair in *. cbn [fst snd] in *. split_v.
    apply fine_app; [fc |]. apply fine_app; [| fin]. apply fine_app.
    + apply fine_W. rewrite !forallb_app, fine_attribute_flag by assumption. reflexivity.
    + destruct t; fc.
Qed.
#[local] Hint Resolve fine_search_key : fine.
Lemma fine_part p : fine (e_part p).
Proof. apply fine_join; [fc |]. intros x _. apply fine_num. Qed.
#[local] Hint Resolve fine_part : fine.
Lemma fine_part_dot p : fine (e_part_dot p).
Proof. destruct p; cbn; fin. Qed.
#[local] Hint Resolve fine_part_dot : fine.
Lemma fine_joinsp {A} (e : A -> list op) (v : A -> bool) l : (forall x, v x = true -> fine (e x)) ->
  forallb v l = true -> fine (joinsp e l).
Proof. intros H V. apply fine_join; [apply fine_spc |]. rewrite forallb_forall in V. auto. Qed.
Lemma fine_joinsp1 {A} (e : A -> list op) (v : A -> bool) l : (forall x, v x = true -> fine (e x)) ->
  v1 v l = true -> fine (joinsp e l).
Proof. intros H V. unfold v1 in V. split_v. now apply (fine_joinsp e v). Qed.
Ltac fj := first [ solve [eapply fine_joinsp; [| eassumption]; auto with fine]
                 | solve [eapply fine_joinsp1; [| eassumption]; auto with fine] ].
Ltac fin ::=
  split_v;
  repeat first
    [ assumption | fc | fapp | apply fine_spc | apply fine_nil
    | fj | solve [auto with fine] ].
Lemma fine_section s : v_section lv s = true -> fine (e_section s).
Proof. destruct s; cbn [v_section e_section]; intros H; fin. Qed.
#[local] Hint Resolve fine_section : fine.
Lemma fine_opt {A} (e : A -> list op) (v : A -> bool) o : (forall x, v x = true -> fine (e x)) ->
  vopt v o = true -> fine (e_opt e o).
Proof. destruct o; cbn; auto with fine. Qed.
Lemma fine_opt' {A} (e : A -> list op) o : (forall x, fine (e x)) -> fine (e_opt e o).
Proof. destruct o; cbn; auto with fine. Qed.
Lemma fine_partial p : fine (e_partial p).
Proof. unfold e_partial. fin. Qed.
#[local] Hint Resolve fine_partial : fine.
Lemma fine_item_name i : v_item_name lv i = true -> fine (e_item_name i).
Proof.
  destruct i; cbn [v_item_name e_item_name]; intros H; try fc; split_v.
  - apply fine_app; [destruct peek; fc |]. apply fine_app; [eapply fine_opt; [| eassumption]; auto with fine |].
    apply fine_app; [fc |]. apply fine_opt'. auto with fine.
  - apply fine_app; [fc |]. apply fine_app; [destruct peek; fc |]. apply fine_app; [fc |].
    apply fine_app; [fin |]. apply fine_app; [fc |]. apply fine_opt'. auto with fine.
  - fin.
Qed.
#[local] Hint Resolve fine_item_name : fine.
Lemma fine_macro_or_items m : v_macro_or_items lv m = true -> fine (e_macro_or_items m).
Proof.
  destruct m as [m | l]; cbn [v_macro_or_items e_macro_or_items]; intros H; [destruct m; fc |].
  destruct l as [| x [| y l]]; [fin | | fin]. cbn [forallb] in H. fin.
Qed.
#[local] Hint Resolve fine_macro_or_items : fine.
Lemma fine_capability_enable c : v_capability_enable c = true -> fine (e_capability_enable c).
Proof. destruct c as [| | | [|] | a]; cbn [v_capability_enable]; intros H; unfold e_capability_enable; cbn [capability_enable_str]; fin. Qed.
Lemma fine_resource r : v_resource r = true -> fine (e_resource r).
Proof. destruct r; cbn [v_resource]; intros H; unfold e_resource; cbn [resource_str]; fin. Qed.
#[local] Hint Resolve fine_capability_enable fine_resource : fine.
Lemma fine_quota_get q : v_quota_get q = true -> fine (e_quota_get q).
Proof. unfold v_quota_get, e_quota_get. intros H. fin. Qed.
Lemma fine_quota_set q : v_quota_set q = true -> fine (e_quota_set q).
Proof. unfold v_quota_set, e_quota_set. intros H. fin. Qed.
#[local] Hint Resolve fine_quota_get fine_quota_set : fine.
Lemma fine_sort_criterion c : fine (e_sort_criterion c).
Proof. unfold e_sort_criterion. destruct c as [[|] k]; destruct k; fin. Qed.
Lemma fine_threading a : v_threading_algorithm a = true -> fine (e_threading_algorithm a).
Proof. destruct a; cbn [v_threading_algorithm]; intros H; unfold e_threading_algorithm; cbn [threading_algorithm_str]; fin. Qed.
Lemma fine_entry_value e : v_entry_value lv e = true -> fine (e_entry_value e).
Proof. unfold v_entry_value, e_entry_value. intros H. fin. Qed.
#[local] Hint Resolve fine_sort_criterion fine_threading fine_entry_value : fine.
Lemma fine_get_metadata_option o : fine (e_get_metadata_option o).
Proof. destruct o as [n | d]; cbn [e_get_metadata_option]; [fin | destruct d; fin]. Qed.
#[local] Hint Resolve fine_get_metadata_option : fine.
Lemma fine_metadata_response r : v_metadata_response lv r = true -> fine (e_metadata_response r).
Proof. destruct r; cbn [v_metadata_response e_metadata_response]; intros H; fin. Qed.
Lemma fine_metadata_code c : fine (e_metadata_code c).
Proof. destruct c; cbn [e_metadata_code]; fin. Qed.
#[local] Hint Resolve fine_metadata_response fine_metadata_code : fine.
Lemma fine_namespace_ext e : v_namespace_ext lv e = true -> fine (e_namespace_ext e).
Proof. unfold v_namespace_ext, e_namespace_ext. intros H. fin. Qed.
Lemma fine_flat_v {A} (e : A -> list op) (v : A -> bool) l : (forall x, v x = true -> fine (e x)) ->
  forallb v l = true -> fine (flat_map e l).
Proof. intros H V. apply fine_flat. rewrite forallb_forall in V. auto. Qed.
Lemma fine_namespace n : v_namespace lv n = true -> fine (e_namespace n).
Proof.
  unfold v_namespace, e_namespace. intros H. split_v. apply fine_paren. fin.
  eapply fine_flat_v; [| eassumption]. apply fine_namespace_ext.
Qed.
Lemma fine_namespaces l : forallb (v_namespace lv) l = true -> fine (e_namespaces l).
Proof.
  intros H. unfold e_namespaces. destruct l; [fc |]. apply fine_paren. eapply fine_flat_v; [| eassumption]. apply fine_namespace.
Qed.
#[local] Hint Resolve fine_namespaces : fine.
Lemma fine_uid_set s : fine (e_uid_set s).
Proof. apply fine_join; [fc |]. intros [n | a b] _; cbn [e_uid_element]; fin. Qed.
#[local] Hint Resolve fine_uid_set : fine.
Lemma fine_id p : v_id_params lv p = true -> fine (e_id_params p).
Proof.
  destruct p as [[| x l] |]; cbn [v_id_params e_id_params]; intros H; [destruct quirk_id_empty_to_nil; fc | | fc].
  apply fine_paren. eapply fine_joinsp; [| exact H]. intros [a b] K. unfold vpair in K. unfold e_pair.
  cbn [fst snd] in *. fin.
Qed.
#[local] Hint Resolve fine_id : fine.
Lemma fine_fetch_modifier m : fine (e_fetch_modifier m).
Proof. destruct m; cbn [e_fetch_modifier e_store_modifier]; fin. Qed.
Lemma fine_store_modifier m : fine (e_store_modifier m).
Proof. destruct m; cbn [e_fetch_modifier e_store_modifier]; fin. Qed.
Lemma fine_select_parameter p : fine (e_select_parameter p).
Proof.
  destruct p as [| v m k s]; cbn [e_select_parameter]; [fc |].
  repeat apply fine_app; try fc; try apply fine_num; try apply fine_spc; apply fine_opt'; intros x; fin.
Qed.
#[local] Hint Resolve fine_fetch_modifier fine_store_modifier fine_select_parameter : fine.
Lemma fine_opt_list {A} (e : A -> list op) (v : A -> bool) l : (forall x, v x = true -> fine (e x)) ->
  forallb v l = true -> fine (e_opt_list e l).
Proof. intros H V. unfold e_opt_list. destruct l; [apply fine_nil |]. fin. Qed.
Lemma fine_opt_list' {A} (e : A -> list op) l : (forall x, fine (e x)) -> fine (e_opt_list e l).
Proof.
  intros H. unfold e_opt_list. destruct l; [apply fine_nil |]. apply fine_app; [apply fine_spc |].
  apply fine_paren, fine_join; [apply fine_spc | auto].
Qed.
Lemma fine_joinsp' {A} (e : A -> list op) l : (forall x, fine (e x)) -> fine (joinsp e l).
Proof. intros H. apply fine_join; [apply fine_spc | auto]. Qed.
Lemma fine_uid u : fine (e_uid u).
Proof. destruct u; cbn; fin. Qed.
#[local] Hint Resolve fine_uid fine_opt_list' fine_joinsp' : fine.
Lemma fine_search_keys l : v1 (v_search_key lv) l = true -> fine (joinsp e_search_key l).
Proof.
  intros H. unfold v1 in H. split_v. eapply fine_joinsp; [| eassumption]. intros k K. unfold v_search_key in K.
  split_v. now apply fine_search_key.
Qed.
#[local] Hint Resolve fine_search_keys : fine.
Lemma fine_auth m : v_auth_mechanism lv m = true -> fine (W (auth_mechanism_str m)).
Proof. destruct m; cbn [v_auth_mechanism auth_mechanism_str]; intros H; fin. Qed.
#[local] Hint Resolve fine_auth : fine.
Lemma fine_b64 d : fine (W (b64_encode d)).
Proof. apply fine_W, plain_b64. Qed.
#[local] Hint Resolve fine_b64 : fine.

Lemma fine_command_body c : v_command_body lv c = true -> fine (e_command_body c).
Proof.
  destruct c; cbn [v_command_body e_command_body]; intros H; try fc; try (fin; fail).
  - (* authenticate *) apply fine_app; [fc |]. apply fine_app; [fin |]. destruct ir as [[| x ir] |]; fin.
  - (* append *) split_v. apply fine_app; [fc |]. apply fine_app; [fin |].
    apply fine_app; [now apply (fine_opt_list e_flag v_flag); auto with fine |].
    apply fine_app; [| fin]. apply fine_opt'. intros x. fin.
  - (* search *) split_v. apply fine_app; [fin |]. apply fine_app; [fc |].
    apply fine_app; [eapply fine_opt; [| eassumption]; intros x Hx; fin | fin].
  - (* store *) split_v. apply fine_app; [fin |]. apply fine_app; [fc |]. apply fine_app; [fin |].
    apply fine_app; [fin |]. apply fine_app; [destruct mods; fin |].
    apply fine_app; [destruct kind; fin |]. apply fine_app; [fc |]. apply fine_app; [destruct resp; fin |]. fin.
  - (* compress *) destruct a. fc.
  - (* get metadata *) split_v. apply fine_app; [fc |]. apply fine_app; [fin |]. apply fine_app; [fin |].
    apply fine_app; [fin |]. apply fine_app; [fin |].
    destruct entries as [| x [| y l]]; [fin | | fin]. unfold v1 in *. cbn [forallb] in *. fin.
Qed.
(** *** Responses *)
Lemma fine_status_item s : fine (e_status_item s).
Proof. destruct s; cbn [e_status_item]; fin. Qed.
#[local] Hint Resolve fine_status_item : fine.
Lemma fine_address a : v_address lv a = true -> fine (e_address a).
Proof. unfold v_address, e_address. intros H. fin. Qed.
Lemma fine_addresses l : v_addresses lv l = true -> fine (e_addresses l).
Proof.
  intros H. unfold e_addresses, list1_or_nil. destruct l; [fc |]. apply fine_paren, fine_join; [apply fine_nil |].
  unfold v_addresses in H. rewrite forallb_forall in H. intros x Hx. apply fine_address. auto.
Qed.
#[local] Hint Resolve fine_addresses : fine.
Lemma fine_envelope e : v_envelope lv e = true -> fine (e_envelope e).
Proof. unfold v_envelope, e_envelope. intros H. fin. Qed.
Lemma fine_basic b : v_basic lv b = true -> fine (e_basic b).
Proof. unfold v_basic, e_basic. intros H. fin. Qed.
#[local] Hint Resolve fine_envelope fine_basic : fine.
Lemma fine_body_extension b : v_body_extension lv b = true -> fine (e_body_extension b).
Proof.
  induction b as [n | n | l IH] using be_ind'; cbn [v_body_extension e_body_extension]; intros H; [fin | fin |].
  split_v. apply fine_paren, fine_join; [fin |]. rewrite Forall_forall in IH. rewrite forallb_forall in H0. auto.
Qed.
Lemma fine_location l : v_location lv l = true -> fine (e_location l).
Proof.
  unfold v_location, e_location. intros H. split_v. apply fine_app; [fin |].
  eapply fine_flat_v; [| eassumption]. cbn beta. intros b K. split_v. apply fine_app; [fin |]. now apply fine_body_extension.
Qed.
Lemma fine_tail {A} (e : A -> list op) (v : A -> bool) t : (forall x, v x = true -> fine (e x)) ->
  vopt v t = true -> fine (e_tail e t).
Proof. intros H V. unfold e_tail. eapply fine_opt; [| exact V]. intros x Hx. cbn beta. fin. Qed.
Lemma fine_language l : v_language lv l = true -> fine (e_language l).
Proof.
  unfold v_language, e_language. intros H. split_v. apply fine_app.
  - unfold list1_or_nil. destruct (lang_language l); [fc |]. apply fine_paren. change (fine (joinsp e_istring (i :: l0))). fin.
  - eapply fine_tail; [| eassumption]. apply fine_location.
Qed.
Lemma fine_disposition d : v_disposition lv d = true -> fine (e_disposition d).
Proof.
  unfold v_disposition, e_disposition. intros H. split_v. apply fine_app.
  - destruct (disp_disposition d) as [[s p] |]; [| fc]. cbn [vopt] in H. unfold vpair in H. cbn [fst snd] in H. fin.
  - eapply fine_tail; [| eassumption]. apply fine_language.
Qed.
Lemma fine_single_ext s : v_single_ext lv s = true -> fine (e_single_ext s).
Proof.
  unfold v_single_ext, e_single_ext. intros H. split_v. apply fine_app; [fin |].
  eapply fine_tail; [| eassumption]. apply fine_disposition.
Qed.
Lemma fine_multi_ext s : v_multi_ext lv s = true -> fine (e_multi_ext s).
Proof.
  unfold v_multi_ext, e_multi_ext. intros H. split_v. apply fine_app; [fin |].
  eapply fine_tail; [| eassumption]. apply fine_disposition.
Qed.
Lemma fine_body b : v_body_structure lv b = true -> fine (e_body b).
Proof.
  induction b as [b t s x | b s n0 x | b e c n0 x IH | l s x IH] using body_ind'; cbn [v_body_structure e_body]; intros H;
    split_v; apply fine_paren.
  1-3: apply fine_app; [fin | eapply fine_tail; [| eassumption]; apply fine_single_ext].
  apply fine_app; [| apply fine_app; [fin |]; apply fine_app; [fin | eapply fine_tail; [| eassumption]; apply fine_multi_ext]].
  apply fine_flat. rewrite Forall_forall in IH. rewrite forallb_forall in H2. auto.
Qed.
Lemma fine_vbody b : v_body lv b = true -> fine (e_body b).
Proof. unfold v_body. intros H. split_v. now apply fine_body. Qed.
#[local] Hint Resolve fine_vbody : fine.
Lemma fine_message_data_item m : v_message_data_item lv m = true -> fine (e_message_data_item m).
Proof.
  destruct m; cbn [v_message_data_item e_message_data_item]; intros H; try (fin; fail).
  split_v. apply fine_app; [fc |]. apply fine_app; [eapply fine_opt; [| eassumption]; auto with fine |].
  apply fine_app; [fc |]. apply fine_app; [apply fine_opt'; intros x; fin |]. fin.
Qed.
#[local] Hint Resolve fine_message_data_item : fine.
Lemma fine_thread t : fine (e_thread t).
Proof.
  induction t as [p | p l IH | l IH] using thread_ind'; cbn [e_thread]; apply fine_paren.
  - apply fine_app; fin.
  - apply fine_app; [fin |]. apply fine_app; [fin |]. apply fine_flat. now apply Forall_forall.
  - apply fine_flat. now apply Forall_forall.
Qed.
Lemma fine_nums l : fine (e_nums l).
Proof. unfold e_nums. destruct l; fin. Qed.
Lemma fine_modseq m : fine (e_modseq m).
Proof. unfold e_modseq. apply fine_opt'. intros n. fin. Qed.
#[local] Hint Resolve fine_nums fine_modseq : fine.
Lemma fine_capability c : v_capability lv c = true -> fine (e_capability c).
Proof.
  unfold e_capability. destruct c; cbn [v_capability capability_str]; intros H; try fc; split_v.
  - rewrite W_app. apply fine_app; [fc | fin].
  - destruct a. fc.
  - rewrite W_app. apply fine_app; [fc |]. now apply fine_resource.
  - destruct a as [a |]; [| fc]. rewrite W_app. apply fine_app; [fc |].
    destruct a; cbn [v_capability v_sort_algorithm sort_algorithm_str] in *; fin.
  - rewrite W_app. apply fine_app; [fc |]. now apply fine_threading.
  - destruct k; fc.
  - fin.
Qed.
#[local] Hint Resolve fine_capability : fine.

(** The part of a data response before the final CRLF *)
Definition data_body (d : data) : list op := removelast (removelast (e_data d)).
Lemma data_body_eq d : e_data d = data_body d ++ e_crlf.
Proof.
  unfold data_body. unfold e_data. generalize (match d with
  | DCapability l => W (bs "* CAPABILITY ") ++ joinsp e_capability l
  | _ => [] end).
  intros _. match goal with |- ?x ++ e_crlf = _ => generalize x end. intros l.
  change e_crlf with ([B bCR] ++ [B bLF]). rewrite app_assoc, removelast_last, removelast_last.
  now rewrite <- app_assoc.
Qed.
Lemma data_body_of d l : e_data d = l ++ e_crlf -> data_body d = l.
Proof.
  unfold data_body. intros ->. change e_crlf with ([B bCR] ++ [B bLF]).
  now rewrite app_assoc, removelast_last, removelast_last.
Qed.
Lemma fine_data d : v_data lv d = true -> fine (data_body d).
Proof.
  intros H. unfold e_data in *.
  match goal with |- fine (data_body d) => erewrite (data_body_of d) by (unfold e_data; reflexivity) end.
  destruct d; cbn [v_data] in H; try fc; try (fin; fail).
  - (* thread *) apply fine_app; [fc |]. destruct l; [apply fine_nil |]. apply fine_app; [fin |].
    apply fine_flat. intros x _. apply fine_thread.
  - (* enabled *) apply fine_app; [fc |]. eapply fine_flat_v; [| exact H]. intros x Hx. cbn beta. fin.
  - (* quota root *) split_v. apply fine_app; [fc |]. apply fine_app; [fin |].
    eapply fine_flat_v; [| eassumption]. intros x Hx. cbn beta. fin.
  - (* vanished *) apply fine_app; [fc |]. apply fine_app; [destruct earlier; fc |]. fin.
Qed.

(** Codes: anything but LF, followed by "]" *)
Lemma no_lf_fine l : fine l -> (ext_utf8 = false -> forallb no_lf l = true) /\ forallb short_lit l = true.
Proof. now intros (_ & H). Qed.
Lemma fine_bracket l : (ext_utf8 = false -> forallb no_lf l = true) /\ forallb short_lit l = true ->
  fine (l ++ W (bs "] ")).
Proof.
  intros (H1 & H2). split; [| split].
  - change (W (bs "] ")) with ([B "]"%byte] ++ [B bSP]). rewrite app_assoc. now apply braces_stop.
  - intros U. now rewrite forallb_app, H1.
  - now rewrite forallb_app, H2.
Qed.
Variable other : bytes -> bytes -> bool.
Hypothesis Hother : forall b t, other b t = true -> forallb is_code_other_char b = true.
Hypothesis Hlv : lv <> LType.
Lemma rt_true x : only_rt lv x = true -> x = true.
Proof. destruct lv; [contradiction | exact (fun h => h) | exact (fun h => h)]. Qed.
Lemma fine_code c t : v_code lv other c t = true -> fine (e_code c ++ W (bs "] ")).
Proof.
  intros H. apply fine_bracket. destruct c; cbn [v_code e_code] in *;
    try (apply no_lf_fine; fin; fail).
  - apply no_lf_fine. destruct allowed; fin.
  - exfalso. split_v. apply rt_true in H0. discriminate.
  - apply rt_true, Hother in H. split; [intros _ | apply short_W].
    unfold W. rewrite forallb_forall in *. intros o Ho. apply in_map_iff in Ho as (x & <- & Hx).
    specialize (H x Hx). unfold is_code_other_char in H. split_v. assumption.
Qed.
Lemma lf_text t : text_ok t = true -> forallb no_lf (W t) = true.
Proof.
  destruct t as [| a t]; [discriminate |]. unfold text_ok. generalize (a :: t). intros s H.
  unfold W. rewrite forallb_forall in *. intros o Ho. apply in_map_iff in Ho as (x & <- & Hx).
  specialize (H x Hx). cbn. destruct (beq_spec x bLF) as [-> |]; [discriminate | reflexivity].
Qed.
End Fine.
