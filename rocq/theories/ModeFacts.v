(** How the encoding depends on literal modes. *)

From Verif Require Import Bytes BytesFacts Dec Features Nom Types Utf8 Conv SeqSet Base64 Date EncodeCtx Encode EncodeFacts
  Valid ValidFacts RtFacts RoundTripSpec EncFragFacts Traverse.
Open Scope nat_scope.

(** [remoded g fs fs']: the fragments [fs'] are the fragments [fs] with every literal mode [m]
    replaced by [g m], in the literal and in its announcement, which ends the line before it.
    Nothing else differs. *)
Definition announcement (is8 : bool) (m : lit_mode) (n : N) : bytes :=
  (if is8 then bs "~" else []) ++ bs "{" ++ dec n ++
  match m with Sync => [] | NonSync => bs "+" end ++ bs "}" ++ [bCR; bLF].
Inductive remoded (g : lit_mode -> lit_mode) : list fragment -> list fragment -> Prop :=
| remoded_nil : remoded g [] []
| remoded_line l : remoded g [FrLine l] [FrLine l]
| remoded_literal l is8 m d fs fs' : remoded g fs fs' ->
    remoded g (FrLine (l ++ announcement is8 m (lenN d)) :: FrLiteral d m :: fs)
              (FrLine (l ++ announcement is8 (g m) (lenN d)) :: FrLiteral d (g m) :: fs').

Definition op_mode (g : lit_mode -> lit_mode) (o : op) : op :=
  match o with B b => B b | Lit i m d => Lit i (g m) d end.

Section ModeFacts.
Context {F : features}.
Variable g : lit_mode -> lit_mode.
Notation i := (fun b : byte => b).
Notation mm := (map (op_mode g)).

Lemma x_str_id s : x_str i s = s.
Proof. apply map_id. Qed.
Lemma mm_app a b : mm (a ++ b) = mm a ++ mm b.
Proof. apply map_app. Qed.
Lemma mm_W s : mm (W s) = W s.
Proof. unfold W. rewrite map_map. now apply map_ext. Qed.
Lemma mm_paren o : mm (paren o) = paren (mm o).
Proof. unfold paren. cbn. now rewrite mm_app. Qed.
Lemma mm_join {A B} sep (e : A -> list op) (e' : B -> list op) h l : mm sep = sep ->
  (forall x, e' (h x) = mm (e x)) -> join sep e' (map h l) = mm (join sep e l).
Proof.
  intros S H. induction l as [| x l IH]; [reflexivity |]. cbn [map]. destruct l as [| y l].
  - cbn. apply H.
  - cbn [map join] in *. rewrite !mm_app, S, H, IH. reflexivity.
Qed.
Lemma mm_join_id {A} sep (e : A -> list op) l : mm sep = sep -> (forall x, mm (e x) = e x) ->
  mm (join sep e l) = join sep e l.
Proof. intros S H. rewrite <- (mm_join sep e e (fun x => x) l S); [now rewrite map_id |]. intros x. now rewrite H. Qed.
Lemma mm_join_f {A B} sep (e : A -> list op) (e' : B -> list op) h l : mm sep = sep ->
  Forall (fun x => e' (h x) = mm (e x)) l -> join sep e' (map h l) = mm (join sep e l).
Proof.
  intros S H. induction H as [| x l Hx H IH]; [reflexivity |]. cbn [map]. destruct l as [| y l].
  - cbn. apply Hx.
  - cbn [map join] in *. rewrite !mm_app, S, Hx, IH. reflexivity.
Qed.
Lemma mm_flat {A B} (e : A -> list op) (e' : B -> list op) h l :
  (forall x, e' (h x) = mm (e x)) -> flat_map e' (map h l) = mm (flat_map e l).
Proof. intros H. induction l as [| x l IH]; [reflexivity |]. cbn. now rewrite mm_app, H, IH. Qed.
Lemma mm_flat_f {A B} (e : A -> list op) (e' : B -> list op) h l :
  Forall (fun x => e' (h x) = mm (e x)) l -> flat_map e' (map h l) = mm (flat_map e l).
Proof. intros H. induction H as [| x l Hx H IH]; [reflexivity |]. cbn. now rewrite mm_app, Hx, IH. Qed.
Lemma mm_flat_id {A} (e : A -> list op) l : (forall x, mm (e x) = e x) -> mm (flat_map e l) = flat_map e l.
Proof. intros H. induction l as [| x l IH]; [reflexivity |]. cbn. now rewrite mm_app, H, IH. Qed.
Lemma mm_opt {A B} (e : A -> list op) (e' : B -> list op) h o :
  (forall x, e' (h x) = mm (e x)) -> e_opt e' (option_map h o) = mm (e_opt e o).
Proof. intros H. destruct o; [apply H | reflexivity]. Qed.
Lemma mm_opt_id {A} (e : A -> list op) o : (forall x, mm (e x) = e x) -> mm (e_opt e o) = e_opt e o.
Proof. intros H. destruct o; [apply H | reflexivity]. Qed.
Lemma mm_list1 {A B} sep (e : A -> list op) (e' : B -> list op) h l : mm sep = sep ->
  (forall x, e' (h x) = mm (e x)) -> list1_or_nil sep e' (map h l) = mm (list1_or_nil sep e l).
Proof.
  intros S H. destruct l as [| x l]; [reflexivity |]. unfold list1_or_nil. rewrite mm_paren, <- (mm_join sep e e' h (x :: l) S H).
  reflexivity.
Qed.
Lemma mm_opt_list_id {A} (e : A -> list op) l : (forall x, mm (e x) = e x) -> mm (e_opt_list e l) = e_opt_list e l.
Proof.
  intros H. destruct l as [| x l]; [reflexivity |]. unfold e_opt_list. rewrite mm_app, mm_paren.
  unfold joinsp. now rewrite mm_join_id.
Qed.
Lemma mm_opt_list {A B} (e : A -> list op) (e' : B -> list op) h l :
  (forall x, e' (h x) = mm (e x)) -> e_opt_list e' (map h l) = mm (e_opt_list e l).
Proof.
  intros H. destruct l as [| x l]; [reflexivity |]. unfold e_opt_list. rewrite mm_app, mm_paren.
  unfold joinsp. rewrite <- (mm_join spc e e' h (x :: l) eq_refl H). reflexivity.
Qed.

(** Encoders without literals *)
Ltac ms := repeat first [rewrite mm_app | rewrite mm_W | rewrite mm_paren | rewrite x_str_id | progress cbn [map op_mode app]].
Lemma mm_num n : mm (e_num n) = e_num n.
Proof. apply mm_W. Qed.
Lemma mm_bytes n : mm (e_bytes n) = e_bytes n.
Proof. apply mm_W. Qed.
Lemma mm_quoted s : mm (e_quoted s) = e_quoted s.
Proof. unfold e_quoted. now ms. Qed.
Lemma mm_seq s : mm (e_seq_or_uid s) = e_seq_or_uid s.
Proof. destruct s; apply mm_W. Qed.
Lemma mm_sequence s : mm (e_sequence s) = e_sequence s.
Proof.
  unfold e_sequence. generalize (if quirk_always_normalize_sequence_sets then sequence_normalize s else s).
  intros [a | a b]; ms; now rewrite !mm_seq.
Qed.
Lemma mm_sequence_set s : mm (e_sequence_set s) = e_sequence_set s.
Proof. unfold e_sequence_set. apply mm_join_id; [reflexivity | exact mm_sequence]. Qed.
Lemma mm_part s : mm (e_part s) = e_part s.
Proof. apply mm_join_id; [reflexivity | exact mm_num]. Qed.
Lemma mm_part_dot s : mm (e_part_dot s) = e_part_dot s.
Proof. destruct s; [| reflexivity]. cbn. now rewrite mm_app, mm_part. Qed.
Lemma mm_partial s : mm (e_partial s) = e_partial s.
Proof. unfold e_partial. ms. now rewrite !mm_num. Qed.
Lemma mm_date d : mm (e_date d) = e_date d.
Proof. unfold e_date. now ms. Qed.
Lemma mm_date_time d : mm (e_date_time d) = e_date_time d.
Proof. unfold e_date_time. now ms. Qed.
Lemma mm_delimiter d : mm (e_delimiter d) = e_delimiter d.
Proof.
  destruct d as [b |]; [| reflexivity]. unfold e_delimiter, e_quoted_char. cbn.
  destruct (beq b bBS); [reflexivity |]. now destruct (beq b bDQ).
Qed.
Lemma mm_status_name s : mm (e_status_name s) = e_status_name s.
Proof. now destruct s. Qed.
Lemma mm_status_item s : mm (e_status_item s) = e_status_item s.
Proof. destruct s; cbn [e_status_item]; ms; now rewrite mm_num. Qed.
Lemma mm_select s : mm (e_select_parameter s) = e_select_parameter s.
Proof.
  destruct s as [| v m k s]; [reflexivity |]. cbn [e_select_parameter]. ms. rewrite !mm_num. do 3 f_equal.
  rewrite !mm_opt_id; [reflexivity | |].
  - intros x. ms. now rewrite !mm_sequence_set.
  - intros x. ms. now rewrite !mm_sequence_set.
Qed.
Lemma mm_fetch_modifier s : mm (e_fetch_modifier s) = e_fetch_modifier s.
Proof. destruct s; [| reflexivity]. cbn [e_fetch_modifier]. ms. now rewrite mm_num. Qed.
Lemma mm_store_modifier s : mm (e_store_modifier s) = e_store_modifier s.
Proof. destruct s. cbn [e_store_modifier]. ms. now rewrite mm_num. Qed.
Lemma mm_gm s : mm (e_get_metadata_option s) = e_get_metadata_option s.
Proof. destruct s as [n | d]; cbn [e_get_metadata_option]; ms; [now rewrite mm_num | now destruct d]. Qed.
Lemma mm_sort s : mm (e_sort_criterion s) = e_sort_criterion s.
Proof. destruct s as [r k]. unfold e_sort_criterion. ms. now destruct r, k. Qed.
Lemma mm_uid_set s : mm (e_uid_set s) = e_uid_set s.
Proof.
  apply mm_join_id; [reflexivity |]. intros [n | a b]; cbn [e_uid_element]; ms; now rewrite !mm_num.
Qed.
Lemma mm_thread t : mm (e_thread t) = e_thread t.
Proof.
  induction t as [p | p l IH | l IH] using thread_ind'; cbn [e_thread]; rewrite mm_paren; f_equal.
  - rewrite app_nil_r. unfold joinsp. apply mm_join_id; [reflexivity | exact mm_num].
  - rewrite !mm_app. f_equal; [apply mm_join_id; [reflexivity | exact mm_num] |]. f_equal.
    induction IH as [| x l H _ IH]; [reflexivity |]. cbn. now rewrite mm_app, H, IH.
  - induction IH as [| x l H _ IH]; [reflexivity |]. cbn. now rewrite mm_app, H, IH.
Qed.
(** Values without literals *)
Lemma id_map {A} (h : A -> A) l : (forall x, h x = x) -> map h l = l.
Proof. intros H. rewrite (map_ext h (fun x => x) H). apply map_id. Qed.
Lemma id_omap {A} (h : A -> A) l : (forall x, h x = x) -> option_map h l = l.
Proof. intros H. destruct l; [cbn; now rewrite H | reflexivity]. Qed.
Ltac xs := let x := fresh in intros x; destruct x; cbn; rewrite ?x_str_id; auto.
Lemma x_flag_id : forall x, x_flag i x = x. Proof. xs. Qed.
Lemma x_flag_fetch_id : forall x, x_flag_fetch i x = x. Proof. xs; now rewrite x_flag_id. Qed.
Lemma x_flag_perm_id : forall x, x_flag_perm i x = x. Proof. xs; now rewrite x_flag_id. Qed.
Lemma x_flag_name_id : forall x, x_flag_name i x = x. Proof. xs. Qed.
Lemma x_mech_id : forall x, x_mech i x = x. Proof. xs. Qed.
Lemma x_af_id : forall x, x_attribute_flag i x = x. Proof. xs. Qed.
Lemma x_ce_id : forall x, x_capability_enable i x = x. Proof. xs. Qed.
Lemma x_resource_id : forall x, x_resource i x = x. Proof. xs. Qed.
Lemma x_sa_id : forall x, x_sort_algorithm i x = x. Proof. xs. Qed.
Lemma x_ta_id : forall x, x_threading_algorithm i x = x. Proof. xs. Qed.
Lemma x_charset_id : forall x, x_charset i x = x. Proof. xs. Qed.
Lemma x_qg_id : forall x, x_quota_get i x = x. Proof. intros []. unfold x_quota_get. cbn. now rewrite x_resource_id. Qed.
Lemma x_qs_id : forall x, x_quota_set i x = x. Proof. intros []. unfold x_quota_set. cbn. now rewrite x_resource_id. Qed.
Lemma x_capability_id : forall x, x_capability i x = x.
Proof. xs; rewrite ?x_mech_id, ?x_resource_id, ?x_ta_id; auto. now rewrite (id_omap _ _ x_sa_id). Qed.
Lemma x_code_id : forall x, x_code i x = x.
Proof. xs; now rewrite ?(id_map _ _ x_charset_id), ?(id_map _ _ x_capability_id), ?(id_map _ _ x_flag_perm_id). Qed.
Lemma mm_charset s : mm (e_charset s) = e_charset s.
Proof. destruct s; [apply mm_bytes | apply mm_quoted]. Qed.

(** Strings *)
Lemma mo_istring s : e_istring (x_istring i g s) = mm (e_istring s).
Proof.
  destruct s; cbn [x_istring e_istring]; rewrite ?x_str_id, ?mm_quoted; try reflexivity.
  unfold e_literal, x_literal. cbn. now rewrite x_str_id.
Qed.
Lemma mo_literal8 s : e_literal8 (x_literal8 i g s) = mm (e_literal8 s).
Proof. unfold e_literal8, x_literal8. cbn. now rewrite x_str_id. Qed.
Lemma mo_lit_or_lit8 s : e_lit_or_lit8 (x_lit_or_lit8 i g s) = mm (e_lit_or_lit8 s).
Proof. destruct s; cbn; unfold e_literal, e_literal8; cbn; now rewrite x_str_id. Qed.
Lemma mo_nstring s : e_nstring (x_nstring i g s) = mm (e_nstring s).
Proof. destruct s; [apply mo_istring | reflexivity]. Qed.
Lemma mo_astring s : e_astring (x_astring i g s) = mm (e_astring s).
Proof. destruct s; [cbn; now rewrite x_str_id, mm_bytes | apply mo_istring]. Qed.
Lemma mo_nstring8 s : e_nstring8 (x_nstring8 i g s) = mm (e_nstring8 s).
Proof. destruct s; [apply mo_nstring | apply mo_literal8]. Qed.
Lemma mo_mailbox s : e_mailbox (x_mailbox i g s) = mm (e_mailbox s).
Proof. destruct s; [reflexivity | apply mo_astring]. Qed.
Lemma mo_list_mailbox s : e_list_mailbox (x_list_mailbox i g s) = mm (e_list_mailbox s).
Proof. destruct s; [cbn; now rewrite x_str_id, mm_bytes | apply mo_istring]. Qed.

Ltac mo := repeat first
  [ rewrite mm_app | rewrite mm_W | rewrite mm_paren | rewrite x_str_id
  | rewrite mo_istring | rewrite mo_nstring | rewrite mo_astring | rewrite mo_nstring8 | rewrite mo_mailbox
  | rewrite mo_list_mailbox | rewrite mo_lit_or_lit8
  | rewrite mm_num | rewrite mm_bytes | rewrite mm_sequence_set | rewrite mm_date | rewrite mm_date_time | rewrite mm_part
  | rewrite mm_delimiter | rewrite mm_charset | rewrite mm_part_dot ].
Lemma mo_params l : e_params (map (x_param i g) l) = mm (e_params l).
Proof. apply mm_list1; [reflexivity |]. intros [a b]. unfold e_pair. cbn [x_param fst snd]. now mo. Qed.
Lemma mo_address a : e_address (x_address i g a) = mm (e_address a).
Proof. unfold e_address, x_address. cbn [ad_name ad_adl ad_mailbox ad_host]. now mo. Qed.
Lemma mo_addresses a : e_addresses (map (x_address i g) a) = mm (e_addresses a).
Proof. apply mm_list1; [reflexivity | exact mo_address]. Qed.
Lemma mo_envelope a : e_envelope (x_envelope i g a) = mm (e_envelope a).
Proof. unfold e_envelope, x_envelope. cbn [env_date env_subject env_from env_sender env_reply_to env_to env_cc env_bcc env_in_reply_to env_message_id]. rewrite !mo_addresses. now mo. Qed.
Lemma mo_basic a : e_basic (x_basic i g a) = mm (e_basic a).
Proof. unfold e_basic, x_basic. cbn [bf_params bf_id bf_description bf_encoding bf_size]. rewrite mo_params. now mo. Qed.
Lemma mo_body_extension b : e_body_extension (x_body_extension i g b) = mm (e_body_extension b).
Proof.
  induction b as [n | n | l IH] using be_ind'; cbn [x_body_extension e_body_extension]; mo; try reflexivity.
  f_equal. apply mm_join_f; [reflexivity | exact IH].
Qed.
Lemma mo_location a : e_location (x_location i g a) = mm (e_location a).
Proof.
  unfold e_location, x_location. cbn [loc_location loc_extensions]. mo. f_equal. apply mm_flat.
  intros x. now rewrite mm_app, mo_body_extension.
Qed.
Lemma mo_tail {A B} (e : A -> list op) (e' : B -> list op) h o :
  (forall x, e' (h x) = mm (e x)) -> e_tail e' (option_map h o) = mm (e_tail e o).
Proof. intros H. apply mm_opt. intros x. now rewrite mm_app, H. Qed.
Lemma mo_language a : e_language (x_language i g a) = mm (e_language a).
Proof.
  unfold e_language, x_language. cbn [lang_language lang_tail]. mo.
  rewrite (mo_tail e_location e_location _ _ mo_location). f_equal. apply mm_list1; [reflexivity | exact mo_istring].
Qed.
Lemma mo_disposition a : e_disposition (x_disposition i g a) = mm (e_disposition a).
Proof.
  unfold e_disposition, x_disposition. cbn [disp_disposition disp_tail]. mo.
  rewrite (mo_tail e_language e_language _ _ mo_language). f_equal.
  destruct (disp_disposition a) as [[s p] |]; [| reflexivity]. cbn [option_map fst snd]. rewrite mo_params. now mo.
Qed.
Lemma mo_single a : e_single_ext (x_single_ext i g a) = mm (e_single_ext a).
Proof.
  unfold e_single_ext, x_single_ext. cbn [se_md5 se_tail]. mo.
  now rewrite (mo_tail e_disposition e_disposition _ _ mo_disposition).
Qed.
Lemma mo_multi a : e_multi_ext (x_multi_ext i g a) = mm (e_multi_ext a).
Proof.
  unfold e_multi_ext, x_multi_ext. cbn [me_params me_tail]. mo. rewrite mo_params.
  now rewrite (mo_tail e_disposition e_disposition _ _ mo_disposition).
Qed.
Lemma mo_body b : e_body (x_body i g b) = mm (e_body b).
Proof.
  induction b as [b t s x | b s n0 x | b e c n0 x IH | l s x IH] using body_ind'; cbn [x_body e_body]; rewrite mm_paren; f_equal.
  - rewrite (mo_tail e_single_ext e_single_ext _ _ mo_single), mo_basic. now mo.
  - rewrite (mo_tail e_single_ext e_single_ext _ _ mo_single), mo_basic. now mo.
  - rewrite (mo_tail e_single_ext e_single_ext _ _ mo_single), mo_basic, mo_envelope, IH. now mo.
  - rewrite (mo_tail e_multi_ext e_multi_ext _ _ mo_multi). mo. f_equal. now apply mm_flat_f.
Qed.
Lemma mo_section s : e_section (x_section i g s) = mm (e_section s).
Proof.
  destruct s; cbn [x_section e_section]; mo; try reflexivity; do 3 f_equal;
    unfold joinsp; apply mm_join; try reflexivity; exact mo_astring.
Qed.
Lemma mo_item_name s : e_item_name (x_item_name i g s) = mm (e_item_name s).
Proof.
  destruct s as [| s p k | | | | | | | | | | s p k | s |]; cbn [x_item_name e_item_name]; mo; try reflexivity.
  - rewrite (mm_opt e_section e_section _ _ mo_section), (mm_opt_id e_partial _ mm_partial). now destruct k.
  - rewrite (mm_opt_id e_partial _ mm_partial). now destruct k.
Qed.
Lemma mo_items s : e_macro_or_items (x_macro_or_items i g s) = mm (e_macro_or_items s).
Proof.
  destruct s as [m | l]; cbn [x_macro_or_items e_macro_or_items]; [unfold e_macro; now mo |].
  destruct l as [| x [| y l]]; [reflexivity | apply mo_item_name |]. rewrite mm_paren. cbn [map]. f_equal.
  unfold joinsp. exact (mm_join spc e_item_name e_item_name (x_item_name i g) (x :: y :: l) eq_refl mo_item_name).
Qed.
Lemma mo_search_key k : e_search_key (x_search_key i g k) = mm (e_search_key k).
Proof.
  induction k as [l IH | k IH | a b IHa IHb | k Hk] using key_ind'; cbn [x_search_key e_search_key].
  - rewrite mm_paren. f_equal. now apply mm_join_f.
  - rewrite IH. now mo.
  - rewrite IHa, IHb. now mo.
  - destruct k; try contradiction; cbn [x_search_key e_search_key]; mo; try reflexivity.
    destruct entry as [[af t] |]; [| reflexivity]. cbn [option_map fst snd]. rewrite x_af_id. now mo.
Qed.
Lemma mo_entry_value s : e_entry_value (x_entry_value i g s) = mm (e_entry_value s).
Proof. unfold e_entry_value, x_entry_value. cbn [ev_entry ev_value]. now mo. Qed.
Lemma mo_id_params p : e_id_params (option_map (map (x_id_param i g)) p) = mm (e_id_params p).
Proof.
  destruct p as [[| x l] |]; [| | reflexivity].
  - cbn. now destruct quirk_id_empty_to_nil.
  - cbn [option_map map e_id_params]. rewrite mm_paren. f_equal. unfold joinsp.
    apply (mm_join spc (e_pair e_istring e_nstring) (e_pair e_istring e_nstring) (x_id_param i g) (x :: l) eq_refl).
    intros [a b]. unfold e_pair. cbn [x_id_param fst snd]. now mo.
Qed.

(** Messages *)
Hint Rewrite mm_app mm_W mm_paren x_str_id mo_istring mo_nstring mo_astring mo_nstring8 mo_mailbox mo_list_mailbox
  mo_lit_or_lit8 mm_num mm_bytes mm_sequence_set mm_date mm_date_time mm_part mm_delimiter mm_charset mm_part_dot
  mo_items mo_id_params mm_uid_set mo_envelope mo_body mo_section : mo.
Hint Rewrite (fun l => id_map _ l x_flag_id) (fun l => id_map _ l x_flag_fetch_id) (fun l => id_map _ l x_flag_perm_id)
  (fun l => id_map _ l x_flag_name_id) (fun l => id_map _ l x_ce_id) (fun l => id_map _ l x_qg_id)
  (fun l => id_map _ l x_qs_id) (fun l => id_map _ l x_capability_id)
  (fun l => id_omap _ l x_charset_id) (fun l => id_omap _ l x_code_id)
  (fun l => id_omap i l (fun b => eq_refl)) x_mech_id x_charset_id x_ta_id : mo.
Lemma mm_spc : mm spc = spc. Proof. reflexivity. Qed.
Lemma mm_crlf : mm e_crlf = e_crlf. Proof. reflexivity. Qed.
Lemma mm_uid u : mm (e_uid u) = e_uid u. Proof. now destruct u. Qed.
Lemma mo_joinsp {A B} (e : A -> list op) (e' : B -> list op) h l :
  (forall x, e' (h x) = mm (e x)) -> joinsp e' (map h l) = mm (joinsp e l).
Proof. intros H. now apply mm_join. Qed.
Lemma mm_joinsp {A} (e : A -> list op) l : (forall x, mm (e x) = e x) -> mm (joinsp e l) = joinsp e l.
Proof. intros H. now apply mm_join_id. Qed.
Lemma mm_flag x : mm (e_flag x) = e_flag x. Proof. apply mm_W. Qed.
Lemma mm_flag_fetch x : mm (e_flag_fetch x) = e_flag_fetch x. Proof. destruct x; apply mm_W. Qed.
Lemma mm_flag_perm x : mm (e_flag_perm x) = e_flag_perm x. Proof. destruct x; apply mm_W. Qed.
Lemma mm_quota_set x : mm (e_quota_set x) = e_quota_set x.
Proof. unfold e_quota_set, e_resource. now autorewrite with mo. Qed.
Lemma mm_quota_get x : mm (e_quota_get x) = e_quota_get x.
Proof. unfold e_quota_get, e_resource. now autorewrite with mo. Qed.
Hint Rewrite mm_spc mm_crlf mm_uid (fun l => mm_joinsp _ l mm_status_name) (fun l => mm_joinsp _ l mm_flag)
  (fun l => mm_joinsp _ l mm_sort) (fun l => mm_joinsp _ l mm_store_modifier) (fun l => mm_joinsp e_capability_enable l (fun x => mm_W _))
  (fun l => mm_joinsp _ l mm_quota_set) (fun l => mm_joinsp _ l mm_quota_get) (fun l => mm_joinsp _ l mm_status_item)
  (fun l => mm_joinsp _ l mm_flag_fetch) (fun l => mm_joinsp _ l mm_flag_perm)
  (fun l => mm_joinsp e_flag_name l (fun x => mm_W _)) (fun l => mm_joinsp e_capability l (fun x => mm_W _))
  (fun l => mm_joinsp _ l mm_charset) (fun l => mm_joinsp _ l mm_num)
  (fun l => mm_opt_list_id _ l mm_select) (fun l => mm_opt_list_id _ l mm_flag) (fun l => mm_opt_list_id _ l mm_fetch_modifier)
  (fun l => mm_opt_list_id _ l mm_gm)
  (fun l => mo_joinsp _ _ _ l mo_search_key) (fun l => mo_joinsp _ _ _ l mo_entry_value) (fun l => mo_joinsp _ _ _ l mo_astring)
  (fun l => mo_joinsp _ _ _ l mo_istring) : mo.
Lemma mo_command_body c : e_command_body (x_command_body i g c) = mm (e_command_body c).
Proof.
  destruct c; cbn [x_command_body e_command_body]; unfold e_compression, e_threading_algorithm; autorewrite with mo; try reflexivity.
  - destruct ir as [[| b d] |]; autorewrite with mo; reflexivity.
  - do 3 f_equal. f_equal. rewrite (mm_opt_id (fun d => spc ++ e_date_time d)); [reflexivity |].
    intros x. now autorewrite with mo.
  - rewrite (mm_opt_id (fun c => W (bs " CHARSET ") ++ e_charset c)); [reflexivity |].
    intros x. now autorewrite with mo.
  - destruct mods, kind, resp; autorewrite with mo; reflexivity.
  - destruct entries as [| x [| y l]]; cbn [map].
    + reflexivity.
    + now autorewrite with mo.
    + now autorewrite with mo.
Qed.
Lemma mo_command c : e_command (x_command i g c) = mm (e_command c).
Proof. unfold e_command, x_command. cbn [cmd_tag cmd_body]. rewrite mo_command_body. now autorewrite with mo. Qed.

Lemma mm_code c : mm (e_code c) = e_code c.
Proof.
  destruct c as [| l | l | | l | | | | n | n | n | s | | | | c | | a b | a b d | | n | s | | | s]; cbn [e_code]; try reflexivity;
    try (destruct l as [| x l]); autorewrite with mo; try reflexivity.
  destruct c; cbn [e_metadata_code]; autorewrite with mo; reflexivity.
Qed.
Lemma mm_code_text c t : mm (e_code_text c t) = e_code_text c t.
Proof.
  unfold e_code_text. rewrite mm_app, mm_bytes, mm_opt_id; [reflexivity |]. intros x. autorewrite with mo. now rewrite mm_code.
Qed.
Lemma mo_status s : e_status (x_status i s) = mm (e_status s).
Proof.
  destruct s as [b | t b | c t]; unfold e_status; cbn [x_status x_status_body sb_kind sb_code sb_text]; autorewrite with mo;
    rewrite ?mm_code_text; try reflexivity; now destruct (sb_kind b).
Qed.
Lemma mo_greeting s : e_greeting (x_greeting i s) = mm (e_greeting s).
Proof.
  unfold e_greeting, x_greeting; cbn [gr_kind gr_code gr_text]; autorewrite with mo; rewrite mm_code_text.
  now destruct (gr_kind s).
Qed.
Lemma mo_message_data_item m : e_message_data_item (x_message_data_item i g m) = mm (e_message_data_item m).
Proof.
  destruct m; cbn [x_message_data_item e_message_data_item]; autorewrite with mo; try reflexivity.
  rewrite (mm_opt e_section e_section _ _ mo_section).
  rewrite (mm_opt_id (fun o => W (bs "<") ++ e_num o ++ W (bs ">"))); [reflexivity |].
  intros x. now autorewrite with mo.
Qed.
Lemma mo_namespace_ext e : e_namespace_ext (x_namespace_ext i g e) = mm (e_namespace_ext e).
Proof. unfold e_namespace_ext, x_namespace_ext; cbn [ne_key ne_values]. now autorewrite with mo. Qed.
Lemma mo_namespace e : e_namespace (x_namespace i g e) = mm (e_namespace e).
Proof.
  unfold e_namespace, x_namespace; cbn [ns_prefix ns_delimiter ns_extensions]. autorewrite with mo.
  now rewrite (mm_flat _ _ _ _ mo_namespace_ext).
Qed.
Lemma mo_namespaces l : e_namespaces (map (x_namespace i g) l) = mm (e_namespaces l).
Proof.
  destruct l as [| x l]; [reflexivity |]. unfold e_namespaces. rewrite mm_paren, <- (mm_flat _ _ _ (x :: l) mo_namespace).
  reflexivity.
Qed.
Lemma mm_modseq m : mm (e_modseq m) = e_modseq m.
Proof. apply mm_opt_id. intros x. now autorewrite with mo. Qed.
Lemma mm_nums l : mm (e_nums l) = e_nums l.
Proof. destruct l; [reflexivity |]. unfold e_nums. now autorewrite with mo. Qed.
Lemma mo_data d : e_data (x_data i g d) = mm (e_data d).
Proof.
  unfold e_data. rewrite mm_app. f_equal.
  destruct d; cbn [x_data]; autorewrite with mo; rewrite ?mm_nums, ?mm_modseq, ?mo_namespaces; try reflexivity.
  - do 2 f_equal. destruct l as [| x l]; [reflexivity |]. rewrite mm_app, mm_spc, (mm_flat_id _ _ mm_thread). reflexivity.
  - now rewrite (mo_joinsp _ _ _ _ mo_message_data_item).
  - rewrite (mm_flat_id (fun c => spc ++ e_capability_enable c)); [reflexivity |].
    intros x. unfold e_capability_enable. now autorewrite with mo.
  - f_equal. f_equal. apply mm_flat. intros x. now autorewrite with mo.
  - destruct items as [l | l]; cbn [x_metadata_response e_metadata_response]; now autorewrite with mo.
  - now destruct earlier.
Qed.
Lemma mo_response r : e_response (x_response i g r) = mm (e_response r).
Proof.
  destruct r as [c | d | s]; cbn [x_response e_response]; [| apply mo_data | apply mo_status].
  destruct c; cbn [x_continuation e_continuation]; autorewrite with mo; rewrite ?mm_code_text; reflexivity.
Qed.

(** Fragments *)
Lemma announcement_header is8 m n : lit_header is8 m n = announcement is8 m n.
Proof. now destruct is8, m. Qed.
Lemma frags_remoded l : forall acc, remoded g (frags acc l) (frags acc (mm l)).
Proof.
  induction l as [| o l IH]; intros acc.
  - cbn. destruct acc; constructor.
  - destruct o as [b | is8 m d]; cbn [map op_mode frags]; [apply IH |].
    rewrite !announcement_header. now constructor.
Qed.
Lemma fragments_remoded l : remoded g (fragments l) (fragments (mm l)).
Proof. rewrite !fragments_frags. apply frags_remoded. Qed.
End ModeFacts.
