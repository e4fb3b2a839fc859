(** What servers send is documented: lemmas for each part of greetings and responses. *)

From Verif Require Import Bytes BytesFacts Dec Features Nom Types Utf8 Conv SeqSet SeqFacts Base64 Date EncodeCtx Encode EncodeFacts
  Valid ValidFacts QuotedFacts ValueSpec ValueFacts RoundTripSpec AbnfSpec AbnfFacts SentSpec SentFacts SentCmd.
Open Scope N_scope.
Open Scope abnf_scope.

Section Resp.
Context {F : features}.
Local Notation D := (derives false false).

(** ** Lists *)
Lemma join_flat {A} (e : A -> list op) x l : spc ++ joinsp e (x :: l) = flat_map (fun y => spc ++ e y) (x :: l).
Proof.
  revert x. induction l as [| y l IH]; intros x; [cbn [flat_map]; now rewrite app_nil_r |].
  change (joinsp e (x :: y :: l)) with (e x ++ spc ++ joinsp e (y :: l)). rewrite IH. cbn [flat_map]. now rewrite !app_assoc.
Qed.
Lemma l_list1 {A} (v : A -> bool) a (e : A -> list op) l : forallb v l = true -> (forall x, v x = true -> Sent a (e x)) ->
  Sent ("(" ^ (a ^ Many (SP ^ a)) ^ ")" / Nil) (list1_or_nil spc e l).
Proof.
  intros V S. destruct l as [| x l]; cbn [list1_or_nil]; [sent |].
  assert (X : Sent (a ^ Many (SP ^ a)) (joinsp e (x :: l))) by now apply (l_joinsp1 v). unfold joinsp in X. sent.
Qed.
Lemma join_nil {A} (e : A -> list op) l : join [] e l = flat_map e l.
Proof.
  induction l as [| x l IH]; [reflexivity |]. cbn [join flat_map]. rewrite <- IH. destruct l; [cbn [join]; now rewrite app_nil_r | reflexivity].
Qed.
Lemma l_list1' {A} (v : A -> bool) a (e : A -> list op) l : forallb v l = true -> (forall x, v x = true -> Sent a (e x)) ->
  Sent ("(" ^ some a ^ ")" / Nil) (list1_or_nil [] e l).
Proof.
  intros V S. destruct l as [| x l]; cbn [list1_or_nil]; [sent |]. rewrite join_nil.
  assert (X : Sent (some a) (flat_map e (x :: l))) by (apply l_some_flat; [now apply (forallb_Sent v) | easy]). sent.
Qed.

(** ** Flags, capabilities *)
Lemma l_flag_fetch lv f : v_flag_fetch lv f = true -> Sent FlagFetch (e_flag_fetch f).
Proof. intros V. destruct f; cbn [v_flag_fetch e_flag_fetch] in *; conj; sent. Qed.
Lemma l_flag_perm f : v_flag_perm f = true -> Sent FlagPerm (e_flag_perm f).
Proof. intros V. destruct f; cbn [v_flag_perm e_flag_perm] in *; conj; sent. Qed.
Lemma l_oflag a : atom_ok a = true -> Sent MbxListOflag (W (bBS :: a)).
Proof. intros V. sent. Qed.
Lemma l_flag_name f : v_flag_name f = true -> Sent MbxListOflag (e_flag_name f).
Proof.
  intros V. unfold e_flag_name. destruct f; cbn [flag_name_attribute_str v_flag_name] in *; conj; apply l_oflag; (reflexivity || assumption).
Qed.
Lemma l_flag_names l : forallb v_flag_name l = true -> Sent (opt MbxListFlags) (joinsp e_flag_name l).
Proof.
  intros V. destruct l as [| x l]; [intros _; apply d_or_l, d_eps |]. intros K. apply d_or_r, d_ref. cbn [rules]. apply d_or_r. revert K.
  apply (l_joinsp1 v_flag_name); [assumption |]. apply l_flag_name.
Qed.
Lemma l_delimiter d : vopt quoted_char_ok d = true -> Sent (DQUOTE ^ QuotedChar ^ DQUOTE / Nil) (e_delimiter d).
Proof. intros V. destruct d; cbn [vopt e_delimiter] in *; sent. Qed.
Lemma atom_app a b : forallb is_atom_char a = true -> atom_ok b = true -> atom_ok (a ++ b) = true.
Proof.
  intros H G. destruct b as [| x b]; [discriminate |]. unfold atom_ok in *. destruct (a ++ x :: b) eqn:E; [now destruct a |].
  rewrite <- E, forallb_app, H. exact G.
Qed.
Lemma l_capability lv c : v_capability lv c = true -> Sent Capability (e_capability c).
Proof.
  intros V K. apply d_ref. cbn [rules]. apply d_or_r. revert K. unfold e_capability. apply l_atom.
  destruct c as [| m | | | | | | | | a | | r | | | | | | | [a |] | a | | | | | | | | k |]; cbn [v_capability capability_str] in *; try reflexivity.
  - apply atom_app; [reflexivity |]. destruct m; try reflexivity. cbn [v_auth_mechanism] in V. now conj.
  - now destruct a.
  - conj. apply atom_app; [reflexivity |]. destruct r; try reflexivity. cbn [v_resource] in *. now conj.
  - apply atom_app; [reflexivity |]. destruct a; try reflexivity. cbn [v_sort_algorithm] in *. now conj.
  - apply atom_app; [reflexivity |]. destruct a; try reflexivity. cbn [v_threading_algorithm] in *. now conj.
  - now destruct k.
  - now conj.
Qed.
Lemma l_capabilities lv l : v1 (v_capability lv) l = true -> In CapImap4Rev1 l ->
  Sent CapabilityData (W (bs "CAPABILITY ") ++ joinsp e_capability l).
Proof.
  intros V I. unfold v1 in V. conj. assert (E : W (bs "CAPABILITY ") ++ joinsp e_capability l = W (bs "CAPABILITY") ++ flat_map (fun c => spc ++ e_capability c) l).
  { destruct l as [| x l]; [discriminate |]. rewrite <- join_flat. reflexivity. }
  rewrite E. clear E. apply in_split in I as (a & b & ->). rewrite forallb_app in H0. cbn [forallb] in H0. conj.
  rewrite flat_map_app. cbn [flat_map].
  assert (A : Sent (Many (SP ^ Capability)) (flat_map (fun c => spc ++ e_capability c) a)) by (apply (l_flat_sp (v_capability lv)); [assumption | apply l_capability]).
  assert (B : Sent (Many (SP ^ Capability)) (flat_map (fun c => spc ++ e_capability c) b)) by (apply (l_flat_sp (v_capability lv)); [assumption | apply l_capability]).
  change (e_capability CapImap4Rev1) with (W (bs "IMAP4REV1")). revert A B.
  generalize (flat_map (fun c => spc ++ e_capability c) a) (flat_map (fun c => spc ++ e_capability c) b). intros x y A B. sent.
Qed.
Hint Resolve l_flag_fetch l_flag_perm l_flag_names l_delimiter l_capability : sent.

(** ** Codes *)
Lemma l_metadata_code c : v_metadata_code c = true -> Sent MetadataCode (e_metadata_code c).
Proof. intros V. destruct c; cbn [v_metadata_code e_metadata_code] in *; sent. Qed.
Lemma l_uid_element u : v_uid_element u = true -> Sent (Uniqueid / UidRange) (e_uid_element u).
Proof. intros V. destruct u; cbn [v_uid_element e_uid_element] in *; conj; sent. Qed.
Lemma l_uid_set s : v_uid_set s = true -> Sent UidSet (e_uid_set s).
Proof.
  intros V K. apply d_ref. cbn [rules]. unfold v_uid_set, v1 in V. conj. apply (l_join _ (bs ",")); [reflexivity | | now apply nonempty_ne | assumption].
  apply (forallb_Sent v_uid_element); [assumption |]. apply l_uid_element.
Qed.
Hint Resolve l_metadata_code l_uid_set : sent.
Ltac pick := first [assumption | apply d_or_l; pick | apply d_or_r; pick].
Lemma D_code a t : D (Atom ^ opt (SP ^ some (Chr (fun b => TEXT_CHAR b /\ b <> "]"%byte)))) a -> t = a -> D RespTextCode t.
Proof. intros H ->. apply d_ref. cbn [rules]. pick. Qed.
Lemma D_atom a : some_of ATOM_CHAR a -> D Atom a.
Proof. intros H. apply d_ref. cbn [rules]. now apply D_some. Qed.
Lemma D_tail a u : some_of ATOM_CHAR a -> code_tail u -> D (Atom ^ opt (SP ^ some (Chr (fun b => TEXT_CHAR b /\ b <> "]"%byte)))) (a ++ bs " " ++ u).
Proof.
  intros H G. apply d_cat; [now apply D_atom |]. apply d_or_r. apply d_cat; [| now apply D_some]. apply d_str. now apply letters_fixed.
Qed.
Lemma l_code lv o c t : v_code lv o c t = true -> doc_code (Some c) -> Sent RespTextCode (e_code c).
Proof.
  intros V S. destruct c as [| l | l | | | | | | | | | | | | | | | | | | | | | |]; cbn [v_code] in V; conj; cbn [e_code doc_code] in *; try solve [sent].
  - destruct l as [| x l]; [sent |]. assert (X : v1 v_charset (x :: l) = true) by exact V. sent.
  - intros K. apply (l_capabilities lv) in S; [| assumption]. specialize (S K). apply d_ref. cbn [rules]. pick.
  - intros _. rewrite dump_app, !dump_W. eapply D_code; [| reflexivity]. change (bs "REFERRAL ") with (bs "REFERRAL" ++ bs " "). rewrite <- app_assoc.
    apply D_tail; [| assumption]. now apply atom_ok_spec.
  - intros _. rewrite !dump_W. eapply D_code; [| reflexivity]. destruct S as [S | (a & u & -> & A & U)]; [| now apply D_tail].
    rewrite <- (app_nil_r b). apply d_cat; [now apply D_atom | apply d_or_l, d_eps].
Qed.
Lemma l_known_code lv o c t : v_code lv o c t = true -> doc_code (Some c) -> known_code c -> Sent known_codes (e_code c).
Proof.
  intros V S X. unfold known_codes. cbn [rules].
  destruct c as [| l | l | | | | | | | | | | | | | | | | | | | | | |]; cbn [v_code] in V; conj; cbn [e_code doc_code known_code] in *; try contradiction; try solve [sent].
  - destruct l as [| x l]; [sent |]. assert (Y : v1 v_charset (x :: l) = true) by exact V. sent.
  - intros K. apply (l_capabilities lv) in S; [| assumption]. specialize (S K). pick.
Qed.
Hint Resolve l_code : sent.
Lemma l_code_text lv o c t : v_code_text lv o c t = true -> doc_code c -> Sent RespText (e_code_text c t).
Proof. intros V S. unfold v_code_text in V. conj. unfold e_code_text. destruct c; sent. Qed.
Hint Resolve l_code_text : sent.

(** ** Envelopes and bodies *)
Lemma l_address lv a : v_address lv a = true -> Sent Address (e_address a).
Proof. intros V. unfold v_address in V. conj. unfold e_address. sent. Qed.
Hint Resolve l_address : sent.
Lemma l_addresses lv l : v_addresses lv l = true -> Sent ("(" ^ some Address ^ ")" / Nil) (e_addresses l).
Proof. intros V. apply (l_list1' (v_address lv)); [exact V | apply l_address]. Qed.
Hint Resolve l_addresses : sent.
Lemma l_envelope lv e : v_envelope lv e = true -> Sent Envelope (e_envelope e).
Proof. intros V. unfold v_envelope in V. conj. unfold e_envelope. sent. Qed.
Hint Resolve l_envelope : sent.
Lemma l_pair lv p : vpair (v_istring lv) (v_istring lv) p = true -> Sent (String_ ^ SP ^ String_) (e_pair e_istring e_istring p).
Proof. intros V. conj. unfold e_pair. sent. Qed.
Lemma l_params lv l : v_params lv l = true -> Sent BodyFldParam (e_params l).
Proof.
  intros V K. apply d_ref. cbn [rules]. apply d_or_l. revert K. apply (l_list1 (vpair (v_istring lv) (v_istring lv))); [exact V |]. apply l_pair.
Qed.
Hint Resolve l_params : sent.
Lemma l_basic lv b : v_basic lv b = true -> Sent BodyFields (e_basic b).
Proof. intros V. unfold v_basic in V. conj. unfold e_basic. sent. Qed.
Hint Resolve l_basic : sent.
Lemma l_extension lv b : v_body_extension lv b = true -> forall n, Sent (BodyExtension n) (e_body_extension b).
Proof.
  induction b as [s | m | l IH] using be_ind'; intros V n; cbn [v_body_extension e_body_extension] in *; [sent | sent |].
  conj. assert (X : forall m, Sent (BodyExtension m ^ Many (SP ^ BodyExtension m)) (join spc e_body_extension l)).
  { intros m. apply l_joinsp; [| now apply nonempty_ne]. rewrite forallb_forall in H0. rewrite Forall_forall in *. intros k I. apply IH; auto. }
  sent.
Qed.
Lemma l_location lv l : v_location lv l = true -> Sent (BodyFldLoc ^ Many (SP ^ BodyExtension 7)) (e_location l).
Proof.
  intros V. unfold v_location in V. conj. unfold e_location.
  assert (X : Sent (Many (SP ^ BodyExtension 7)) (flat_map (fun b => spc ++ e_body_extension b) (loc_extensions l))).
  { eapply l_flat_sp; [eassumption |]. cbv beta. intros x V. conj. now apply (l_extension lv). }
  sent.
Qed.
Hint Resolve l_location : sent.
Lemma l_language lv l : v_language lv l = true -> Sent (BodyFldLang ^ opt (SP ^ BodyFldLoc ^ Many (SP ^ BodyExtension 7))) (e_language l).
Proof.
  intros V. unfold v_language in V. conj. unfold e_language, e_tail.
  assert (X : Sent BodyFldLang (list1_or_nil spc e_istring (lang_language l))).
  { destruct (lang_language l) as [| x xs]; cbn [list1_or_nil]; [sent |].
    assert (X : Sent (String_ ^ Many (SP ^ String_)) (joinsp e_istring (x :: xs))) by (apply (l_joinsp1 (v_istring lv)); [assumption | apply l_istring]).
    unfold joinsp in X. sent. }
  destruct (lang_tail l); cbn [vopt] in *; sent.
Qed.
Hint Resolve l_language : sent.
Lemma l_disposition lv d : v_disposition lv d = true ->
  Sent (BodyFldDsp ^ opt (SP ^ BodyFldLang ^ opt (SP ^ BodyFldLoc ^ Many (SP ^ BodyExtension 7)))) (e_disposition d).
Proof.
  intros V. unfold v_disposition in V. conj. unfold e_disposition, e_tail.
  destruct (disp_disposition d) as [[s p] |], (disp_tail d); cbn [vopt] in *; conj; sent.
Qed.
Hint Resolve l_disposition : sent.
Lemma l_single_ext lv d : v_single_ext lv d = true -> Sent BodyExt1part (e_single_ext d).
Proof. intros V. unfold v_single_ext in V. conj. unfold e_single_ext, e_tail. destruct (se_tail d); cbn [vopt] in *; sent. Qed.
Lemma l_multi_ext lv d : v_multi_ext lv d = true -> Sent BodyExtMpart (e_multi_ext d).
Proof. intros V. unfold v_multi_ext in V. conj. unfold e_multi_ext, e_tail. destruct (me_tail d); cbn [vopt] in *; sent. Qed.
Hint Resolve l_single_ext l_multi_ext : sent.

(** A body that is not of type message/rfc822 does not look like one. *)
Lemma escape_end m : Forall (fun b => b <> bDQ /\ b <> bBS) m -> forall a x y, escape_quoted a ++ bDQ :: x = m ++ bDQ :: y -> a = m /\ x = y.
Proof.
  induction 1 as [| b m [N1 N2] Hm IH]; intros a x y E; rewrite escape_quoted_flat in E; destruct a as [| c a]; cbn [flat_map app] in E.
  - split; [reflexivity | congruence].
  - unfold esc_char in E. destruct (is_quoted_specials c) eqn:Q; [discriminate |].
    cbn [app] in E. injection E as E _. subst c. discriminate.
  - congruence.
  - unfold esc_char in E at 1. destruct (is_quoted_specials c) eqn:Q; [cbn [app] in E; congruence |].
    cbn [app] in E. injection E as -> E. rewrite <- escape_quoted_flat in E. apply IH in E as [-> ->]. auto.
Qed.
Lemma letters_plain m s : same_letters m s -> forallb (fun b => negb (beq (lower b) bDQ) && negb (beq (lower b) bBS)) s = true ->
  Forall (fun b => b <> bDQ /\ b <> bBS) m.
Proof.
  induction 1 as [| a b m s H _ IH]; cbn [forallb]; intros G; [constructor |]. apply andb_prop in G as [G1 G2]. constructor; [| auto].
  apply same_letter_spec in H. rewrite <- H in G1. split; intros ->; discriminate.
Qed.
Lemma string_message s m x y : same_letters m (bs "MESSAGE") \/ same_letters m (bs "RFC822") ->
  dump (e_istring s) ++ x = bDQ :: m ++ bDQ :: y -> bytes_of_istring s = m /\ x = y.
Proof.
  intros L E. assert (P : Forall (fun b => b <> bDQ /\ b <> bBS) m) by (destruct L as [L | L]; apply letters_plain in L; auto).
  destruct s as [s | s | [d md]]; cbn [e_istring bytes_of_istring] in *.
  - rewrite dump_e_quoted, <- !app_assoc in E. cbn [app] in E. injection E as E. now apply escape_end in E.
  - rewrite dump_e_quoted, <- !app_assoc in E. cbn [app] in E. injection E as E. now apply escape_end in E.
  - discriminate.
Qed.
Lemma D_not_message t s x : ~ (same_letters (bytes_of_istring t) (bs "MESSAGE") /\ same_letters (bytes_of_istring s) (bs "RFC822")) ->
  not_message (dump (e_istring t) ++ bSP :: dump (e_istring s) ++ x).
Proof.
  intros N k u E L. apply N.
  change (bs """MESSAGE"" ""RFC822""") with ([bDQ] ++ bs "MESSAGE" ++ [bDQ; bSP; bDQ] ++ bs "RFC822" ++ [bDQ]) in L.
  apply Forall2_app_inv_r in L as (k1 & k' & L1 & L & ->). apply Forall2_app_inv_r in L as (m & k2 & L2 & L & ->).
  apply Forall2_app_inv_r in L as (k3 & k4 & L3 & L & ->). apply Forall2_app_inv_r in L as (r & k5 & L4 & L5 & ->).
  apply letters_fixed in L1 as ->; [| reflexivity]. apply letters_fixed in L3 as ->; [| reflexivity]. apply letters_fixed in L5 as ->; [| reflexivity].
  rewrite <- !app_assoc in E. cbn [app] in E. apply string_message in E as [-> E]; [| now left]. injection E as E.
  apply string_message in E as [-> _]; [| now right]. split; assumption.
Qed.
Lemma l_media_basic lv t s b : v_istring lv t = true -> v_istring lv s = true -> v_basic lv b = true ->
  ~ (same_letters (bytes_of_istring t) (bs "MESSAGE") /\ same_letters (bytes_of_istring s) (bs "RFC822")) ->
  Sent BodyTypeBasic (e_istring t ++ spc ++ e_istring s ++ spc ++ e_basic b).
Proof.
  intros V1 V2 V3 N K. apply d_ref. cbn [rules]. apply d_or_l, d_where.
  - revert K. enough (X : Sent (MediaBasic ^ SP ^ BodyFields) (e_istring t ++ spc ++ e_istring s ++ spc ++ e_basic b)) by exact X. sent.
  - rewrite !dump_app. change (dump spc) with [bSP]. now apply D_not_message.
Qed.
Lemma l_body_structure lv b : v_body_structure lv b = true -> doc_body b -> forall n, Sent (Body n) (e_body b).
Proof.
  induction b as [b t s x | b s k x | b e c k x IH | l s x IH] using body_ind'; intros V S n; cbn [v_body_structure] in V; conj.
  - cbn [doc_body] in S. assert (X := l_media_basic lv t s b ltac:(assumption) ltac:(assumption) ltac:(assumption) S). cbn [e_body]. revert X.
    generalize (e_istring t ++ spc ++ e_istring s ++ spc ++ e_basic b). intros o X. unfold e_tail. destruct x; cbn [vopt] in *; sent.
  - cbn [e_body]. unfold e_tail. destruct x; cbn [vopt] in *; sent.
  - cbn [doc_body] in S. specialize (IH ltac:(assumption) S). cbn [e_body]. unfold e_tail. destruct x; cbn [vopt] in *; sent.
  - assert (X : forall m, Sent (some (Body m)) (flat_map e_body l)).
    { intros m. apply l_some_flat; [| now apply nonempty_ne]. cbn [doc_body] in S. clear - IH S H2. induction IH as [| c l Hc _ IH]; [constructor |].
      cbn [forallb] in H2. conj. destruct S as [S1 S2]. constructor; [apply Hc; auto | auto]. }
    cbn [e_body]. unfold e_tail. destruct x; cbn [vopt] in *; sent.
Qed.
Lemma l_any_body lv b n : v_body lv b = true -> doc_body b -> Sent (Body n) (e_body b).
Proof. intros V S. unfold v_body in V. conj. now apply (l_body_structure lv). Qed.
Hint Resolve l_any_body : sent.

(** ** Data *)
Lemma l_value lv n : v_nstring8 lv n = true -> Sent (Nstring / Literal8) (e_nstring8 n).
Proof. intros V K. apply (l_nstring8 lv n V), D_ref in K. exact K. Qed.
Hint Resolve l_value : sent.
Lemma l_item lv i : v_message_data_item lv i = true -> doc_item i -> Sent (MsgAttDynamic / MsgAttStatic) (e_message_data_item i).
Proof.
  intros V S. destruct i; cbn [v_message_data_item] in V; conj; cbn [e_message_data_item doc_item] in *;
    repeat match goal with o : option _ |- _ => destruct o; cbn [vopt] in * end; try contradiction; sent.
Qed.
Lemma l_items lv l : v1 (v_message_data_item lv) l = true -> Forall doc_item l ->
  Sent ((MsgAttDynamic / MsgAttStatic) ^ Many (SP ^ (MsgAttDynamic / MsgAttStatic))) (joinsp e_message_data_item l).
Proof.
  intros V S. unfold v1 in V. conj. apply l_joinsp; [| now apply nonempty_ne]. rewrite forallb_forall in H0. rewrite Forall_forall in *.
  intros i I. apply (l_item lv); auto.
Qed.
Lemma l_status_item i : v_status_item i = true -> match i with SIDeletedStorage n => in63 n | _ => True end -> Sent StatusAttVal (e_status_item i).
Proof. intros V S. destruct i; cbn [v_status_item e_status_item] in *; conj; sent. Qed.
Lemma l_status_items l : forallb v_status_item l = true -> Forall (fun i => match i with SIDeletedStorage n => in63 n | _ => True end) l ->
  Sent (opt StatusAttList) (joinsp e_status_item l).
Proof.
  intros V S. destruct l as [| x l]; [intros _; apply d_or_l, d_eps |]. intros K. apply d_or_r, d_ref. cbn [rules]. revert K. apply l_joinsp; [| easy].
  rewrite forallb_forall in V. rewrite Forall_forall in *. intros i I. specialize (S i I). apply l_status_item; auto.
Qed.
Lemma l_quota q : v_quota_get q = true -> in63 (qg_usage q) /\ in63 (qg_limit q) -> Sent QuotaResource (e_quota_get q).
Proof. intros V [S1 S2]. unfold v_quota_get in V. conj. unfold e_quota_get. sent. Qed.
Lemma l_quotas l : v1 v_quota_get l = true -> Forall (fun q => in63 (qg_usage q) /\ in63 (qg_limit q)) l ->
  Sent (QuotaResource ^ Many (SP ^ QuotaResource)) (joinsp e_quota_get l).
Proof.
  intros V S. unfold v1 in V. conj. apply l_joinsp; [| now apply nonempty_ne]. rewrite forallb_forall in H0. rewrite Forall_forall in *.
  intros q I. apply l_quota; auto.
Qed.
Lemma l_quota_root lv s : v_astring lv s = true -> Sent QuotaRootName (e_astring s).
Proof. intros V. sent. Qed.
Hint Resolve l_items l_status_items l_quotas l_quota_root : sent.
Lemma l_nums l : forallb v_nz32 l = true -> Sent (Many (SP ^ NzNumber)) (e_nums l).
Proof.
  intros V. destruct l as [| x l]; [intros _; apply d_none |]. cbn [e_nums]. rewrite join_flat. apply (l_flat_sp v_nz32); [assumption | apply l_nz].
Qed.
Lemma l_modseq m : match m with Some n => ext_condstore_qresync && v_nz64 n | None => true end = true ->
  Sent (opt (SP ^ SearchSortModSeq)) (e_modseq m).
Proof. intros V. destruct m; unfold e_modseq; conj; sent. Qed.
Hint Resolve l_nums l_modseq : sent.
Lemma l_thread_tree t : v_thread_tree t = true -> forall n, Sent (ThreadList n) (e_thread t).
Proof.
  induction t as [p | p l IH | l IH] using thread_ind'; intros V n; cbn [v_thread_tree] in V; conj.
  - assert (X : Sent (NzNumber ^ Many (SP ^ NzNumber)) (joinsp e_num p)) by (apply (l_joinsp1 v_nz32); [assumption | apply l_nz]). cbn [e_thread]. sent.
  - assert (X : Sent (NzNumber ^ Many (SP ^ NzNumber)) (joinsp e_num p)) by (apply (l_joinsp1 v_nz32); [assumption | apply l_nz]).
    assert (Y : forall m, Sent (ThreadList m ^ some (ThreadList m)) (flat_map e_thread l)).
    { intros m. apply l_some2_flat; [| assumption]. rewrite forallb_forall in H0. rewrite Forall_forall in *. intros t I. apply IH; auto. }
    cbn [e_thread]. sent.
  - assert (Y : forall m, Sent (ThreadList m ^ some (ThreadList m)) (flat_map e_thread l)).
    { intros m. apply l_some2_flat; [| assumption]. rewrite forallb_forall in H0. rewrite Forall_forall in *. intros t I. apply IH; auto. }
    cbn [e_thread]. sent.
Qed.
Lemma l_threads lv l : forallb (v_thread lv) l = true -> Sent (opt (SP ^ some (ThreadList 7))) (match l with [] => [] | _ => spc ++ flat_map e_thread l end).
Proof.
  intros V. destruct l as [| x l]; [intros _; apply d_or_l, d_eps |].
  assert (X : Sent (some (ThreadList 7)) (flat_map e_thread (x :: l))).
  { apply l_some_flat; [| easy]. apply (forallb_Sent (v_thread lv)); [assumption |]. intros t T. unfold v_thread in T. conj. now apply l_thread_tree. }
  apply s_enter. norm. apply s_opt, s_cat, s_sp. go.
Qed.
Hint Resolve l_threads : sent.
Lemma l_namespace_ext lv e : v_namespace_ext lv e = true -> Sent NamespaceResponseExtension (e_namespace_ext e).
Proof. intros V. unfold v_namespace_ext in V. conj. unfold e_namespace_ext. sent. Qed.
Lemma l_namespace lv n : v_namespace lv n = true -> Sent NamespaceDescr (e_namespace n).
Proof.
  intros V. unfold v_namespace in V. conj. unfold e_namespace.
  assert (X : Sent (Many NamespaceResponseExtension) (flat_map e_namespace_ext (ns_extensions n))).
  { apply l_flat. apply (forallb_Sent (v_namespace_ext lv)); [assumption |]. apply l_namespace_ext. }
  sent.
Qed.
Lemma l_namespaces lv l : forallb (v_namespace lv) l = true -> Sent Namespaces (e_namespaces l).
Proof.
  intros V. destruct l as [| x l]; cbn [e_namespaces]; [sent |].
  assert (X : Sent (some NamespaceDescr) (flat_map e_namespace (x :: l))).
  { apply l_some_flat; [| easy]. apply (forallb_Sent (v_namespace lv)); [assumption |]. apply l_namespace. }
  sent.
Qed.
Hint Resolve l_namespaces : sent.
Lemma l_metadata_response lv r : v_metadata_response lv r = true -> Sent (EntryValues / EntryList) (e_metadata_response r).
Proof. intros V. destruct r; cbn [v_metadata_response e_metadata_response] in *; sent. Qed.
Hint Resolve l_metadata_response : sent.

(** ** Messages *)
Lemma l_greeting lv o g : v_greeting lv o g = true -> doc_greeting g -> regular (fragments (e_greeting g)) -> D Greeting (dump (e_greeting g)).
Proof.
  intros V S R. unfold v_greeting, doc_greeting in *. unfold e_greeting in *. rewrite !app_assoc in *. apply s_message; [| assumption].
  rewrite <- !app_assoc. destruct (gr_kind g); cbn [e_greeting_kind]; norm; apply s_ref; cbn [rules]; go.
Qed.
Lemma l_status lv o s : v_status lv o s = true -> doc_response (RStatus s) -> regular (fragments (e_status s)) -> D Response (dump (e_status s)).
Proof.
  intros V S R. unfold e_status in *. apply s_message; [| assumption]. clear R.
  destruct s as [[k c t] | g [k c t] | c t]; cbn [v_status doc_response sb_code sb_text sb_kind] in *; unfold v_status_body in *; conj;
    cbn [sb_code sb_text] in *; try destruct k; cbn [e_status_kind]; norm; apply s_ref; cbn [rules]; go.
Qed.
Lemma l_data lv d : v_data lv d = true -> doc_data d -> regular (fragments (e_data d)) -> D Response (dump (e_data d)).
Proof.
  intros V S R. unfold e_data in *. apply s_message; [| assumption]. clear R.
  destruct d; cbn [v_data doc_data] in *; conj; try solve [norm; apply s_ref; cbn [rules]; go].
  - pose proof (l_capabilities lv l V S) as X. change (W (bs "* CAPABILITY ")) with (W (bs "* ") ++ W (bs "CAPABILITY ")). rewrite <- (app_assoc (W (bs "* "))).
    revert X. generalize (W (bs "CAPABILITY ") ++ joinsp e_capability l). intros o X. norm. apply s_ref. cbn [rules]. go.
  - pose proof (l_threads lv l V) as X. revert X. generalize (match l with [] => [] | _ => spc ++ flat_map e_thread l end). intros o X.
    norm. apply s_ref. cbn [rules]. go.
  - pose proof (l_flat_sp _ Capability _ _ V l_enable) as X. revert X. generalize (flat_map (fun c => spc ++ e_capability_enable c) caps). intros o X.
    norm. apply s_ref. cbn [rules]. go.
  - pose proof (l_flat_sp _ QuotaRootName _ _ H0 (l_quota_root lv)) as X. revert X. generalize (flat_map (fun c => spc ++ e_astring c) roots). intros o X.
    norm. apply s_ref. cbn [rules]. go.
  - destruct earlier; norm; apply s_ref; cbn [rules]; go.
Qed.
Lemma l_continuation lv o c : v_continuation lv o c = true -> doc_response (RContinue c) -> regular (fragments (e_continuation c)) ->
  D Response (dump (e_continuation c)).
Proof.
  intros V S R. destruct c as [c t | d]; cbn [e_continuation doc_response] in *; rewrite !app_assoc in *; (apply s_message; [| assumption]); clear R.
  - unfold e_code_text. rewrite <- !app_assoc. destruct c as [c |]; cbn [v_continuation] in V; conj; norm; apply s_ref; cbn [rules]; go.
  - norm. apply s_ref. cbn [rules]. go.
Qed.
Lemma l_response lv o r : v_response lv o r = true -> doc_response r -> regular (fragments (e_response r)) -> D Response (dump (e_response r)).
Proof.
  intros V S R. destruct r; cbn [v_response e_response] in *; [now apply (l_continuation lv o) | now apply (l_data lv) | now apply (l_status lv o)].
Qed.
End Resp.
