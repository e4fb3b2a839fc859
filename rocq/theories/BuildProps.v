(** C43 for the remaining command constructors, and C49: the constructors of responses.
    The specification is ValueSpec.v. [BadArg i e] is the error [e] of the [i]-th argument. *)

From Verif Require Import Bytes BytesFacts Dec Features Nom Types Utf8 Conv SeqSet Base64 Date
  EncodeCtx Encode EncodeFacts EncodeApi ParseCore ParseCmd ParseResp Decode DecodeSpec Valid ValidFacts
  RoundTripSpec WrittenFacts EncFragFacts RoundTripProps OtherCode Ctors ValueSpec ValueFacts ValueProps SeqSpec SeqFacts SeqText SeqProps.
Open Scope nat_scope.

(** A text of the grammar of sequence sets that stands for a set; and one that does not. *)
Definition wrong_set (s : bytes) : Prop :=
  ~ In "+"%byte s /\ forall x, ~ sequence_set_text s x.

Section Build.
Context {F : features}.
Notation fits s := (lenN s <= u32_max)%N.
Definition sent_as (c d : command) : Prop := decodes_to encode_command decode_command c d.

(** ** Helpers *)
Lemma set_conv s x : sequence_set_text s x -> sequence_set_conv s = COk x.
Proof. intros H. unfold sequence_set_conv. now rewrite (C30_from_str_accepts s x H). Qed.
Lemma set_conv_wrong s : wrong_set s -> sequence_set_conv s = CErr VInvalid.
Proof.
  intros [P W]. unfold sequence_set_conv. destruct (sequence_set_from_str s) as [x |] eqn:E; [| reflexivity].
  exfalso. apply (W x). now apply C30_from_str.
Qed.
Lemma mailbox_built_d s : many_of CHAR8 s -> fits s ->
  exists m, mailbox_from_bytes s = COk m /\ names_mailbox s m /\ v_mailbox LDecoded m = true.
Proof.
  intros H L. destruct (mailbox_built s H L) as (m & E & N & V). exists m. repeat split; auto.
Qed.
Lemma astring_built_d s : many_of CHAR8 s -> fits s ->
  exists a, astring_from_bytes s = COk a /\ bytes_of_astring a = s /\ v_astring LDecoded a = true.
Proof.
  intros H L. destruct (astring_built s H L) as (m & E & N & V). exists m. repeat split; auto.
Qed.
Lemma tagged_d tag b : some_of TAG_CHAR tag -> v_command_body LDecoded b = true ->
  command_new tag b = Built (mkCommand tag b) /\ sent_as (mkCommand tag b) (mkCommand tag (w_command_body b)).
Proof.
  intros T V. unfold command_new. rewrite (proj1 tag_conv tag T). split; [reflexivity |].
  apply C09_command. unfold v_command. cbn [cmd_tag cmd_body]. rewrite V. apply andb_true_iff. split; [| reflexivity].
  now apply tag_ok_spec.
Qed.
Lemma set_valid s x : sequence_set_text s x -> v_sequence_set LDecoded x = true.
Proof.
  assert (A : forall s a, seq_number_text s a -> v_seq_or_uid a = true).
  { intros u [n |] H; [| reflexivity]. cbn [seq_number_text v_seq_or_uid] in *. pose proof (number_text_pos _ _ H). unfold v_nz32.
    destruct H as (_ & _ & _ & _ & H). apply andb_true_iff. split; [| now apply N.leb_le].
    apply negb_true_iff. now apply N.eqb_neq. }
  assert (B : forall s q, sequence_text s q -> v_sequence q = true).
  { intros u [a | a b] H; cbn in H |- *; [eauto |]. destruct H as (? & ? & _ & H1 & H2). apply andb_true_iff. eauto. }
  assert (C : forall l s, sequence_set_text s l -> l <> [] /\ forallb v_sequence l = true).
  { induction l as [| q l IH]; intros u H; [destruct H |]. split; [discriminate |]. cbn [forallb].
    destruct l as [| q' l]; [cbn in H; rewrite (B _ _ H); reflexivity |].
    destruct H as (v & w & _ & H1 & H2). rewrite (B _ _ H1). now apply IH in H2. }
  intros H. apply C in H as [Hn H]. unfold v_sequence_set, v1. rewrite H. destruct x; [congruence | reflexivity].
Qed.
Lemma nonempty_list {A} (l : list A) : l <> [] -> vec_n_from 1 l = COk l.
Proof. intros H. apply C26_vec_n. destruct l; [congruence | cbn; lia]. Qed.
Lemma nz_conv n : n <> 0%N -> nz_from n = COk n.
Proof. intros H. unfold nz_from. now apply N.eqb_neq in H as ->. Qed.
Lemma v1_forall {A} (v : A -> bool) l : l <> [] -> Forall (fun a => v a = true) l -> v1 v l = true.
Proof.
  intros Hn H. unfold v1. assert (forallb v l = true) as -> by (rewrite forallb_forall; now rewrite Forall_forall in H).
  destruct l; [congruence | reflexivity].
Qed.
Lemma v_forall {A} (v : A -> bool) l : Forall (fun a => v a = true) l -> forallb v l = true.
Proof. intros H. rewrite forallb_forall. now rewrite Forall_forall in H. Qed.
Lemma gated_nil {A} f (v : A -> bool) : v_gated f v [] = true.
Proof. unfold v_gated. cbn. now rewrite orb_true_r. Qed.

(** ** C43: the tag *)
Theorem C43_tag : forall tag b,
  (some_of TAG_CHAR tag -> command_new tag b = Built (mkCommand tag b)) /\
  (tag = [] -> command_new tag b = BadArg 0 VEmpty) /\
  (forall c i, first_wrong TAG_CHAR tag c i -> command_new tag b = BadArg 0 (VInvalidByteAt c i)).
Proof.
  intros tag b. destruct tag_conv as (H1 & H2 & H3 & _). unfold command_new.
  split; [| split]; [intros H; now rewrite (H1 _ H) | intros ->; now rewrite H2 |].
  intros c i H. now rewrite (H3 _ _ _ H).
Qed.
(** A command that can be sent as it is, with a good tag, is sent with this tag. *)
Theorem C43_sent : forall tag b, some_of TAG_CHAR tag -> v_command_body LDecoded b = true ->
  command_new tag b = Built (mkCommand tag b) /\ sent_as (mkCommand tag b) (mkCommand tag (w_command_body b)).
Proof. exact tagged_d. Qed.

(** ** C43: wrong arguments are named *)
Theorem C43_mailbox_error : forall s b i, first_wrong CHAR8 s b i ->
  let e := BadArg 0 (VInvalidByteAt b i) in
  cb_select s = e /\ cb_examine s = e /\ cb_create s = e /\ cb_delete s = e /\ cb_subscribe s = e /\
  cb_unsubscribe s = e /\ cb_get_quota_root s = e /\
  (forall t, cb_rename s t = e) /\ (forall t, cb_list s t = e) /\ (forall t, cb_lsub s t = e) /\
  (forall l, cb_status s l = e) /\ (forall fl d m, cb_append s fl d m = e).
Proof.
  intros s b i H e. pose proof (C27_convert_error s b i H) as E.
  unfold cb_select, cb_examine, cb_create, cb_delete, cb_subscribe, cb_unsubscribe, cb_get_quota_root, cb_mailbox,
    cb_rename, cb_list, cb_lsub, cb_status, cb_append. rewrite E. now repeat split.
Qed.
Theorem C43_second_error : forall s t b i, many_of CHAR8 s -> first_wrong CHAR8 t b i ->
  let e := BadArg 1 (VInvalidByteAt b i) in
  cb_rename s t = e /\ cb_list s t = e /\ cb_lsub s t = e /\ (forall fl d, cb_append s fl d t = e).
Proof.
  intros s t b i Hs H e. destruct (C27_convert s Hs) as (m & E & _).
  unfold cb_rename, cb_list, cb_lsub, cb_append. rewrite E. cbn [with_arg].
  rewrite (C27_convert_error t b i H), (proj2 (C26_list_mailbox t) b i H), (proj1 (proj2 literal_conv) t b i H).
  now repeat split.
Qed.
Theorem C43_quota_error : forall s b i, first_wrong CHAR8 s b i ->
  cb_get_quota s = BadArg 0 (VInvalidByteAt b i) /\
  (forall l, cb_set_quota s l = BadArg 0 (VInvalidByteAt b i)).
Proof.
  intros s b i H. unfold cb_get_quota, cb_set_quota. rewrite (proj2 (C26_astring s) b i H). auto.
Qed.
Theorem C43_set_error : forall s, wrong_set s ->
  (forall it uid, cb_fetch s it uid = BadArg 0 VInvalid) /\
  (forall k r fl uid, cb_store s k r fl uid = BadArg 0 VInvalid) /\
  (forall m uid, cb_copy s m uid = BadArg 0 VInvalid) /\
  (forall m uid, cb_move s m uid = BadArg 0 VInvalid).
Proof.
  intros s H. unfold cb_fetch, cb_store, cb_copy, cb_move. rewrite (set_conv_wrong s H). auto.
Qed.
Theorem C43_copy_error : forall s x m b i uid, sequence_set_text s x -> first_wrong CHAR8 m b i ->
  cb_copy s m uid = BadArg 1 (VInvalidByteAt b i) /\ cb_move s m uid = BadArg 1 (VInvalidByteAt b i).
Proof.
  intros s x m b i uid Hs H. unfold cb_copy, cb_move. rewrite (set_conv s x Hs). cbn [with_arg].
  now rewrite (C27_convert_error m b i H).
Qed.

(** ** C43: good arguments give the command that was asked for, and it can be sent. The set is
    written in its normal form with the quirk [quirk_always_normalize_sequence_sets]. *)
Theorem C43_status : forall tag s items, some_of TAG_CHAR tag -> many_of CHAR8 s -> fits s ->
  Forall (fun i => v_status_name i = true) items ->
  exists m, names_mailbox s m /\
    then_tag tag (cb_status s items) = Built (mkCommand tag (CStatus m items)) /\
    sent (mkCommand tag (CStatus m items)).
Proof.
  intros tag s items T H L Hi. destruct (mailbox_built_d s H L) as (m & E & N & V). exists m. split; [exact N |].
  unfold cb_status. rewrite E. cbn [with_arg then_tag].
  apply (tagged_d tag (CStatus m items) T). cbn [v_command_body]. now rewrite V, (v_forall _ _ Hi).
Qed.
Theorem C43_fetch : forall tag s x items uid, some_of TAG_CHAR tag -> sequence_set_text s x ->
  v_macro_or_items LDecoded items = true ->
  then_tag tag (cb_fetch s items uid) = Built (mkCommand tag (CFetch x items uid [])) /\
  sent_as (mkCommand tag (CFetch x items uid [])) (mkCommand tag (CFetch (w_set x) items uid [])).
Proof.
  intros tag s x items uid T H V. unfold cb_fetch. rewrite (set_conv s x H). cbn [with_arg then_tag].
  apply (tagged_d tag (CFetch x items uid []) T). cbn [v_command_body]. now rewrite (set_valid s x H), V, gated_nil.
Qed.
Theorem C43_store : forall tag s x kind resp flags uid, some_of TAG_CHAR tag -> sequence_set_text s x ->
  Forall (fun f => v_flag f = true) flags ->
  then_tag tag (cb_store s kind resp flags uid) = Built (mkCommand tag (CStore x kind resp flags uid [])) /\
  sent_as (mkCommand tag (CStore x kind resp flags uid [])) (mkCommand tag (CStore (w_set x) kind resp flags uid [])).
Proof.
  intros tag s x kind resp flags uid T H V. unfold cb_store. rewrite (set_conv s x H). cbn [with_arg then_tag].
  apply (tagged_d tag (CStore x kind resp flags uid []) T). cbn [v_command_body].
  now rewrite (set_valid s x H), (v_forall _ _ V), gated_nil.
Qed.
Theorem C43_copy : forall tag s x t uid, some_of TAG_CHAR tag -> sequence_set_text s x ->
  many_of CHAR8 t -> fits t ->
  exists m, names_mailbox t m /\
    then_tag tag (cb_copy s t uid) = Built (mkCommand tag (CCopy x m uid)) /\
    sent_as (mkCommand tag (CCopy x m uid)) (mkCommand tag (CCopy (w_set x) m uid)) /\
    then_tag tag (cb_move s t uid) = Built (mkCommand tag (CMove x m uid)) /\
    sent_as (mkCommand tag (CMove x m uid)) (mkCommand tag (CMove (w_set x) m uid)).
Proof.
  intros tag s x t uid T H Ht L. destruct (mailbox_built_d t Ht L) as (m & E & N & V). exists m. split; [exact N |].
  unfold cb_copy, cb_move. rewrite (set_conv s x H), E. cbn [with_arg then_tag].
  assert (W : v_sequence_set LDecoded x && v_mailbox LDecoded m = true) by now rewrite (set_valid s x H), V.
  destruct (tagged_d tag (CCopy x m uid) T W) as [-> A]. destruct (tagged_d tag (CMove x m uid) T W) as [-> B]. auto.
Qed.
Theorem C43_set_quota : forall tag s l, some_of TAG_CHAR tag -> many_of CHAR8 s -> fits s ->
  Forall (fun q => v_quota_set q = true) l ->
  exists a, bytes_of_astring a = s /\
    then_tag tag (cb_set_quota s l) = Built (mkCommand tag (CSetQuota a l)) /\
    sent (mkCommand tag (CSetQuota a l)).
Proof.
  intros tag s l T H L Hl. destruct (astring_built_d s H L) as (a & E & N & V). exists a. split; [exact N |].
  unfold cb_set_quota. rewrite E. cbn [with_arg then_tag].
  apply (tagged_d tag (CSetQuota a l) T). cbn [v_command_body]. now rewrite V, (v_forall _ _ Hl).
Qed.
Theorem C43_enable : forall tag l, some_of TAG_CHAR tag ->
  Forall (fun c => v_capability_enable c = true) l ->
  (l <> [] -> then_tag tag (cb_enable l) = Built (mkCommand tag (CEnable l)) /\ sent (mkCommand tag (CEnable l))) /\
  (l = [] -> then_tag tag (cb_enable l) = BadArg 0 (VNotEnough 1)).
Proof.
  intros tag l T V. split; [| now intros ->]. intros H. unfold cb_enable. rewrite (nonempty_list l H). cbn [with_arg then_tag].
  apply (tagged_d tag (CEnable l) T). cbn [v_command_body]. now apply v1_forall.
Qed.
(** The constructors that cannot fail *)
Theorem C43_plain : forall tag, some_of TAG_CHAR tag ->
  (forall a, then_tag tag (Built (cb_compress a)) = Built (mkCommand tag (CCompress a)) /\
     sent (mkCommand tag (CCompress a))) /\
  (then_tag tag (Built cb_unselect) = Built (mkCommand tag CUnselect) /\ sent (mkCommand tag CUnselect)) /\
  (ext_namespace = true ->
     then_tag tag (Built cb_namespace) = Built (mkCommand tag CNamespace) /\ sent (mkCommand tag CNamespace)) /\
  (forall m, v_auth_mechanism LDecoded m = true ->
     then_tag tag (Built (cb_authenticate m)) = Built (mkCommand tag (CAuthenticate m None)) /\
     sent (mkCommand tag (CAuthenticate m None)) /\
     forall ir, then_tag tag (Built (cb_authenticate_with_ir m ir)) = Built (mkCommand tag (CAuthenticate m (Some ir))) /\
     sent (mkCommand tag (CAuthenticate m (Some ir)))) /\
  (forall cs l uid, match cs with Some c => v_charset c = true | None => True end ->
     l <> [] -> Forall (fun k => v_search_key LDecoded k = true) l ->
     then_tag tag (Built (cb_search cs l uid)) = Built (mkCommand tag (CSearch cs l uid)) /\
     sent_as (mkCommand tag (CSearch cs l uid)) (mkCommand tag (CSearch cs (map w_search_key l) uid))).
Proof.
  intros tag T. cbn [then_tag]. repeat apply conj.
  - intros a. exact (tagged_d tag (CCompress a) T eq_refl).
  - apply (tagged_d tag CUnselect T eq_refl).
  - apply (tagged_d tag CUnselect T eq_refl).
  - intros H. exact (tagged_d tag CNamespace T H).
  - intros m H. destruct (tagged_d tag (CAuthenticate m None) T H) as [E S0]. split; [exact E |]. split; [exact S0 |].
    intros ir. exact (tagged_d tag (CAuthenticate m (Some ir)) T H).
  - intros cs l uid Hc Hn Hl. apply (tagged_d tag (CSearch cs l uid) T). cbn [v_command_body].
    rewrite (v1_forall _ _ Hn Hl), andb_true_r. now destruct cs.
Qed.

(** ** C49: greetings and status responses *)
Definition code_sent (c : option code) (t : bytes) : Prop :=
  match c with Some c => v_code LDecoded other_name c t = true | None => forall r, t <> bs "[" ++ r end.
Lemma code_sent_ok c t : some_of TEXT_CHAR t -> code_sent c t -> v_code_text LDecoded other_name c t = true.
Proof.
  intros T H. unfold v_code_text. rewrite (proj2 (text_ok_spec t) T). cbn [andb]. destruct c as [c |]; [exact H |].
  cbn [code_sent] in H. cbn [only_rt]. destruct (starts_with (bs "[") t) eqn:E; [| reflexivity].
  exfalso. destruct t as [| b t]; [discriminate E |]. unfold starts_with in E. rewrite beqs_eq in E. cbn in E.
  injection E as <-. now apply (H t).
Qed.
Theorem C49_greeting : forall c t make kind word,
  In (make, kind, word) [(greeting_ok, GKOk, bs "OK"); (greeting_preauth, GKPreAuth, bs "PREAUTH");
                         (greeting_bye, GKBye, bs "BYE")] ->
  (some_of TEXT_CHAR t ->
     make c t = Built (mkGreeting kind c t) /\
     (exists rest, dump_fragments (encode_greeting (mkGreeting kind c t)) = bs "* " ++ word ++ bs " " ++ rest) /\
     (code_sent c t ->
        decodes_to encode_greeting decode_greeting (mkGreeting kind c t)
          (mkGreeting kind (option_map w_code c) t))) /\
  (t = [] -> make c t = BadArg 0 VEmpty) /\
  (forall b i, first_wrong TEXT_CHAR t b i -> make c t = BadArg 0 (VInvalidByteAt b i)).
Proof.
  intros c t make kind word Hin. destruct text_conv as (H1 & H2 & H3 & _).
  assert (M : make c t = greeting_new kind c t /\
    exists rest, dump_fragments (encode_greeting (mkGreeting kind c t)) = bs "* " ++ word ++ bs " " ++ rest).
  { unfold encode_greeting. rewrite dump_fragments_eq. unfold e_greeting. cbn [gr_kind gr_code gr_text].
    repeat destruct Hin as [Hin | Hin]; try contradiction; injection Hin as <- <- <-; (split; [reflexivity |]);
      rewrite !dump_app; eexists; reflexivity. }
  destruct M as [-> W]. unfold greeting_new. split; [| split].
  - intros T. rewrite (H1 t T). split; [reflexivity |]. split; [exact W |]. intros H.
    exact (C11_greeting (mkGreeting kind c t) (code_sent_ok c t T H)).
  - intros ->. now rewrite H2.
  - intros b i H. now rewrite (H3 t b i H).
Qed.
Lemma status_received s : v_status LDecoded other_name s = true ->
  decodes_to encode_response decode_response (RStatus s) (w_response (RStatus s)).
Proof. intros V. now apply C10_response. Qed.
Theorem C49_status : forall tag c t make kind word,
  In (make, kind, word) [(status_ok, SKOk, bs "OK"); (status_no, SKNo, bs "NO"); (status_bad, SKBad, bs "BAD")] ->
  let s := match tag with
           | Some tag => StTagged tag (mkStatusBody kind c t)
           | None => StUntagged (mkStatusBody kind c t)
           end in
  (some_of TEXT_CHAR t ->
     make tag c t = Built s /\
     status_tag s = tag /\ status_code s = c /\ status_text s = t /\
     (exists rest, dump_fragments (encode_response (RStatus s)) =
        match tag with Some tag => tag | None => bs "*" end ++ bs " " ++ word ++ bs " " ++ rest) /\
     (code_sent c t -> match tag with Some tag => some_of TAG_CHAR tag | None => True end ->
        decodes_to encode_response decode_response (RStatus s) (w_response (RStatus s)))) /\
  (t = [] -> make tag c t = BadArg 0 VEmpty) /\
  (forall b i, first_wrong TEXT_CHAR t b i -> make tag c t = BadArg 0 (VInvalidByteAt b i)).
Proof.
  intros tag c t make kind word Hin s. destruct text_conv as (H1 & H2 & H3 & _).
  assert (M : make tag c t = status_new tag kind c t /\
    exists rest, dump_fragments (encode_response (RStatus s)) =
        match tag with Some tag => tag | None => bs "*" end ++ bs " " ++ word ++ bs " " ++ rest).
  { unfold encode_response. rewrite dump_fragments_eq. unfold e_response, e_status, s.
    repeat destruct Hin as [Hin | Hin]; try contradiction; injection Hin as <- <- <-; (split; [reflexivity |]);
      destruct tag as [tag |]; cbn [sb_kind]; unfold e_bytes; rewrite !dump_app, ?dump_W;
      eexists; rewrite <- ?app_assoc; reflexivity. }
  destruct M as [-> W]. unfold status_new. split; [| split].
  - intros T. rewrite (H1 t T). cbn [with_arg].
    split; [now destruct tag |]. split; [now destruct tag |]. split; [now destruct tag |].
    split; [now destruct tag |]. split; [exact W |].
    intros H Ht. apply status_received. unfold s. pose proof (code_sent_ok c t T H) as V.
    destruct tag; cbn [v_status]; [apply andb_true_iff; split; [now apply tag_ok_spec |] |]; exact V.
  - intros ->. now rewrite H2.
  - intros b i H. now rewrite (H3 t b i H).
Qed.
Theorem C49_bye : forall c t,
  (some_of TEXT_CHAR t ->
     status_bye c t = Built (StBye c t) /\
     status_tag (StBye c t) = None /\ status_code (StBye c t) = c /\ status_text (StBye c t) = t /\
     (exists rest, dump_fragments (encode_response (RStatus (StBye c t))) = bs "* BYE " ++ rest) /\
     (code_sent c t -> decodes_to encode_response decode_response (RStatus (StBye c t))
        (RStatus (StBye (option_map w_code c) t)))) /\
  (t = [] -> status_bye c t = BadArg 0 VEmpty) /\
  (forall b i, first_wrong TEXT_CHAR t b i -> status_bye c t = BadArg 0 (VInvalidByteAt b i)).
Proof.
  intros c t. destruct text_conv as (H1 & H2 & H3 & _). unfold status_bye. split; [| split].
  - intros T. rewrite (H1 t T). cbn [with_arg]. repeat split.
    + unfold encode_response. rewrite dump_fragments_eq. unfold e_response, e_status. rewrite !dump_app.
      eexists. reflexivity.
    + intros H. exact (status_received (StBye c t) (code_sent_ok c t T H)).
  - intros ->. now rewrite H2.
  - intros b i H. now rewrite (H3 t b i H).
Qed.

(** ** C49: data and codes *)
Definition received (d : data) : Prop :=
  decodes_to encode_response decode_response (RData d) (RData d).
Lemma data_received d : v_data LDecoded d = true -> has_modseq (RData d) = false ->
  w_response (RData d) = RData d -> received d.
Proof. intros V M W. unfold received. pose proof (C10_response (RData d) V M) as H. now rewrite W in H. Qed.
Lemma v_nz n : n <> 0%N -> (n <= u32_max)%N -> v_nz32 n = true.
Proof. intros H L. unfold v_nz32. apply N.eqb_neq in H. rewrite H. now apply N.leb_le. Qed.
Theorem C49_data_capability : forall l,
  (l <> [] -> data_capability l = Built (DCapability l) /\
     (Forall (fun c => v_capability LDecoded c = true) l -> received (DCapability l))) /\
  data_capability [] = BadArg 0 (VNotEnough 1).
Proof.
  intros l. split; [| reflexivity]. intros H. unfold data_capability. rewrite (nonempty_list l H). split; [reflexivity |].
  intros V. apply data_received; try reflexivity. cbn [v_data]. now apply v1_forall.
Qed.
Theorem C49_data_expunge : forall n, (n <= u32_max)%N ->
  (n <> 0%N -> data_expunge n = Built (DExpunge n) /\ received (DExpunge n)) /\
  (n = 0%N -> data_expunge n = BadArg 0 VInvalid).
Proof.
  intros n L. split; [| now intros ->]. intros H. unfold data_expunge. rewrite (nz_conv n H). split; [reflexivity |].
  apply data_received; try reflexivity. now apply v_nz.
Qed.
Theorem C49_data_fetch : forall n l, (n <= u32_max)%N ->
  (n <> 0%N -> l <> [] -> data_fetch n l = Built (DFetch n l) /\
     (Forall (fun i => v_message_data_item LDecoded i = true) l -> existsb is_modseq l = false ->
      received (DFetch n l))) /\
  (n = 0%N -> data_fetch n l = BadArg 0 VInvalid) /\
  (n <> 0%N -> l = [] -> data_fetch n l = BadArg 1 (VNotEnough 1)).
Proof.
  intros n l L. unfold data_fetch. split; [| split].
  - intros H Hl. rewrite (nz_conv n H), (nonempty_list l Hl). split; [reflexivity |]. intros V M.
    apply data_received; try reflexivity; [| exact M]. cbn [v_data]. now rewrite (v_nz n H L), (v1_forall _ _ Hl V).
  - now intros ->.
  - intros H ->. now rewrite (nz_conv n H).
Qed.
Theorem C49_data_quota : forall s l, many_of CHAR8 s -> fits s ->
  (l <> [] -> exists a, bytes_of_astring a = s /\ data_quota s l = Built (DQuota a l) /\
     (Forall (fun q => v_quota_get q = true) l -> received (DQuota a l))) /\
  data_quota s [] = BadArg 1 (VNotEnough 1).
Proof.
  intros s l H L. destruct (astring_built_d s H L) as (a & E & N & V). unfold data_quota. rewrite E. split; [| reflexivity].
  intros Hl. exists a. rewrite (nonempty_list l Hl). split; [exact N |]. split; [reflexivity |]. intros W.
  apply data_received; try reflexivity. cbn [v_data]. now rewrite V, (v1_forall _ _ Hl W).
Qed.
Theorem C49_data_quota_root : forall s l, many_of CHAR8 s -> fits s ->
  exists m, names_mailbox s m /\ data_quota_root s l = Built (DQuotaRoot m l) /\
    (Forall (fun a => v_astring LDecoded a = true) l -> received (DQuotaRoot m l)).
Proof.
  intros s l H L. destruct (mailbox_built_d s H L) as (m & E & N & V). exists m. unfold data_quota_root. rewrite E.
  split; [exact N |]. split; [reflexivity |]. intros W.
  apply data_received; try reflexivity. cbn [v_data]. now rewrite V, (v_forall _ _ W).
Qed.
Theorem C49_data_quota_error : forall s l b i, first_wrong CHAR8 s b i ->
  data_quota s l = BadArg 0 (VInvalidByteAt b i) /\
  (forall roots, data_quota_root s roots = BadArg 0 (VInvalidByteAt b i)).
Proof.
  intros s l b i H. unfold data_quota, data_quota_root.
  rewrite (proj2 (C26_astring s) b i H), (C27_convert_error s b i H). auto.
Qed.
(** The codes, and what stands for them in brackets *)
Theorem C49_code_numbers : forall n, (n <= u32_max)%N ->
  (n <> 0%N ->
     code_uidnext n = Built (CdUidNext n) /\ dump (e_code (CdUidNext n)) = bs "UIDNEXT " ++ dec n /\
     code_uidvalidity n = Built (CdUidValidity n) /\ dump (e_code (CdUidValidity n)) = bs "UIDVALIDITY " ++ dec n /\
     code_unseen n = Built (CdUnseen n) /\ dump (e_code (CdUnseen n)) = bs "UNSEEN " ++ dec n /\
     forall t, code_sent (Some (CdUidNext n)) t /\ code_sent (Some (CdUidValidity n)) t /\
       code_sent (Some (CdUnseen n)) t) /\
  (n = 0%N -> code_uidnext n = BadArg 0 VInvalid /\ code_uidvalidity n = BadArg 0 VInvalid /\
     code_unseen n = BadArg 0 VInvalid).
Proof.
  intros n L. split; [| now intros ->]. intros H. unfold code_uidnext, code_uidvalidity, code_unseen.
  rewrite (nz_conv n H). pose proof (v_nz n H L) as V.
  repeat split; try exact V; cbn [e_code]; unfold e_num; rewrite dump_app, !dump_W; reflexivity.
Qed.
Theorem C49_code_lists : forall l,
  (l <> [] -> code_capability l = Built (CdCapability l) /\
     (Forall (fun c => v_capability LDecoded c = true) l -> forall t, code_sent (Some (CdCapability l)) t)) /\
  code_capability [] = BadArg 0 (VNotEnough 1) /\
  (forall c, code_badcharset c = CdBadCharset c /\
     (Forall (fun c => v_charset c = true) c -> forall t, code_sent (Some (code_badcharset c)) t)) /\
  (forall f, code_permanentflags f = CdPermanentFlags f /\
     (Forall (fun f => v_flag_perm f = true) f -> forall t, code_sent (Some (code_permanentflags f)) t)).
Proof.
  intros l. split; [| split; [reflexivity | split]].
  - intros H. unfold code_capability. rewrite (nonempty_list l H). split; [reflexivity |]. intros V t. now apply v1_forall.
  - intros c. split; [reflexivity |]. intros V t. now apply v_forall.
  - intros f. split; [reflexivity |]. intros V t. now apply v_forall.
Qed.
End Build.

(** ** C32: the keyword types from text *)
Theorem C32_from_bytes : forall F : features,
  converts_some ATOM_CHAR auth_mechanism_from auth_mechanism_from_bytes /\
  converts_some ATOM_CHAR resource_from resource_from_bytes /\
  converts_some ATOM_CHAR capability_from capability_from_bytes /\
  converts_some ATOM_CHAR capability_enable_from capability_enable_from_str /\
  forall s, (same_letters s (bs "DEFLATE") -> compression_from_bytes s = COk Deflate) /\
    (~ same_letters s (bs "DEFLATE") -> compression_from_bytes s = CErr VInvalid).
Proof.
  intros F. destruct atom_conv as (H1 & H2 & H3 & H4).
  assert (K : forall A (f : bytes -> A), converts_some ATOM_CHAR f (fun s => cmap f (atom_from_bytes s))).
  { intros A f. split; [| split; [| split]].
    - intros s H. now rewrite (H1 s H).
    - now rewrite H2.
    - intros s b i H. now rewrite (H3 s b i H).
    - exact H4. }
  split; [apply K |]. split; [apply K |]. split; [apply K |]. split.
  - destruct list_char_conv as (_ & _ & _ & _).
    assert (E : forall s, capability_enable_from_str s =
      match validate_atom s with COk _ => COk (capability_enable_from s) | CErr e => CErr e | CPanic => CPanic end).
    { intros s. unfold capability_enable_from_str. now destruct (validate_atom s). }
    assert (G : forall s, match atom_from_bytes s with COk _ => validate_atom s = COk tt | CErr e => validate_atom s = CErr e | CPanic => True end).
    { intros s. unfold atom_from_bytes. destruct (validate_atom s) as [[] | |]; cbn; auto. unfold utf8_unwrap. now destruct (utf8_ok s). }
    split; [| split; [| split]].
    + intros s H. specialize (G s). rewrite (H1 s H) in G. now rewrite E, G.
    + reflexivity.
    + intros s b i H. specialize (G s). rewrite (H3 s b i H) in G. now rewrite E, G.
    + exact H4.
  - intros s. unfold compression_from_bytes, compression_try_from.
    assert (E : beqs (lowers s) (bs "deflate") = true <-> same_letters s (bs "DEFLATE")).
    { rewrite beqs_eq, same_letters_spec. reflexivity. }
    destruct (beqs (lowers s) (bs "deflate")); split; intros H; try reflexivity.
    + now destruct H; apply E.
    + now apply E in H.
Qed.

(** ** C27: [MailboxOther] *)
(** "inbox" in any case is refused as reserved, any other name is kept byte for byte. *)
Theorem C27_other : forall s,
  (same_letters s (bs "inbox") -> mailbox_other_from_bytes s = COk None) /\
  (~ same_letters s (bs "inbox") -> many_of CHAR8 s ->
     exists a, mailbox_other_from_bytes s = COk (Some a) /\ bytes_of_astring a = s) /\
  (forall b i, first_wrong CHAR8 s b i -> mailbox_other_from_bytes s = CErr (VInvalidByteAt b i)).
Proof.
  intros s. unfold mailbox_other_from_bytes, validate_mailbox_other.
  assert (B : forall a, astring_bytes a = bytes_of_astring a) by (intros [| [| | [? ?]]]; reflexivity).
  assert (E : eqi s (bs "inbox") = true <-> same_letters s (bs "inbox")).
  { rewrite same_letters_spec. unfold eqi. now rewrite beqs_eq. }
  split; [| split].
  - intros H. assert (M : many_of CHAR8 s).
    { apply Forall_impl with (P := CHAR); [unfold CHAR, CHAR8; intros; lia |].
      apply (same_letters_char _ _ H). repeat constructor; vm_compute; discriminate. }
    destruct (proj1 (C26_astring s) M) as (a & -> & Ha). cbn [cmap cbind]. rewrite B, Ha. apply E in H. now rewrite H.
  - intros H M. destruct (proj1 (C26_astring s) M) as (a & -> & Ha). exists a. cbn [cmap cbind]. rewrite B, Ha.
    destruct (eqi s (bs "inbox")); [exfalso; now apply H, E | auto].
  - intros b i H. now rewrite (proj2 (C26_astring s) b i H).
Qed.

(** ** C49: small functions on flags and fetch items *)
(** RFC 3501, mbx-list-flags: the flags of which at most one may occur *)
Theorem C49_selectability : forall f, is_selectability f = true <->
  In (flag_name_attribute_str f) [bs "\Noselect"; bs "\Marked"; bs "\Unmarked"] /\ flag_name_known f.
Proof.
  intros f. split.
  - destruct f; cbn [is_selectability]; intros H; try discriminate H; cbn; auto 10.
  - intros [H K]. destruct f; try reflexivity; try destruct K; repeat (destruct H as [H | H]; [discriminate H |]); destruct H.
Qed.
(** RFC 3501, FETCH: ALL, FAST and FULL stand for these lists. *)
Theorem C49_macros : forall m, exists text,
  joinsp e_item_name (macro_expand m) = text /\
  dump text = match m with
              | MacroAll => bs "FLAGS INTERNALDATE RFC822.SIZE ENVELOPE"
              | MacroFast => bs "FLAGS INTERNALDATE RFC822.SIZE"
              | MacroFull => bs "FLAGS INTERNALDATE RFC822.SIZE ENVELOPE BODY"
              end.
Proof. intros m. eexists. split; [reflexivity |]. destruct m; reflexivity. Qed.

Print Assumptions C43_tag.
Print Assumptions C43_sent.
Print Assumptions C43_mailbox_error.
Print Assumptions C43_second_error.
Print Assumptions C43_quota_error.
Print Assumptions C43_set_error.
Print Assumptions C43_copy_error.
Print Assumptions C43_status.
Print Assumptions C43_fetch.
Print Assumptions C43_store.
Print Assumptions C43_copy.
Print Assumptions C43_set_quota.
Print Assumptions C43_enable.
Print Assumptions C43_plain.
Print Assumptions C49_greeting.
Print Assumptions C49_status.
Print Assumptions C49_bye.
Print Assumptions C49_data_capability.
Print Assumptions C49_data_expunge.
Print Assumptions C49_data_fetch.
Print Assumptions C49_data_quota.
Print Assumptions C49_data_quota_root.
Print Assumptions C49_data_quota_error.
Print Assumptions C49_code_numbers.
Print Assumptions C49_code_lists.
Print Assumptions C32_from_bytes.
Print Assumptions C27_other.
Print Assumptions C49_selectability.
Print Assumptions C49_macros.

(** ** Concrete cases *)
Example C43_build_case :
  some_of TAG_CHAR (bs "a1") /\ wrong_set (bs "1,,2") /\ sequence_set_text (bs "1:*") [SRange (SValue 1) SAsterisk] /\
  command_new (bs "a+1") CNoop = BadArg 0 (VInvalidByteAt "+"%byte 1) /\
  cb_copy (bs "1:*") [x61; x00] true = BadArg 1 (VInvalidByteAt x00 1) /\
  cb_move (bs "1,,2") (bs "x") true = BadArg 0 VInvalid /\
  cb_copy (bs "1:*") (bs "iNbOx") true = Built (CCopy [SRange (SValue 1) SAsterisk] MInbox true) /\
  cb_enable [] = BadArg 0 (VNotEnough 1).
Proof.
  split. { apply tag_ok_spec. reflexivity. }
  split. { split; [cbn; intros K; repeat (destruct K as [K | K]; [discriminate K |]); destruct K |].
    intros x H. apply C30_from_str_accepts in H. discriminate H. }
  split. { apply C30_from_str; [cbn; intros K; repeat (destruct K as [K | K]; [discriminate K |]); destruct K | reflexivity]. }
  repeat split.
Qed.
Example C49_case : let F := default_features in
  status_bad (Some (bs "a1")) (Some CdParse) (bs "no") =
    Built (StTagged (bs "a1") (mkStatusBody SKBad (Some CdParse) (bs "no"))) /\
  status_no None None (bs "") = BadArg 0 VEmpty /\
  greeting_bye None [x61; bLF] = BadArg 0 (VInvalidByteAt bLF 1) /\
  code_sent (Some (CdUnseen 7)) (bs "x") /\ code_sent None (bs "x") /\
  data_fetch 0 [] = BadArg 0 VInvalid /\ data_fetch 3 [] = BadArg 1 (VNotEnough 1) /\
  data_quota (bs "root") [mkQuotaGet RStorage 1 2] = Built (DQuota (AAtom (bs "root")) [mkQuotaGet RStorage 1 2]) /\
  code_unseen 0 = BadArg 0 VInvalid.
Proof. repeat split. intros r H. discriminate H. Qed.

(** The hypotheses of the theorems above hold of concrete arguments, and the theorems say this about them: *)
Example C43_used : let F := default_features in
  (exists m, names_mailbox (bs "sent mail") m /\
     then_tag (bs "a1") (cb_status (bs "sent mail") [SNMessages; SNUnseen]) =
       Built (mkCommand (bs "a1") (CStatus m [SNMessages; SNUnseen])) /\
     sent (mkCommand (bs "a1") (CStatus m [SNMessages; SNUnseen]))) /\
  sent_as (mkCommand (bs "a1") (CFetch [SRange (SValue 1) SAsterisk] (MIMacro MacroFull) true []))
    (mkCommand (bs "a1") (CFetch (w_set [SRange (SValue 1) SAsterisk]) (MIMacro MacroFull) true [])) /\
  sent_as (mkCommand (bs "a1") (CStore [SRange (SValue 1) SAsterisk] STAdd SRSilent [FSeen; FKeyword (bs "x")] false []))
    (mkCommand (bs "a1") (CStore (w_set [SRange (SValue 1) SAsterisk]) STAdd SRSilent [FSeen; FKeyword (bs "x")] false [])) /\
  (exists a, bytes_of_astring a = bs "root" /\
     then_tag (bs "a1") (cb_set_quota (bs "root") [mkQuotaSet RStorage 512; mkQuotaSet (ROther (bs "X")) 0]) =
       Built (mkCommand (bs "a1") (CSetQuota a [mkQuotaSet RStorage 512; mkQuotaSet (ROther (bs "X")) 0])) /\
     sent (mkCommand (bs "a1") (CSetQuota a [mkQuotaSet RStorage 512; mkQuotaSet (ROther (bs "X")) 0]))) /\
  sent (mkCommand (bs "a1") (CEnable [CEOther (bs "FOO"); CEOther (bs "X-Y")])) /\
  cb_rename (bs "a") [x61; x00] = BadArg 1 (VInvalidByteAt x00 1) /\
  cb_get_quota [x00] = BadArg 0 (VInvalidByteAt x00 0).
Proof.
  intros F.
  assert (T : some_of TAG_CHAR (bs "a1")) by (apply tag_ok_spec; reflexivity).
  destruct C43_build_case as (_ & _ & S & _).
  split. { apply C43_status; [exact T | apply literal_ok_spec; reflexivity | discriminate | repeat (apply Forall_cons; [reflexivity |]); apply Forall_nil]. }
  split. { apply (C43_fetch (bs "a1") (bs "1:*") _ (MIMacro MacroFull) true T S). reflexivity. }
  split. { apply (C43_store (bs "a1") (bs "1:*") _ STAdd SRSilent _ false T S). repeat (apply Forall_cons; [reflexivity |]); apply Forall_nil. }
  split. { apply C43_set_quota; [exact T | apply literal_ok_spec; reflexivity | discriminate | repeat (apply Forall_cons; [reflexivity |]); apply Forall_nil]. }
  split. { apply C43_enable; [exact T | repeat (apply Forall_cons; [reflexivity |]); apply Forall_nil | discriminate]. }
  split; reflexivity.
Qed.
Example C49_used : let F := default_features in
  received (DCapability [CapImap4Rev1; CapOther (bs "X1")]) /\
  received (DExpunge 7) /\
  received (DFetch 3 [MDRfc822Size 12; MDUid 5]) /\
  (exists a, bytes_of_astring a = bs "r" /\ data_quota (bs "r") [mkQuotaGet RStorage 1 2] = Built (DQuota a [mkQuotaGet RStorage 1 2]) /\
     received (DQuota a [mkQuotaGet RStorage 1 2])) /\
  (exists m, names_mailbox (bs "INBOX") m /\ data_quota_root (bs "INBOX") [AAtom (bs "r")] = Built (DQuotaRoot m [AAtom (bs "r")]) /\
     received (DQuotaRoot m [AAtom (bs "r")])).
Proof.
  intros F.
  split. { apply (C49_data_capability _); [discriminate | repeat (apply Forall_cons; [reflexivity |]); apply Forall_nil]. }
  split. { apply C49_data_expunge; discriminate. }
  split. { apply C49_data_fetch; [discriminate .. | repeat (apply Forall_cons; [reflexivity |]); apply Forall_nil | reflexivity]. }
  split. { edestruct (C49_data_quota (bs "r") [mkQuotaGet RStorage 1 2]) as [(a & A & B & C) _];
             [apply literal_ok_spec; reflexivity | discriminate | discriminate |].
           exists a. split; [exact A |]. split; [exact B |]. apply C. apply Forall_cons; [reflexivity | apply Forall_nil]. }
  edestruct (C49_data_quota_root (bs "INBOX") [AAtom (bs "r")]) as (a & A & B & C);
    [apply literal_ok_spec; reflexivity | discriminate |].
  exists a. split; [exact A |]. split; [exact B |]. apply C. apply Forall_cons; [reflexivity | apply Forall_nil].
Qed.
