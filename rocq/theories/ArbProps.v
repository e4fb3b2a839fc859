(** C50: the generators of arbitrary messages and the fuzz targets.

    A generator of Arb.v relates to an outcome (a value, a refusal of the random bytes, a
    panic) if some random bytes lead to it. [size] bounds the length of the strings it makes;
    [size <= u32_max] says that they are shorter than 4 GiB. *)

From Verif Require Import Bytes BytesFacts Dec Features Nom Types Utf8 Conv SeqSet Base64
  Ctors ParserFacts ParseCore Encode EncodeCtx EncodeApi EncFragFacts Decode Fragmentizer FragSpec FragFacts Valid
  ValidFacts OkTac DecodeSpec OkCore OkCmd OkResp OtherCode DecodeFacts DecodeProps WrittenFacts RoundTripSpec RoundTripProps Arb ArbFacts.

Open Scope nat_scope.

(** ** What is generated satisfies the invariants of its type, and generation never panics *)
Definition only_makes {A} (g : gen A) (P : A -> Prop) : Prop :=
  ~ g GPanic /\ forall a, g (GVal a) -> P a.
Lemma sat_only_makes {A} (g : gen A) P : sat g P -> only_makes g P.
Proof. intros H. split; [exact (H GPanic) | intros a; exact (H (GVal a))]. Qed.

Section Props.
Context {F : features}.
Variable simplified : bool.
Variable size : N.

Theorem C50_command : only_makes (arb_command simplified size) (fun c => v_command LType c = true).
Proof. apply sat_only_makes, sat_command; now left. Qed.
Theorem C50_greeting : only_makes (arb_greeting size) (fun g => v_greeting LType other_name g = true).
Proof. apply sat_only_makes, sat_greeting; now left. Qed.
Theorem C50_response : only_makes (arb_response simplified size)
  (fun r => v_response LType other_name r = true).
Proof.
  apply sat_only_makes. eapply sat_weaken; [apply (sat_response simplified size LType); now left |].
  intros r H. apply H. now left.
Qed.

(** ** [.._to_bytes_and_back] *)
(** What the encoder rewrites (C09-C11): nothing, without the two quirks. *)
Lemma w_set_off s : quirk_always_normalize_sequence_sets = false -> w_set s = s.
Proof. unfold w_set. now intros ->. Qed.
Lemma w_id_off p : quirk_id_empty_to_nil = false -> w_id p = p.
Proof. unfold w_id. intros ->. now destruct p as [[|] |]. Qed.
Lemma map_same {A} (f : A -> A) l : Forall (fun a => f a = a) l -> map f l = l.
Proof. induction 1; cbn; congruence. Qed.
Lemma w_search_key_off k : quirk_always_normalize_sequence_sets = false -> w_search_key k = k.
Proof.
  intros Q. induction k as [l IH | k IH | a b IHa IHb | k Hk] using key_ind'; cbn [w_search_key];
    [now rewrite map_same | congruence | congruence |].
  destruct k; cbn [w_search_key]; rewrite ?w_set_off by exact Q; try reflexivity; destruct Hk.
Qed.
Lemma w_search_keys_off l : quirk_always_normalize_sequence_sets = false -> map w_search_key l = l.
Proof. intros Q. apply map_same, Forall_forall. intros k _. now apply w_search_key_off. Qed.
Lemma w_select_parameters_off l : quirk_always_normalize_sequence_sets = false -> map w_select_parameter l = l.
Proof.
  intros Q. apply map_same, Forall_forall. intros [| v m k s] _; cbn [w_select_parameter]; [reflexivity |].
  destruct k, s as [[a b] |]; cbn [option_map fst snd]; now rewrite ?w_set_off by exact Q.
Qed.
Lemma w_command_off c : quirk_always_normalize_sequence_sets = false -> quirk_id_empty_to_nil = false ->
  w_command c = c.
Proof.
  intros Q I. destruct c as [t b]. unfold w_command. cbn [cmd_tag cmd_body]. f_equal.
  destruct b; cbn [w_command_body]; rewrite ?w_set_off, ?w_id_off, ?w_search_keys_off, ?w_select_parameters_off by assumption;
    reflexivity.
Qed.
Lemma w_code_off other lv c t : quirk_always_normalize_sequence_sets = false \/ ext_condstore_qresync = false ->
  v_code lv other c t = true -> w_code c = c.
Proof.
  intros [Q | Q] V; destruct c; cbn [w_code]; try reflexivity; [now rewrite w_set_off |].
  cbn [v_code] in V. now rewrite Q in V.
Qed.
Lemma w_code_text_off other lv c t : quirk_always_normalize_sequence_sets = false \/ ext_condstore_qresync = false ->
  v_code_text lv other c t = true -> option_map w_code c = c.
Proof.
  intros Q V. destruct c as [c |]; cbn [option_map]; [| reflexivity]. unfold v_code_text in V.
  apply andb_true_iff in V as [_ V]. f_equal. exact (w_code_off other lv c t Q V).
Qed.
Lemma w_greeting_off other lv g : quirk_always_normalize_sequence_sets = false \/ ext_condstore_qresync = false ->
  v_greeting lv other g = true -> w_greeting g = g.
Proof.
  intros Q V. destruct g as [k c t]. unfold w_greeting. cbn [gr_kind gr_code gr_text]. f_equal.
  exact (w_code_text_off other lv c t Q V).
Qed.
Lemma w_response_off other lv r : quirk_always_normalize_sequence_sets = false \/ ext_condstore_qresync = false ->
  quirk_id_empty_to_nil = false \/ ext_id = false ->
  v_response lv other r = true -> w_response r = r.
Proof.
  intros Q I V. destruct r as [c | d | s]; cbn [v_response] in V.
  - destruct c as [c t | d]; cbn [w_response]; [| reflexivity]. destruct c as [c |]; [| reflexivity].
    cbn [v_continuation] in V. apply andb_true_iff in V as [_ V]. cbn [option_map].
    now rewrite (w_code_off other lv c t Q V).
  - destruct d; cbn [w_response]; try reflexivity.
    + destruct I as [I | I]; [now rewrite w_id_off |]. cbn [v_data] in V. now rewrite I in V.
    + destruct Q as [Q | Q]; [now rewrite w_set_off |]. cbn [v_data] in V. now rewrite Q in V.
  - destruct s as [b | t b | c t]; cbn [w_response v_status] in *.
    + destruct b as [k c t]. unfold w_status_body. cbn [sb_kind sb_code sb_text].
      now rewrite (w_code_text_off other lv c t Q V).
    + destruct b as [k c t']. unfold w_status_body. cbn [sb_kind sb_code sb_text].
      apply andb_true_iff in V as [_ V]. now rewrite (w_code_text_off other lv c t' Q V).
    + now rewrite (w_code_text_off other lv c t Q V).
Qed.

Lemma target_passes {E A} (g : gen A) enc (dec : bytes -> outcome E A) :
  only_makes g (fun a => decodes_to enc dec a a) ->
  forall r, to_bytes_and_back g (fun a => dump_fragments (enc a)) dec r -> r <> RunPanicked.
Proof.
  intros [N H] r T. destruct T as [_ | G | a G E1 | a G E1]; try discriminate; [now destruct N |].
  destruct E1. pose proof (H a G []) as K. now rewrite app_nil_r in K.
Qed.

(** Every generated command comes back as what the encoder wrote. *)
Theorem C50_command_back : (size <= u32_max)%N ->
  only_makes (arb_command simplified size) (fun c => decodes_to encode_command decode_command c (w_command c)).
Proof.
  intros L. apply sat_only_makes. eapply sat_weaken; [apply (sat_command simplified size LDecoded); now right |].
  apply C09_command.
Qed.
(** So the target [command_to_bytes_and_back] never panics without the two quirks, ... *)
Theorem C50_command_target : (size <= u32_max)%N ->
  quirk_always_normalize_sequence_sets = false -> quirk_id_empty_to_nil = false ->
  forall r, to_bytes_and_back (arb_command simplified size) (fun c => dump_fragments (encode_command c)) decode_command r ->
  r <> RunPanicked.
Proof.
  intros L Q I. apply target_passes. destruct (C50_command_back L) as [N H]. split; [exact N |].
  intros c G. pose proof (H c G) as K. now rewrite w_command_off in K.
Qed.
(** ... and with them exactly on the commands they rewrite. *)
Theorem C50_command_target_cases : (size <= u32_max)%N ->
  (to_bytes_and_back (arb_command simplified size) (fun c => dump_fragments (encode_command c)) decode_command RunPanicked
   <-> exists c, arb_command simplified size (GVal c) /\ w_command c <> c).
Proof.
  intros L. destruct (C50_command_back L) as [N H]. split.
  - intros T. inversion T as [| G | | c G E1]; subst; [now destruct N |]. exists c. split; [exact G |].
    intros W. apply E1. pose proof (H c G []) as K. now rewrite app_nil_r, W in K.
  - intros (c & G & W). apply (TB_different _ _ _ c G). intros K. pose proof (H c G []) as K'.
    rewrite app_nil_r in K'. rewrite K in K'. congruence.
Qed.

Theorem C50_greeting_target :
  (ext_mailbox_referrals || ext_login_referrals) = false ->
  quirk_always_normalize_sequence_sets = false \/ ext_condstore_qresync = false ->
  (size <= u32_max)%N ->
  forall r, to_bytes_and_back (arb_greeting size) (fun g => dump_fragments (encode_greeting g)) decode_greeting r ->
  r <> RunPanicked.
Proof.
  intros R Q L. apply target_passes, sat_only_makes.
  eapply sat_weaken; [apply (sat_greeting size LDecoded); now right |]. cbv beta. intros g V.
  pose proof (C11_greeting g V) as K. now rewrite (w_greeting_off _ _ g Q V) in K.
Qed.

(** Without the extensions whose responses are not read back (C10), [response_to_bytes_and_back]
    can only panic on a FETCH response with the flag [\Recent] as a [Flag]. *)
Theorem C50_response_target :
  (ext_mailbox_referrals || ext_login_referrals) = false -> ext_condstore_qresync = false ->
  quirk_id_empty_to_nil = false \/ ext_id = false -> (size <= u32_max)%N ->
  only_makes (arb_response simplified size) (fun r => no_recent_keyword r = true ->
    decodes_to encode_response decode_response r r).
Proof.
  intros R Q I L. apply sat_only_makes.
  eapply sat_weaken; [apply (sat_response simplified size LDecoded); now right |]. cbv beta. intros r H N.
  assert (V : v_response LDecoded other_name r = true) by (apply H; now right). clear H.
  assert (M : has_modseq r = false).
  { destruct r as [| d |]; try reflexivity. destruct d; try reflexivity. cbn [has_modseq].
    cbn [v_response v_data] in V. apply andb_true_iff in V as [_ V]. unfold v1 in V. apply andb_true_iff in V as [_ V].
    clear N. induction items as [| i l IH]; [reflexivity |]. cbn [forallb existsb] in *. apply andb_true_iff in V as [V1 V2].
    rewrite (IH V2). destruct i; try reflexivity. cbn [v_message_data_item] in V1. now rewrite Q in V1. }
  pose proof (C10_response r V M) as K. rewrite (w_response_off other_name LDecoded r) in K; [exact K | now right | exact I | exact V].
Qed.
Theorem C50_authenticate_data_target :
  forall r, to_bytes_and_back (arb_authenticate_data size) (fun a => dump_fragments (encode_authenticate_data a))
    decode_authenticate_data r -> r <> RunPanicked.
Proof.
  apply target_passes, sat_only_makes. unfold arb_authenticate_data. apply sat_enum.
  constructor; [| constructor; [| constructor]]; [apply sat_map; apply sat_any; intros a _ | apply sat_ret]; apply C12_authenticate_data.
Qed.

(** ** The targets that decode arbitrary bytes *)
Lemma decode_target_passes {E A} enc (dec : bytes -> outcome E A) input :
  dec input <> Panic -> (forall rem a, dec input = Decoded rem a -> decodes_to enc dec a a) ->
  forall r, decode_target (fun a => dump_fragments (enc a)) dec input r -> r <> RunPanicked.
Proof.
  intros N H r T. destruct T as [e K | K | rem a K1 K2 | rem a K1 K2]; try discriminate; [congruence |].
  destruct K2. pose proof (H rem a K1 []) as K. now rewrite app_nil_r in K.
Qed.
Theorem C50_decode_command : forall input,
  quirk_always_normalize_sequence_sets = false -> quirk_id_empty_to_nil = false ->
  forall r, decode_target (fun c => dump_fragments (encode_command c)) decode_command input r -> r <> RunPanicked.
Proof.
  intros input Q I. apply decode_target_passes; [apply (C20_no_panic input) |]. intros rem c D.
  pose proof (C13_command _ _ _ D) as K. now rewrite w_command_off in K.
Qed.
Theorem C50_decode_greeting : forall input,
  quirk_always_normalize_sequence_sets = false \/ ext_condstore_qresync = false ->
  forall r, decode_target (fun c => dump_fragments (encode_greeting c)) decode_greeting input r -> r <> RunPanicked.
Proof.
  intros input Q. apply decode_target_passes; [apply (C20_no_panic input) |]. intros rem g D.
  pose proof (C13_greeting _ _ _ D) as K.
  now rewrite (w_greeting_off _ _ g Q (decoded_greeting_valid _ _ _ D)) in K.
Qed.
Theorem C50_decode_response : forall input, ext_condstore_qresync = false ->
  quirk_id_empty_to_nil = false \/ ext_id = false ->
  forall r, decode_target (fun c => dump_fragments (encode_response c)) decode_response input r -> r <> RunPanicked.
Proof.
  intros input Q I. apply decode_target_passes; [apply (C20_no_panic input) |]. intros rem m D.
  pose proof (decoded_response_valid _ _ _ D) as V.
  assert (M : has_modseq m = false).
  { destruct m as [| d |]; try reflexivity. destruct d; try reflexivity. cbn [has_modseq].
    cbn [v_response v_data] in V. apply andb_true_iff in V as [_ V]. unfold v1 in V. apply andb_true_iff in V as [_ V].
    clear D. induction items as [| i l IH]; [reflexivity |]. cbn [forallb existsb] in *. apply andb_true_iff in V as [V1 V2].
    rewrite (IH V2). destruct i; try reflexivity. cbn [v_message_data_item] in V1. now rewrite Q in V1. }
  pose proof (C13_response_partial _ _ _ D M) as K. rewrite (w_response_off (fun _ _ => true) LDecoded m) in K; [exact K | now right | exact I | exact V].
Qed.
Theorem C50_decode_authenticate_data : forall input r,
  decode_target (fun c => dump_fragments (encode_authenticate_data c)) decode_authenticate_data input r -> r <> RunPanicked.
Proof.
  intros input. apply decode_target_passes; [apply (C20_no_panic input) |]. intros rem a _. apply C12_authenticate_data.
Qed.

(** ** tags_structured *)
Theorem C50_tags : forall input, tags_structured input = RunPassed.
Proof.
  intros input. unfold tags_structured. destruct (p_tag_imap input) as [r t | | | |] eqn:E; try reflexivity.
  - assert (K : input = t ++ r).
    { unfold p_tag_imap, validated, expect in E. apply bind_inv in E as (r2 & s & H1 & H).
      unfold str_of in H. destruct (utf8_ok s && tag_ok s); [| discriminate]. inv H.
      apply take_while1_inv in H1. tauto. }
    subst input. unfold starts_with. now rewrite firstn_app, firstn_all, Nat.sub_diag, app_nil_r, beqs_refl.
  - exfalso. exact (okk_panic (fun k => ok_p_tag_imap k) _ E).
Qed.
End Props.

(** ** fragmentizer *)
(** The loop always ends, ... *)
Theorem C50_fragmentizer_runs : forall s chunks, exists e, emits s chunks e.
Proof.
  intros s chunks. revert s. induction chunks as [| chunk chunks IH]; intros s; [eexists; constructor |].
  destruct (drains_total s) as (obs & s' & D). induction D as [s s' P | s s1 f obs s' P D IHD].
  - destruct (IH (enqueue s' chunk)) as [e He]. exists e. now apply (EM_enqueue s s').
  - destruct IHD as [e He]. exists (fragment_bytes s1 f ++ e). now apply (EM_fragment s s1).
Qed.
Lemma emits_run s chunks e : emits s chunks e -> exists ops s' obs,
  feeds ops /\ fed ops = concat chunks /\ run s ops = (s', obs) /\ e = concat (map ob_bytes obs).
Proof.
  induction 1 as [s | s s1 f chunk chunks e P _ (ops & s' & obs & I1 & I2 & I3 & I4)
                  | s s1 chunk chunks e P _ (ops & s' & obs & I1 & I2 & I3 & I4)].
  - exists [], s, []. repeat split. constructor.
  - exists (Progress :: ops), s', (observe s1 f :: obs). split; [now constructor |]. split; [exact I2 |]. split.
    + cbn [run step]. rewrite P, I3. reflexivity.
    + cbn. now rewrite I4.
  - exists (Progress :: Enqueue chunk :: ops), s', obs. split; [repeat constructor; exact I1 |]. split.
    + change (chunk ++ fed ops = chunk ++ concat chunks). now rewrite I2.
    + split; [| exact I4]. cbn [run step]. rewrite P, I3. reflexivity.
Qed.
Lemma limited_short max m : (match max with Some n => N.leb (lenN m) n | None => true end) = true -> limited max m = m.
Proof.
  destruct max as [n |]; cbn; [| reflexivity]. intros H. apply N.leb_le in H. apply firstn_all2. unfold lenN in H. lia.
Qed.
Lemma expected_length max fs : forall m,
  length (concat (map ob_bytes (expected max m fs))) <= length (concat (map frag_bytes fs)).
Proof.
  induction fs as [| f fs IH]; intros m; cbn [expected map concat ob_bytes]; [lia |].
  rewrite !app_length. specialize (IH (if ends_message f then [] else m ++ frag_bytes f)).
  unfold slice. rewrite firstn_length, ?app_length. lia.
Qed.
Lemma expected_whole max fs : forall m,
  (match max with Some n => N.leb (lenN (m ++ concat (map frag_bytes fs))) n | None => true end) = true ->
  concat (map ob_bytes (expected max m fs)) = concat (map frag_bytes fs).
Proof.
  induction fs as [| f fs IH]; intros m H; cbn [expected map concat ob_bytes]; [reflexivity |].
  rewrite IH.
  - f_equal. rewrite limited_short.
    + unfold slice. rewrite app_length, Nat.add_sub_swap, Nat.sub_diag by lia. cbn [Nat.add].
      rewrite skipn_app, skipn_all, Nat.sub_diag. cbn [app skipn]. apply firstn_all.
    + destruct max as [n |]; [| reflexivity]. apply N.leb_le. apply N.leb_le in H. revert H. unfold lenN.
      cbn [map concat]. rewrite !app_length. lia.
  - destruct max as [n |]; [| reflexivity]. apply N.leb_le. apply N.leb_le in H. revert H. unfold lenN.
    cbn [map concat]. destruct (ends_message f); rewrite !app_length; cbn [length]; lia.
Qed.
(** ... and both assertions hold. *)
Theorem C50_fragmentizer : forall mms chunks emitted,
  emits (frag_new mms) chunks emitted -> fragmentizer_checks mms chunks emitted = RunPassed.
Proof.
  intros mms chunks e H. destruct (emits_run _ _ _ H) as (ops & s1 & o1 & Hf & Hc & R & He).
  destruct (drains_total s1) as (o2 & s' & D).
  assert (RD : run_drain (frag_new mms) ops (o1 ++ o2) s') by (exists s1, o1, o2; auto).
  destruct (run_drain_spec _ _ _ _ Hf RD) as (fs & x & rest & Sp & Ho & _).
  apply splits_concat in Sp. rewrite Hc in Sp.
  assert (He' : concat (map ob_bytes (expected mms [] fs)) = e ++ concat (map ob_bytes o2)).
  { rewrite <- Ho, map_app, concat_app. now rewrite He. }
  unfold fragmentizer_checks. cbv zeta.
  assert (L : length e <= length (concat chunks)).
  { pose proof (expected_length mms fs []) as K. rewrite He', app_length in K. rewrite Sp, app_length. lia. }
  apply Nat.leb_le in L. rewrite L. cbn [negb].
  destruct (match mms with Some m => N.leb (lenN (concat chunks)) m | None => true end) eqn:C; [| reflexivity].
  cbn [andb]. rewrite (expected_whole mms fs []) in He'.
  - rewrite Sp, He', <- app_assoc, firstn_app, firstn_all, Nat.sub_diag. cbn [firstn]. rewrite app_nil_r.
    replace (beqs e e) with true; [reflexivity |]. symmetry. now apply beqs_eq.
  - destruct mms as [m |]; [| reflexivity]. apply N.leb_le. apply N.leb_le in C. revert C. rewrite Sp. unfold lenN.
    rewrite app_length. cbn [app]. lia.
Qed.

(** ** Where the targets do panic, and what is never generated *)
(** A generated value: how it comes about *)
Lemma mk_bind {A B} (g : gen A) (f : A -> gen B) a o : g (GVal a) -> f a o -> g_bind g f o.
Proof. intros H1 H2. left. eauto. Qed.
Lemma mk_map {A B} (f : A -> B) (g : gen A) a : g (GVal a) -> g_map f g (GVal (f a)).
Proof. intros H. apply (mk_bind _ _ a); [exact H | reflexivity]. Qed.
Lemma mk_enum {A} (l : list (gen A)) n a : nth n l g_fail (GVal a) -> g_enum l (GVal a).
Proof.
  intros H. right. exists (nth n l g_fail). split; [| exact H]. destruct (nth_in_or_default n l g_fail) as [K | K]; [exact K |].
  rewrite K in H. discriminate H.
Qed.
Lemma mk_none {A} (g : gen A) : g_option g (GVal None).
Proof. right. now left. Qed.
Lemma mk_some {A} (g : gen A) a : g (GVal a) -> g_option g (GVal (Some a)).
Proof. intros H. right. right. now apply mk_map. Qed.
Lemma mk_times {A} (g : gen A) l : Forall (fun a => g (GVal a)) l -> g_times (length l) g (GVal l).
Proof.
  induction 1 as [| a l Ha Hl IH]; [reflexivity |]. apply (mk_bind _ _ a); [exact Ha |].
  now apply (mk_bind _ _ l).
Qed.
Lemma mk_vec {A} (g : gen A) l : Forall (fun a => g (GVal a)) l -> g_vec g (GVal l).
Proof. intros H. apply (mk_bind _ _ (length l)); [exact I | now apply mk_times]. Qed.
Lemma mk_vec1 {A} (g : gen A) a l : Forall (fun a => g (GVal a)) (a :: l) -> arb_vec1 g (GVal (a :: l)).
Proof. intros H. apply (mk_bind _ _ (a :: l)); [now apply mk_vec | reflexivity]. Qed.

Lemma mk_tag : arb_tag 100 (GVal (bs "a")).
Proof. apply (mk_bind _ _ (bs "a")); [split; [reflexivity | now vm_compute] | reflexivity]. Qed.
Definition unsorted_fetch : command :=
  mkCommand (bs "a") (CFetch [SSingle (SValue 2); SSingle (SValue 1)] (MIMacro MacroAll) false []).
Lemma unsorted_fetch_generated : arb_command (F:=default_features) false 100 (GVal unsorted_fetch).
Proof.
  apply (mk_bind _ _ (bs "a")); [apply mk_tag |].
  apply (mk_bind _ _ (cmd_body unsorted_fetch)); [| reflexivity].
  apply (mk_enum _ 24). cbn [nth app g_cfg starttls default_features].
  apply (mk_bind _ _ [SSingle (SValue 2); SSingle (SValue 1)]).
  { apply mk_vec1. constructor; [| constructor; [| constructor]]; apply (mk_enum _ 0); apply (mk_map SSingle), (mk_enum _ 0), (mk_map SValue);
      split; now vm_compute. }
  apply (mk_bind _ _ (MIMacro MacroAll)).
  { apply (mk_enum _ 0), (mk_map MIMacro), (mk_enum _ 1). reflexivity. }
  apply (mk_bind _ _ false); [exact I |]. apply (mk_bind _ _ []); reflexivity.
Qed.

(** With the default features (which include quirk_always_normalize_sequence_sets) both command
    targets panic on a set that is not in normal form, [2,1]. *)
Theorem C50_command_target_refuted :
  to_bytes_and_back (arb_command (F:=default_features) false 100)
    (fun c => dump_fragments (encode_command (F:=default_features) c)) (decode_command (F:=default_features)) RunPanicked.
Proof.
  apply C50_command_target_cases; [now vm_compute |]. exists unsorted_fetch.
  split; [apply unsorted_fetch_generated |]. vm_compute. discriminate.
Qed.
Theorem C50_decode_command_refuted :
  decode_target (fun c => dump_fragments (encode_command (F:=default_features) c)) (decode_command (F:=default_features))
    (bs "a FETCH 2,1 ALL" ++ [bCR; bLF]) RunPanicked.
Proof.
  apply (DT_different _ _ _ [] unsorted_fetch); [vm_compute; reflexivity |]. vm_compute. discriminate.
Qed.
(** [response_to_bytes_and_back]: the flag [\Recent] *)
Definition recent_fetch : response :=
  RData (DFetch 1 [MDFlags [FFFlag (FExtension (bs "Recent"))]]).
Theorem C50_response_target_refuted :
  to_bytes_and_back (arb_response (F:=default_features) false 100)
    (fun c => dump_fragments (encode_response (F:=default_features) c)) (decode_response (F:=default_features)) RunPanicked.
Proof.
  apply (TB_different _ _ _ recent_fetch); [| vm_compute; discriminate].
  apply (mk_enum _ 1), (mk_map RData), (mk_enum _ 11). cbn [nth app].
  apply (mk_bind _ _ 1%N); [split; now vm_compute |]. apply (mk_bind _ _ [MDFlags [FFFlag (FExtension (bs "Recent"))]]); [| reflexivity].
  apply mk_vec1. constructor; [| constructor]. apply (mk_enum _ 4). cbn [nth app]. apply (mk_map MDFlags), mk_vec.
  constructor; [| constructor]. apply (mk_enum _ 0), (mk_map FFFlag).
  apply (mk_bind _ _ (bBS :: bs "Recent")); [split; [reflexivity | now vm_compute] | reflexivity].
Qed.
(** The list form of a body extension is never generated (its arm of the [match] is out of the
    range of the random number). *)
Theorem C50_no_extension_list : forall (F : features) simplified size,
  only_makes (arb_body_extension simplified size) (fun b => match b with BEList _ => False | _ => True end).
Proof.
  intros F simplified size.
  assert (L : forall arms : list (gen body_extension), sat (nth 0 arms g_panic) (fun b => match b with BEList _ => False | _ => True end) ->
    sat (nth 1 arms g_panic) (fun b => match b with BEList _ => False | _ => True end) ->
    sat (g_match 1 2 1 arms) (fun b => match b with BEList _ => False | _ => True end)).
  { intros arms H0 H1. eapply sat_bind; [apply sat_any; intros n Hn; exact Hn |]. cbv beta. intros n Hn.
    destruct (Nat.ltb_spec n 1); [lia |]. assert (n - 1 = 0 \/ n - 1 = 1) as [-> | ->] by lia; assumption. }
  assert (A0 : sat (g_map BENString (arb_nstring size)) (fun b => match b with BEList _ => False | _ => True end)).
  { apply sat_map. eapply sat_weaken; [apply (sat_nstring size LType); now left |]. auto. }
  assert (A1 : sat (g_map BENumber g_u32) (fun b => match b with BEList _ => False | _ => True end)).
  { apply sat_map. eapply sat_weaken; [apply sat_u32 |]. auto. }
  apply sat_only_makes. unfold arb_body_extension. destruct simplified; [apply L; assumption |].
  apply L; assumption.
Qed.

Print Assumptions C50_command.
Print Assumptions C50_greeting.
Print Assumptions C50_response.
Print Assumptions C50_command_back.
Print Assumptions C50_command_target.
Print Assumptions C50_command_target_cases.
Print Assumptions C50_greeting_target.
Print Assumptions C50_response_target.
Print Assumptions C50_authenticate_data_target.
Print Assumptions C50_decode_command.
Print Assumptions C50_decode_greeting.
Print Assumptions C50_decode_response.
Print Assumptions C50_decode_authenticate_data.
Print Assumptions C50_tags.
Print Assumptions C50_fragmentizer_runs.
Print Assumptions C50_fragmentizer.
Print Assumptions C50_command_target_refuted.
Print Assumptions C50_decode_command_refuted.
Print Assumptions C50_response_target_refuted.
Print Assumptions C50_no_extension_list.

(** ** The theorems are not vacuous *)
(** [unsorted_fetch] and [recent_fetch] are generated; so is this greeting. *)
Definition some_greeting : greeting := mkGreeting GKPreAuth (Some (CdOther (bs "IMAP-CODEC-CODE-OTHER>"))) (bs "...").
Example C50_greeting_generated : arb_greeting (F:=default_features) 100 (GVal some_greeting).
Proof.
  apply (mk_bind _ _ GKPreAuth); [apply (mk_enum _ 1); reflexivity |].
  apply (mk_bind _ _ (gr_code some_greeting)).
  { apply mk_some, (mk_enum _ 18). cbn [nth app g_cfg ext_mailbox_referrals ext_login_referrals orb default_features ext_metadata ext_condstore_qresync].
    now apply (mk_map CdOther). }
  apply (mk_bind _ _ (bs "...")); [| reflexivity]. apply (mk_bind _ _ (bs "[x")); [| reflexivity].
  apply (mk_bind _ _ (bs "[x")); [split; [reflexivity | now vm_compute] | reflexivity].
Qed.
(** The default features satisfy the hypotheses of the greeting and response targets. *)
Example C50_default : let F := default_features in
  (ext_mailbox_referrals || ext_login_referrals) = false /\ ext_condstore_qresync = false /\
  quirk_id_empty_to_nil = false.
Proof. repeat split. Qed.
(** A run of the fragmentizer target: the last chunk is enqueued but not parsed. *)
Example C50_emits : exists e,
  emits (frag_new (Some 100%N)) [bs "a {2}" ++ [bLF]; bs "xy" ++ [bLF]; bs "b"] e /\
  e = bs "a {2}" ++ [bLF] ++ bs "xy" ++ [bLF].
Proof.
  eexists. split.
  - eapply EM_enqueue; [vm_compute; reflexivity |].
    eapply EM_fragment; [vm_compute; reflexivity |]. eapply EM_enqueue; [vm_compute; reflexivity |].
    eapply EM_fragment; [vm_compute; reflexivity |]. eapply EM_fragment; [vm_compute; reflexivity |].
    eapply EM_enqueue; [vm_compute; reflexivity |]. constructor.
  - vm_compute. reflexivity.
Qed.
