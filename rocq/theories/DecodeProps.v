(** Properties of the decoders on arbitrary input: C14, C15, C16, C18, C20, C21. *)

From Verif Require Import Bytes BytesFacts Dec Features Nom Types Utf8 Conv
  ParserFacts ParseCore ParseBody ParseCmd ParseResp Decode Valid ValidFacts OkTac OkCore OkBody
  OkCmd OkResp DecodeFacts DecodeSpec.
Open Scope nat_scope.

Section DecodeProps.
Context {F : features}.

Notation any_other := (fun _ _ : bytes => true).

(** ** From parsers to decoders *)
Lemma okk_command_body : okk (v_command_body LDecoded) p_command_body.
Proof. intros k. apply ok_p_command_body. Qed.
Lemma okk_response : okk (v_response LDecoded any_other) p_response.
Proof. intros k. apply ok_p_response, other_any. Qed.
Lemma okk_greeting : okk (v_greeting LDecoded any_other) p_greeting.
Proof. intros k. apply ok_p_greeting, other_any. Qed.
Lemma okk_auth : okk any p_authenticate_data.
Proof. intros k. apply ok_p_authenticate_data. Qed.
Lemma okk_idle : okk any p_idle_done.
Proof. intros k. apply ok_p_idle_done. Qed.

Lemma simple_decoded {A} (p : parser A) i r a :
  simple_decode p i = Decoded r a -> p i = ROk r a.
Proof. unfold simple_decode. destruct (p i); congruence. Qed.
Lemma command_decoded i r c : decode_command i = Decoded r c -> p_command i = ROk r c.
Proof. unfold decode_command. destruct (p_command i) as [| | | [[t |] n m |] |]; congruence. Qed.
Lemma response_decoded i r c : decode_response i = Decoded r c -> p_response i = ROk r c.
Proof. unfold decode_response. destruct (p_response i) as [| | | [t n m |] |]; congruence. Qed.

Lemma decoded_command_valid i r c :
  decode_command i = Decoded r c -> v_command LDecoded c = true.
Proof.
  intros H. apply command_decoded, p_command_inv in H as (r1 & _ & Ht & Hb & _).
  unfold v_command. rewrite Ht. apply (okk_post okk_command_body _ _ _ Hb).
Qed.
Lemma decoded_response_valid i r c :
  decode_response i = Decoded r c -> v_response LDecoded any_other c = true.
Proof. intros H. apply response_decoded in H. apply (okk_post okk_response _ _ _ H). Qed.
Lemma decoded_greeting_valid i r c :
  decode_greeting i = Decoded r c -> v_greeting LDecoded any_other c = true.
Proof. intros H. apply simple_decoded in H. apply (okk_post okk_greeting _ _ _ H). Qed.

(** ** C14: decoded messages satisfy every type invariant *)
Lemma rt_type x : only_rt LDecoded x = true -> only_rt LType x = true.
Proof. reflexivity. Qed.
Lemma exact_type x : only_exact LDecoded x = true -> only_exact LType x = true.
Proof. reflexivity. Qed.

Theorem C14_command_valid : forall i r c,
  decode_command i = Decoded r c -> v_command LType c = true.
Proof.
  intros i r c H. apply decoded_command_valid in H. revert H.
  apply m_command; [apply rt_type | apply exact_type].
Qed.
Theorem C14_response_valid : forall i r m,
  decode_response i = Decoded r m -> v_response LType any_other m = true.
Proof.
  intros i r c H. apply decoded_response_valid in H. revert H.
  apply m_response; auto using rt_type, exact_type.
Qed.
Theorem C14_greeting_valid : forall i r g,
  decode_greeting i = Decoded r g -> v_greeting LType any_other g = true.
Proof.
  intros i r c H. apply decoded_greeting_valid in H. revert H.
  apply m_greeting; auto using rt_type, exact_type.
Qed.

(** ** C15: success is stable *)
Theorem C15_command_stable : stable decode_command.
Proof.
  intros i r c H. apply command_decoded in H. split.
  - apply p_command_inv in H as (r1 & -> & _ & Hb & _).
    apply to_lf_p_command_body in Hb as [d ->]. exists (cmd_tag c ++ bSP :: d).
    now rewrite <- app_assoc.
  - intros x. apply p_command_inv in H as (r1 & _ & _ & Hb & Ht).
    unfold decode_command. rewrite p_command_eq, Ht. unfold pmap, bind.
    rewrite (okk_ext okk_command_body _ _ _ _ Hb). now destruct c.
Qed.
Theorem C15_response_stable : stable decode_response.
Proof.
  intros i r c H. apply response_decoded in H. split.
  - apply to_lf_p_response in H as [d ->]. now exists d.
  - intros x. unfold decode_response. now rewrite (okk_ext okk_response _ _ _ _ H).
Qed.
Lemma simple_stable {A} v (p : parser A) : okk v p -> to_lf p -> stable (simple_decode p).
Proof.
  intros K L i r a H. apply simple_decoded in H. split.
  - apply L in H as [d ->]. now exists d.
  - intros x. unfold simple_decode. now rewrite (okk_ext K _ _ _ _ H).
Qed.
Theorem C15_greeting_stable : stable decode_greeting.
Proof. apply (simple_stable _ _ okk_greeting to_lf_p_greeting). Qed.
Theorem C15_authenticate_data_stable : stable decode_authenticate_data.
Proof. apply (simple_stable _ _ okk_auth to_lf_p_authenticate_data). Qed.
Theorem C15_idle_done_stable : stable decode_idle_done.
Proof. apply (simple_stable _ _ okk_idle to_lf_p_idle_done). Qed.

(** ** C16: failure is final *)
Theorem C16_command_failure_final : final_failure cmd_failed decode_command.
Proof.
  intros i [| |] x H Hf; try discriminate.
  assert (E : p_command i = RErr \/ p_command i = RFail FOther).
  { unfold decode_command in H. destruct (p_command i) as [| | | [[t |] n m |] |]; try discriminate; auto. }
  assert (G : p_command (i ++ x) = RErr \/ p_command (i ++ x) = RFail FOther).
  { rewrite p_command_eq in *.
    destruct (terminated p_tag_imap sp i) as [r t | | | e |] eqn:Et.
    - rewrite (okk_ext (fun k => ok_tag_sp k) _ _ _ _ Et).
      assert (K : p_command_body r = RErr \/ p_command_body r = RFail FOther).
      { unfold pmap, bind, fill_tag, ret in E.
        destruct (p_command_body r) as [| | | [? ? ? |] |]; auto; destruct E; discriminate. }
      unfold pmap, bind. destruct K as [K | K].
      + rewrite (okk_err okk_command_body _ _ K). auto.
      + rewrite (okk_fail okk_command_body _ _ K). auto.
    - destruct E; discriminate.
    - rewrite (okk_err (fun k => ok_tag_sp k) _ _ Et). auto.
    - destruct e as [t n m |].
      + exfalso. destruct E; discriminate.
      + rewrite (okk_fail (fun k => ok_tag_sp k) _ _ Et). auto.
    - destruct E; discriminate. }
  unfold decode_command. destruct G as [-> | ->]; reflexivity.
Qed.
Theorem C16_response_failure_final : final_failure rsp_failed decode_response.
Proof.
  intros i [| |] x H Hf; try discriminate. unfold decode_response in *.
  destruct (p_response i) as [| | | [t n m |] |] eqn:E; try discriminate.
  - now rewrite (okk_err okk_response _ _ E).
  - now rewrite (okk_fail okk_response _ _ E).
Qed.
Lemma simple_final {A} v (p : parser A) : okk v p -> nolit p ->
  final_failure is_failed (simple_decode p).
Proof.
  intros K L i [|] x H Hf; try discriminate. unfold simple_decode in *.
  destruct (p i) as [| | | [t n m |] |] eqn:E; try discriminate.
  - now rewrite (okk_err K _ _ E).
  - now apply L in E.
  - now rewrite (okk_fail K _ _ E).
Qed.
Theorem C16_greeting_failure_final : final_failure is_failed decode_greeting.
Proof. apply (simple_final _ _ okk_greeting nolit_p_greeting). Qed.
Theorem C16_authenticate_data_failure_final : final_failure is_failed decode_authenticate_data.
Proof. apply (simple_final _ _ okk_auth nolit_p_authenticate_data). Qed.
Theorem C16_idle_done_failure_final : final_failure is_failed decode_idle_done.
Proof. apply (simple_final _ _ okk_idle nolit_p_idle_done). Qed.

(** ** C18: LiteralFound is sound *)
Lemma announced_spec i n m : announced i n m -> ends_in_announcement i n m.
Proof.
  intros (pre & d & e & -> & He & Hd & Hf & Hn & _). exists pre, d, (match m with Sync => [] | NonSync => bs "+" end), e.
  repeat split; auto.
Qed.
Theorem C18_command_literal_sound : forall i t n m,
  decode_command i = Error (CmdLiteralFound t n m) ->
  ends_in_announcement i n m /\ tag_ok t = true /\ exists rest, i = t ++ bs " " ++ rest.
Proof.
  intros i t n m H. unfold decode_command in H. rewrite p_command_eq in H.
  destruct (terminated p_tag_imap sp i) as [r t' | | | [t' n' m' |] |] eqn:Et; try discriminate.
  - unfold pmap, bind, fill_tag, ret in H.
    destruct (p_command_body r) as [| | | [? ? ? |] |] eqn:E; try discriminate. inv H.
    pose proof (okk_lit okk_command_body _ _ _ _ E) as [_ K].
    pose proof (okk_post (fun k => ok_tag_sp k) _ _ _ Et) as V.
    apply tag_sp_inv in Et as ->. split; [| split; [exact V | now exists r]].
    apply announced_spec. apply (announced_app (t ++ [bSP])) in K. now rewrite <- app_assoc in K.
  - now apply nolit_tag_sp in Et.
Qed.
Theorem C18_response_literal_sound : forall i n,
  decode_response i = Error (RspLiteralFound n) -> exists m, ends_in_announcement i n m.
Proof.
  intros i n H. unfold decode_response in H.
  destruct (p_response i) as [| | | [t n' m |] |] eqn:E; try discriminate. inv H.
  exists m. apply announced_spec. now apply (okk_lit okk_response _ _ _ _ E).
Qed.

(** ** C20: decoders never panic *)
Theorem C20_no_panic : forall i,
  decode_command i <> Panic /\ decode_response i <> Panic /\ decode_greeting i <> Panic /\
  decode_authenticate_data i <> Panic /\ decode_idle_done i <> Panic.
Proof.
  intros i. repeat split.
  - intros H. unfold decode_command in H. rewrite p_command_eq in H.
    destruct (terminated p_tag_imap sp i) as [r t | | | [t n m |] |] eqn:Et; try discriminate.
    + unfold pmap, bind, fill_tag, ret in H.
      destruct (p_command_body r) as [| | | [? ? ? |] |] eqn:E; try discriminate.
      now apply (okk_panic okk_command_body) in E.
    + now apply nolit_tag_sp in Et.
    + now apply (okk_panic (fun k => ok_tag_sp k)) in Et.
  - intros H. unfold decode_response in H.
    destruct (p_response i) as [| | | [? ? ? |] |] eqn:E; try discriminate.
    now apply (okk_panic okk_response) in E.
  - intros H. unfold decode_greeting, simple_decode in H.
    destruct (p_greeting i) eqn:E; try discriminate. now apply (okk_panic okk_greeting) in E.
  - intros H. unfold decode_authenticate_data, simple_decode in H.
    destruct (p_authenticate_data i) eqn:E; try discriminate. now apply (okk_panic okk_auth) in E.
  - intros H. unfold decode_idle_done, simple_decode in H.
    destruct (p_idle_done i) eqn:E; try discriminate. now apply (okk_panic okk_idle) in E.
Qed.

(** ** C21: the recursion is bounded where the code bounds it *)
Theorem C21_search_depth : forall i r c,
  decode_command i = Decoded r c ->
  Forall (fun k => search_depth k <= 9) (search_keys (cmd_body c)).
Proof.
  intros i r c H. apply decoded_command_valid in H. unfold v_command in H.
  apply andb_true_iff in H as [_ H]. apply Forall_forall. intros k Hk.
  assert (G : forall l, v1 (v_search_key LDecoded) l = true -> In k l -> search_depth k <= 9).
  { intros l Hl Hi. apply v1_forallb in Hl. rewrite forallb_forall in Hl. specialize (Hl _ Hi).
    unfold v_search_key in Hl. apply andb_true_iff in Hl as [_ Hl]. now apply Nat.leb_le in Hl. }
  destruct (cmd_body c); cbn [search_keys] in Hk; try contradiction; cbn [v_command_body] in H;
    repeat match goal with H : (_ && _)%bool = true |- _ => apply andb_true_iff in H as [? ?] end;
    eauto.
Qed.
Theorem C21_thread_depth : forall i r m,
  decode_response i = Decoded r m -> Forall (fun t => thread_depth t <= 8) (threads m).
Proof.
  intros i r m H. apply decoded_response_valid in H. apply Forall_forall. intros t Ht.
  destruct m as [| d |]; try contradiction. destruct d; try contradiction. cbn in Ht, H.
  rewrite forallb_forall in H. specialize (H _ Ht). unfold v_thread in H.
  apply andb_true_iff in H as [_ H]. now apply Nat.leb_le in H.
Qed.

(* multiparts *)
Lemma fits_sub : forall b n, body_fits n b = true -> n <= 7 ->
  multipart_depth b <= n /\ Forall (fun x => multipart_depth x <= 7) (sub_bodies b).
Proof.
  induction b as [b t s x | b s n0 x | b e c n0 x IH | l s x IH] using body_ind'; intros n H L;
    cbn [body_fits multipart_depth sub_bodies] in *.
  - repeat constructor; lia.
  - repeat constructor; lia.
  - apply andb_true_iff in H as [_ H]. destruct (IH _ H ltac:(lia)) as [_ K].
    split; [lia |]. constructor; [cbn; lia | exact K].
  - apply andb_true_iff in H as [H1 H]. apply Nat.leb_le in H1.
    rewrite forallb_forall in H. rewrite Forall_forall in IH.
    assert (M : S (list_max (map multipart_depth l)) <= n).
    { destruct n as [| n]; [lia |]. apply le_n_S, list_max_le, Forall_map, Forall_forall.
      intros c Hc. destruct (IH c Hc n (H c Hc) ltac:(lia)). lia. }
    split; [exact M |]. constructor; [cbn [multipart_depth]; lia |].
    apply Forall_flat_map, Forall_forall. intros c Hc.
    destruct (IH c Hc (pred n) (H c Hc) ltac:(lia)). assumption.
Qed.
Lemma top_extensions_ok b : v_body_structure LDecoded b = true ->
  Forall (fun e => be_depth e <= 8) (top_extensions b).
Proof.
  assert (G : forall t, vopt (v_disposition LDecoded) t = true ->
    Forall (fun e => be_depth e <= 8) (tail_extensions t)).
  { intros [[d [[l [[lo es] |]] |]] |] H; cbn [tail_extensions disp_tail lang_tail loc_extensions];
      try constructor.
    cbn [vopt] in H. unfold v_disposition in H. cbn [disp_tail vopt] in H.
    apply andb_true_iff in H as [_ H]. unfold v_language in H. cbn [lang_tail vopt] in H.
    apply andb_true_iff in H as [_ H]. unfold v_location in H. cbn [loc_extensions] in H.
    apply andb_true_iff in H as [_ H]. apply Forall_forall. intros e He.
    rewrite forallb_forall in H. specialize (H e He). cbn [only_rt] in H.
    apply andb_true_iff in H as [_ H]. now apply Nat.leb_le in H. }
  destruct b as [bf sf [[m t] |] | l s [[m t] |]]; cbn [top_extensions se_tail me_tail]; intros H;
    try constructor; apply G; cbn [v_body_structure vopt] in H;
    repeat match goal with H : (_ && _)%bool = true |- _ => apply andb_true_iff in H as [? ?] end.
  - unfold v_single_ext in *. cbn [se_tail] in *. now apply andb_true_iff in H0 as [_ ?].
  - unfold v_multi_ext in *. cbn [me_tail] in *. now apply andb_true_iff in H0 as [_ ?].
Qed.
Lemma sub_valid b : v_body_structure LDecoded b = true ->
  Forall (fun x => v_body_structure LDecoded x = true) (sub_bodies b).
Proof.
  induction b as [b t s x | b s n0 x | b e c n0 x IH | l s x IH] using body_ind'; intros H;
    cbn [sub_bodies]; constructor; try constructor; try exact H.
  - cbn [v_body_structure] in H.
    repeat match goal with H : (_ && _)%bool = true |- _ => apply andb_true_iff in H as [? ?] end.
    auto.
  - cbn [v_body_structure] in H.
    repeat match goal with H : (_ && _)%bool = true |- _ => apply andb_true_iff in H as [? ?] end.
    apply Forall_flat_map, Forall_forall. intros c Hc. rewrite Forall_forall in IH.
    apply IH; [exact Hc |]. rewrite forallb_forall in H2. auto.
Qed.
Lemma decoded_bodies i r m : decode_response i = Decoded r m ->
  Forall (fun b => v_body LDecoded b = true) (bodies m).
Proof.
  intros H. apply decoded_response_valid in H.
  destruct m as [| d |]; try constructor. destruct d; try constructor. cbn in *.
  apply andb_true_iff in H as [_ H]. apply v1_forallb in H. apply Forall_flat_map, Forall_forall.
  intros x Hx. rewrite forallb_forall in H. specialize (H x Hx).
  destruct x; constructor; try constructor; exact H.
Qed.
(** Multiparts are nested at most 7 deep, in the body and in every message embedded in it. *)
Theorem C21_multipart_depth : forall i r m,
  decode_response i = Decoded r m ->
  Forall (fun b => Forall (fun x => multipart_depth x <= 7) (sub_bodies b)) (bodies m).
Proof.
  intros i r m H. apply decoded_bodies in H. revert H. apply Forall_impl. intros b H.
  apply andb_true_iff in H as [_ H]. cbn [only_rt] in H. now apply (fits_sub b 7).
Qed.
Theorem C21_extension_depth : forall i r m,
  decode_response i = Decoded r m ->
  Forall (fun b => Forall (fun x => Forall (fun e => be_depth e <= 8) (top_extensions x))
                     (sub_bodies b)) (bodies m).
Proof.
  intros i r m H. apply decoded_bodies in H. revert H. apply Forall_impl. intros b H.
  apply andb_true_iff in H as [H _]. apply sub_valid in H. revert H. apply Forall_impl.
  intros x. apply top_extensions_ok.
Qed.

End DecodeProps.

Print Assumptions C14_command_valid.
Print Assumptions C14_response_valid.
Print Assumptions C14_greeting_valid.
Print Assumptions C15_command_stable.
Print Assumptions C15_response_stable.
Print Assumptions C15_greeting_stable.
Print Assumptions C15_authenticate_data_stable.
Print Assumptions C15_idle_done_stable.
Print Assumptions C16_command_failure_final.
Print Assumptions C16_response_failure_final.
Print Assumptions C16_greeting_failure_final.
Print Assumptions C16_authenticate_data_failure_final.
Print Assumptions C16_idle_done_failure_final.
Print Assumptions C18_command_literal_sound.
Print Assumptions C18_response_literal_sound.
Print Assumptions C20_no_panic.
Print Assumptions C21_search_depth.
Print Assumptions C21_thread_depth.
Print Assumptions C21_multipart_depth.
Print Assumptions C21_extension_depth.

(** ** The theorems are not vacuous *)
#[local] Existing Instance default_features.
Definition crlf_bytes : bytes := [bCR; bLF].
Example C14_C15_command : exists c,
  decode_command (bs "a LOGIN bob ""p\""w""" ++ crlf_bytes ++ bs "rest") = Decoded (bs "rest") c /\
  c = mkCommand (bs "a") (CLogin (AAtom (bs "bob")) (AString (IQuoted (bs "p""w")))).
Proof. eexists. split; vm_compute; reflexivity. Qed.
Example C14_C15_response : exists n b,
  decode_response (bs "* 7 FETCH (BODY (""TEXT"" ""PLAIN"" NIL NIL NIL ""7BIT"" 2 1) UID 4)" ++ crlf_bytes)
  = Decoded [] (RData (DFetch 7 [MDBody b; MDUid n])).
Proof. eexists _, _. vm_compute. reflexivity. Qed.
Example C14_C15_greeting :
  decode_greeting (bs "* PREAUTH [ALERT] hi" ++ crlf_bytes ++ bs "x")
  = Decoded (bs "x") (mkGreeting GKPreAuth (Some CdAlert) (bs "hi")).
Proof. vm_compute. reflexivity. Qed.
Example C15_others :
  decode_authenticate_data (bs "aGk=" ++ crlf_bytes) = Decoded [] (ADContinue (bs "hi")) /\
  decode_idle_done (bs "done" ++ crlf_bytes) = Decoded [] tt.
Proof. split; vm_compute; reflexivity. Qed.
Example C16_failed :
  decode_command (bs "a FETCH 0") = Error CmdIncomplete /\
  decode_command (bs "a FETCH 0 ") = Error CmdFailed /\
  decode_response (bs "* 0 FETCH (UID 1)" ++ crlf_bytes) = Error RspFailed /\
  decode_greeting (bs "* NO no" ++ crlf_bytes) = Error Failed /\
  decode_authenticate_data (bs "a*") = Error Failed /\
  decode_idle_done (bs "DO!") = Error Failed.
Proof. repeat split; vm_compute; reflexivity. Qed.
Example C18_found :
  decode_command (bs "a7 LOGIN bob {10+}" ++ crlf_bytes)
    = Error (CmdLiteralFound (bs "a7") 10 NonSync) /\
  decode_command (bs "a7 APPEND x ~{3}" ++ crlf_bytes)
    = Error (CmdLiteralFound (bs "a7") 3 Sync) /\
  decode_response (bs "* 1 FETCH (BODY[] {5}" ++ crlf_bytes) = Error (RspLiteralFound 5).
Proof. repeat split; vm_compute; reflexivity. Qed.
Example C21_search : exists c,
  decode_command (bs "a SEARCH NOT (OR SEEN NOT DELETED)" ++ crlf_bytes) = Decoded [] c /\
  map search_depth (search_keys (cmd_body c)) = [5].
Proof. eexists. split; vm_compute; reflexivity. Qed.
Example C21_thread : exists m,
  decode_response (bs "* THREAD ((1)(2 3)(4 (5)(6)))" ++ crlf_bytes) = Decoded [] m /\
  map thread_depth (threads m) = [3].
Proof. eexists. split; vm_compute; reflexivity. Qed.
Example C21_body : exists m,
  decode_response (bs "* 1 FETCH (BODYSTRUCTURE (((""A"" ""B"" NIL NIL NIL ""7BIT"" 1 NIL NIL NIL NIL (1 (2)) 3) ""M"") ""N""))" ++ crlf_bytes) = Decoded [] m /\
  map (fun b => map multipart_depth (sub_bodies b)) (bodies m) = [[2; 1; 0]] /\
  map (fun b => map be_depth (flat_map top_extensions (sub_bodies b))) (bodies m) = [[3; 1]].
Proof. eexists. repeat split; vm_compute; reflexivity. Qed.
