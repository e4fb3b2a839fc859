(** C47, C48: messages survive serde, and serde cannot break the invariants of the types.

    [ser_command] is what [Serialize] tells a self-describing format (a tree of maps, sequences
    and leaves), [de_command] is what [Deserialize] makes of such a tree, or [None] if it
    refuses. *)

From Verif Require Import Bytes Dec Features Types Utf8 Conv Base64 Date Valid Serde SerdeTypes
  SerdeSpec SerdeFacts SerdeRt SerdeOk SerdeFuel.

Definition any_other : bytes -> bytes -> bool := fun _ _ => true.

Section SerdeProps.
Context {F : features}.

(** ** C47: deserialising what was serialised gives the value back *)

Theorem C47_command : forall c, v_command LType c = true -> de_command (ser_command c) = Some c.
Proof. exact rt_command. Qed.
Theorem C47_response : forall r, v_response LType any_other r = true ->
  de_response (ser_response r) = Some r.
Proof. exact (rt_response any_other). Qed.
Theorem C47_greeting : forall g, v_greeting LType any_other g = true ->
  de_greeting (ser_greeting g) = Some g.
Proof. exact (rt_greeting any_other). Qed.
Theorem C47_authenticate_data : forall a,
  de_authenticate_data (ser_authenticate_data a) = Some a.
Proof. intros a. now apply rt_authenticate_data. Qed.
Theorem C47_state : forall s, v_state s = true -> de_state (ser_state s) = Some s.
Proof. exact rt_state. Qed.

(** Different values are serialised differently. *)
Theorem C47_injective :
  (forall c c', v_command LType c = true -> v_command LType c' = true ->
     ser_command c = ser_command c' -> c = c') /\
  (forall r r', v_response LType any_other r = true -> v_response LType any_other r' = true ->
     ser_response r = ser_response r' -> r = r') /\
  (forall g g', v_greeting LType any_other g = true -> v_greeting LType any_other g' = true ->
     ser_greeting g = ser_greeting g' -> g = g') /\
  (forall a a', ser_authenticate_data a = ser_authenticate_data a' -> a = a').
Proof.
  repeat split.
  - intros c c' H H' E. apply C47_command in H, H'. congruence.
  - intros c c' H H' E. apply C47_response in H, H'. congruence.
  - intros c c' H H' E. apply C47_greeting in H, H'. congruence.
  - intros a a' E. pose proof (C47_authenticate_data a). pose proof (C47_authenticate_data a').
    congruence.
Qed.

(** ** C48: what is deserialised satisfies the invariants, up to names in an Other variant *)

Lemma auth_unshadowed m : v_auth_mechanism LType m = true -> unshadowed_auth m = true.
Proof. destruct m; auto. intros H. now apply andb_prop in H. Qed.
Lemma flag_unshadowed f : v_flag f = true -> unshadowed_flag f = true.
Proof. destruct f; auto. intros H. now apply andb_prop in H. Qed.
Lemma flag_fetch_unshadowed f : v_flag_fetch LType f = true -> unshadowed_flag_fetch f = true.
Proof. destruct f; auto. intros H. apply andb_prop in H as [H _]. now apply flag_unshadowed. Qed.
Lemma flag_perm_unshadowed f : v_flag_perm f = true -> unshadowed_flag_perm f = true.
Proof. destruct f; auto. apply flag_unshadowed. Qed.
Lemma flag_name_unshadowed f : v_flag_name f = true -> unshadowed_flag_name f = true.
Proof. destruct f; auto. intros H. now apply andb_prop in H. Qed.
Lemma attribute_flag_unshadowed f : v_attribute_flag f = true -> unshadowed_attribute_flag f = true.
Proof. destruct f; auto. intros H. now apply andb_prop in H. Qed.
Lemma enable_unshadowed c : v_capability_enable c = true -> unshadowed_enable c = true.
Proof. destruct c; auto. intros H. now apply andb_prop in H. Qed.
Lemma resource_unshadowed r : v_resource r = true -> unshadowed_resource r = true.
Proof. destruct r; auto. intros H. now apply andb_prop in H. Qed.
Lemma sort_unshadowed a : v_sort_algorithm a = true -> unshadowed_sort a = true.
Proof. destruct a; auto. intros H. now apply andb_prop in H. Qed.
Lemma threading_unshadowed a : v_threading_algorithm a = true -> unshadowed_threading a = true.
Proof. destruct a; auto. intros H. now apply andb_prop in H. Qed.
Lemma forallb_imp A (P Q : A -> bool) l : (forall a, P a = true -> Q a = true) ->
  forallb P l = true -> forallb Q l = true.
Proof. intros H. rewrite !forallb_forall. auto. Qed.
Lemma search_unshadowed : forall k, v_search_tree LType k = true -> unshadowed_search k = true.
Proof.
  fix IH 1. intros k H. destruct k; try reflexivity; cbn [v_search_tree unshadowed_search] in *.
  - apply andb_prop in H as [_ H]. induction l as [|k l IHl]; [reflexivity|].
    cbn [forallb] in *. apply andb_prop in H as [H1 H2]. rewrite (IH k H1). exact (IHl H2).
  - exact (IH k H).
  - apply andb_prop in H as [H1 H2]. now rewrite (IH _ H1), (IH _ H2).
  - destruct entry as [[f t]|]; [|reflexivity]. split_ok. unfold vopt, vpair in *. split_ok.
    now apply attribute_flag_unshadowed.
Qed.
Lemma search_keys_unshadowed l : v1 (v_search_key LType) l = true ->
  forallb unshadowed_search l = true.
Proof.
  intros H. apply v1_split in H as [_ H]. revert H. apply forallb_imp. intros k H.
  apply andb_prop in H as [H _]. now apply search_unshadowed.
Qed.
Lemma command_unshadowed c : v_command LType c = true -> unshadowed_command c = true.
Proof.
  unfold v_command, unshadowed_command. intros H. apply andb_prop in H as [_ H].
  destruct (cmd_body c); try reflexivity; cbn [v_command_body] in H; unfold vopt in *; split_ok;
    repeat match goal with |- _ && _ = true => apply andb_true_intro; split end;
    solve [ now apply auth_unshadowed | now apply threading_unshadowed
          | now apply search_keys_unshadowed
          | match goal with H : _ |- _ => revert H; apply forallb_imp end;
            first [ exact flag_unshadowed
                  | intros q Hq; apply andb_prop in Hq as [Hq _]; now apply resource_unshadowed ]
          | match goal with H : _ |- _ => apply v1_split in H as [_ H]; revert H end;
            apply forallb_imp; exact enable_unshadowed ].
Qed.
Lemma capability_unshadowed c : v_capability LType c = true -> unshadowed_capability c = true.
Proof.
  destruct c; try reflexivity; cbn [v_capability unshadowed_capability]; intros H.
  - now apply auth_unshadowed.
  - apply andb_prop in H as [H _]. now apply resource_unshadowed.
  - destruct a as [a|]; [now apply sort_unshadowed | reflexivity].
  - now apply threading_unshadowed.
  - now apply andb_prop in H.
Qed.
Lemma code_unshadowed c t : v_code_text LType any_other c t = true -> unshadowed_code c = true.
Proof.
  unfold v_code_text. intros H. apply andb_prop in H as [_ H].
  destruct c as [[]|]; try reflexivity; cbn [v_code unshadowed_code] in *.
  - apply v1_split in H as [_ H]. revert H. apply forallb_imp. exact capability_unshadowed.
  - revert H. apply forallb_imp. exact flag_perm_unshadowed.
Qed.
Lemma item_unshadowed i : v_message_data_item LType i = true -> unshadowed_item i = true.
Proof.
  destruct i; try reflexivity. cbn [v_message_data_item unshadowed_item]. apply forallb_imp.
  exact flag_fetch_unshadowed.
Qed.
Lemma response_unshadowed r : v_response LType any_other r = true -> unshadowed_response r = true.
Proof.
  destruct r as [[c t|]|d|[b|t b|c t]]; cbn [v_response v_continuation v_status unshadowed_response]; intros H;
    try reflexivity.
  - destruct c as [c|]; [|reflexivity]. apply (code_unshadowed (Some c) t). exact H.
  - destruct d; try reflexivity; cbn [v_data] in H; split_ok;
      first [ match goal with H : v1 _ _ = true |- _ => apply v1_split in H as [_ H]; revert H end
            | match goal with H : forallb _ ?l = true |- forallb _ ?l = true => revert H end ];
      apply forallb_imp;
      first [ exact capability_unshadowed | exact flag_name_unshadowed | exact flag_unshadowed
            | exact item_unshadowed | exact enable_unshadowed
            | intros q Hq; unfold v_quota_get in Hq; split_ok; now apply resource_unshadowed ].
  - apply (code_unshadowed _ (sb_text b)). exact H.
  - apply andb_prop in H as [_ H]. apply (code_unshadowed _ (sb_text b)). exact H.
  - now apply (code_unshadowed _ t).
Qed.

(** A deserialised message satisfies every invariant of its types iff none of its Other
    variants carries a known name. *)
Theorem C48_command : forall t c, de_command t = Some c ->
  (v_command LType c = true <-> unshadowed_command c = true).
Proof.
  intros t c E. split; [apply command_unshadowed|]. intros U.
  exact (implb_use _ _ (good_command _ _ E) U).
Qed.
Theorem C48_response : forall t r, de_response t = Some r ->
  (v_response LType any_other r = true <-> unshadowed_response r = true).
Proof.
  intros t r E. split; [apply response_unshadowed|]. intros U.
  exact (implb_use _ _ (good_response any_other _ _ E) U).
Qed.
Theorem C48_greeting : forall t g, de_greeting t = Some g ->
  (v_greeting LType any_other g = true <-> unshadowed_greeting g = true).
Proof.
  intros t g E. split; [apply code_unshadowed|]. intros U.
  exact (implb_use _ _ (good_greeting any_other _ _ E) U).
Qed.
Theorem C48_state : forall t s, de_state t = Some s -> v_state s = true.
Proof. exact good_state. Qed.

(** How deeply a message may be nested in the tree does not matter: the readers of types that
    contain themselves do not depend on their fuel. *)
Theorem C48_fuel : forall n t, (height t <= n)%nat ->
  de_body_extension_n n t = de_body_extension t /\ de_body_structure_n n t = de_body_structure t /\
  de_thread_n n t = de_thread t /\ de_search_key_n n t = de_search_key t.
Proof.
  intros n t H. repeat split.
  - now apply body_extension_fuel.
  - now apply body_structure_fuel.
  - now apply thread_fuel.
  - now apply search_key_fuel.
Qed.

End SerdeProps.

(** Other variants with a known name are accepted: [AuthMechanismOther], [CapabilityOther],
    [FlagExtension], ... derive [Deserialize], which does not use their constructors. The value
    is not equal to the known variant, although both are written in the same way. *)
Definition C48_shadow : tree :=
  ser_struct [bs "tag"; bs "body"]
    [TStr (bs "A");
     ser_variant (bs "Authenticate")
       (ser_struct [bs "mechanism"; bs "initial_response"]
          [ser_variant (bs "Other") (TStr (bs "PLAIN")); TNull])].
Theorem C48_all_refuted :
  ~ (forall t c, de_command (F := all_features) t = Some c ->
       v_command (F := all_features) LType c = true).
Proof.
  intros H. specialize (H C48_shadow (mkCommand (bs "A") (CAuthenticate (AMOther (bs "PLAIN")) None))).
  assert (E : v_command (F := all_features) LType
                (mkCommand (bs "A") (CAuthenticate (AMOther (bs "PLAIN")) None)) = true).
  { apply H. vm_compute. reflexivity. }
  vm_compute in E. discriminate.
Qed.

(** A valid command with nested values and its tree; a tree with fields in another order, an
    unknown field and a struct written as a sequence; trees that are refused. *)
Definition C47_cmd : command :=
  mkCommand (bs "A1") (CSearch (Some (CharsetAtom (bs "UTF-8")))
    [KAnd [KNot (KKeyword (bs "x")); KOr KSeen (KHeader (AAtom (bs "a"))
       (AString (ILiteral (mkLit (bs "b") Nom.Sync))))]; KUid [SRange (SValue 1) SAsterisk]] true).
Example C47_cmd_ok : v_command (F := all_features) LType C47_cmd = true /\
  de_command (F := all_features) (ser_command (F := all_features) C47_cmd) = Some C47_cmd.
Proof. vm_compute. split; reflexivity. Qed.
Definition C48_tree (key : tree) : tree :=
  TMap [(bs "body", ser_variant (bs "Search")
           (TMap [(bs "uid", TBool false); (bs "criteria", TSeq [key]); (bs "unknown", TNull)]));
        (bs "tag", TStr (bs "A"))].
Example C48_accepted :
  de_command (F := all_features) (C48_tree (ser_variant (bs "Not") (ser_unit (bs "All")))) =
  Some (mkCommand (bs "A") (CSearch None [KNot KAll] false)) /\
  unshadowed_command (F := all_features) (mkCommand (bs "A") (CSearch None [KNot KAll] false)) = true.
Proof. vm_compute. split; reflexivity. Qed.
Example C48_refused :
  de_command (F := all_features) (C48_tree (ser_variant (bs "And") (TSeq []))) = None /\
  de_command (F := all_features) (C48_tree (ser_variant (bs "Keyword") (TStr (bs "a b")))) = None /\
  de_command (F := all_features) (C48_tree (ser_variant (bs "Larger") (TNum 4294967296))) = None /\
  de_command (F := all_features) (C48_tree (ser_unit (bs "Nothing"))) = None.
Proof. vm_compute. repeat split. Qed.
Definition C47_resp : response :=
  RStatus (StTagged (bs "A") (mkStatusBody SKOk
    (Some (CdCapability [CapImap4Rev1; CapAuth AMPlain; CapOther (bs "X")])) (bs "done"))).
Example C47_resp_ok : v_response (F := all_features) LType any_other C47_resp = true /\
  de_response (F := all_features) (ser_response (F := all_features) C47_resp) = Some C47_resp.
Proof. vm_compute. split; reflexivity. Qed.
(** A continuation request that [CommandContinuationRequest::basic] refuses is refused. *)
Example C48_basic :
  de_response (F := all_features) (ser_variant (bs "CommandContinuationRequest")
    (ser_variant (bs "Basic") (TMap [(bs "text", TStr (bs "AAAA"))]))) = None /\
  de_response (F := all_features) (ser_variant (bs "CommandContinuationRequest")
    (ser_variant (bs "Basic") (TMap [(bs "text", TStr (bs "go on"))]))) =
  Some (RContinue (CRBasic None (bs "go on"))).
Proof. vm_compute. split; reflexivity. Qed.

Print Assumptions C47_command.
Print Assumptions C47_response.
Print Assumptions C47_greeting.
Print Assumptions C47_authenticate_data.
Print Assumptions C47_state.
Print Assumptions C47_injective.
Print Assumptions C48_command.
Print Assumptions C48_response.
Print Assumptions C48_greeting.
Print Assumptions C48_state.
Print Assumptions C48_fuel.
Print Assumptions C48_all_refuted.
