(** C32: what every atom is converted to.

    A name of the table of a type, in any letter case, becomes the value of the table, and any
    other atom is kept as it is; for capabilities, the meaning is that of the grammar. The
    tables are those of the grammar (Grammar.v). *)

From Verif Require Import Bytes BytesFacts Features Nom Types Utf8 Conv ValueSpec ValueFacts Grammar SoundTac SoundCore
  SoundCap CompTac CompCore Ctors NameFacts ValueProps.
Open Scope N_scope.

(** [from] converts every atom as [L] says. *)
Definition converts_exactly {A} (L : lang A) (from : bytes -> A) : Prop :=
  forall s a, some_of ATOM_CHAR s -> (from s = a <-> L s a).

Lemma table_exactly {A} (from : bytes -> A) table other :
  from_table from table other -> distinct table = true -> forallb (fun p => atom_ok (fst p)) table = true ->
  converts_exactly (name table other) from.
Proof.
  intros Hf D O s a V. rewrite Hf. split.
  - intros <-. now apply look_name.
  - intros H. now apply name_look.
Qed.
Theorem C32_names_exact : forall F : features,
  converts_exactly (name auth_table AMOther) auth_mechanism_from /\
  converts_exactly (name resource_table ROther) resource_from /\
  converts_exactly (name sort_algorithm_table SAOther) sort_algorithm_from /\
  converts_exactly (name thread_table TAOther) threading_algorithm_from /\
  converts_exactly (name enable_table CEOther) capability_enable_from /\
  converts_exactly (name flag_name_table FNExtension) flag_name_attribute_from.
Proof.
  intros F.
  split; [apply table_exactly; [exact auth_table_ok | reflexivity | reflexivity] |].
  split; [apply table_exactly; [exact resource_table_ok | reflexivity | reflexivity] |].
  split; [apply table_exactly; [exact sort_table_ok | reflexivity | reflexivity] |].
  split; [apply table_exactly; [exact thread_table_ok | reflexivity | reflexivity] |].
  split; [apply table_exactly; [exact enable_table_ok | apply enable_fine | apply enable_fine] |].
  apply table_exactly; [exact flag_name_table_ok | reflexivity | reflexivity].
Qed.
(** Flags are converted from any text: it is a flag of the grammar, or an error. *)
Theorem C32_flags_exact : forall s,
  (forall f, flag_from_str s = COk f <-> G_flag s f) /\
  (forall f, attribute_flag_from_str s = COk f <-> G_attr_flag s f).
Proof.
  assert (V : forall s, validate_atom s = COk tt <-> some_of ATOM_CHAR s).
  { intros s. rewrite <- atom_ok_spec. split; [| apply validate_atom_ok].
    intros E. destruct (converts_some_cases _ _ _ atom_conv s) as [[T _] | [_ [e K]]]; [now apply atom_ok_spec |].
    unfold atom_from_bytes in K. rewrite E in K. cbn [cbind] in K. unfold utf8_unwrap in K.
    destruct (utf8_ok s); discriminate K. }
  assert (C : forall A (a b : A) s, cmap (fun _ => a) (validate_atom s) = COk b <-> some_of ATOM_CHAR s /\ a = b).
  { intros A a b s. rewrite <- V. destruct (validate_atom s) as [[] | |]; cbn [cmap cbind]; split; try easy.
    - now intros [= <-].
    - now intros [_ <-]. }
  assert (B : ~ ATOM_CHAR bBS).
  { intros K. assert (some_of ATOM_CHAR [bBS]) as K' by (split; [discriminate | now constructor]).
    apply atom_ok_spec in K'. discriminate K'. }
  intros s. split; intros f.
  - unfold flag_from_str. destruct s as [| c s].
    { rewrite C. split; [intros [[K _] _]; easy |]. intros G. inversion G; subst; easy. }
    destruct (beq_spec c bBS) as [-> | Hc]; rewrite C.
    + assert (T : forall s f, some_of ATOM_CHAR s -> (flag_system s = f <-> name flag_table FExtension s f))
        by (intros s' f'; apply table_exactly; [exact flag_table_ok | reflexivity | reflexivity]).
      split.
      * intros [H <-]. apply (g_flag_system s). now apply T.
      * intros G. inversion G as [t f' N E | t A E]; subst.
        -- assert (H : some_of ATOM_CHAR s) by (apply atom_ok_spec; now apply name_some in N). split; [exact H | now apply T].
        -- destruct A as [_ A]. inversion A; subst. contradiction.
    + split.
      * intros [H <-]. now apply g_flag_keyword.
      * intros G. inversion G as [t f' N E | t A E]; subst; [easy |]. split; [exact A | reflexivity].
  - unfold attribute_flag_from_str.
    assert (K : forall s, (forall u, s <> bBS :: bBS :: u) ->
      (some_of ATOM_CHAR s /\ AFKeyword s = f <-> G_attr_flag s f)).
    { intros s' N. split.
      - intros [H <-]. now apply g_af_keyword.
      - intros G. inversion G as [t f' M E | t A E]; subst; [exfalso; now apply (N t) |]. split; [exact A | reflexivity]. }
    destruct s as [| c [| d s]]; try (rewrite C; apply K; intros u [=]).
    destruct (beq_spec c bBS) as [-> | Hc]; [destruct (beq_spec d bBS) as [-> | Hd] |]; cbn [andb]; rewrite C;
      try (apply K; intros u [=]; congruence).
    assert (T : forall s f, some_of ATOM_CHAR s -> (attribute_flag_system s = f <-> name attribute_flag_table AFExtension s f))
        by (intros s' f'; apply table_exactly; [exact attr_flag_table_ok | reflexivity | reflexivity]).
    split.
    + intros [H <-]. apply (g_af_system s). now apply T.
    + intros G. inversion G as [t f' N E | t A E]; subst.
      * assert (H : some_of ATOM_CHAR s) by (apply atom_ok_spec; now apply name_some in N). split; [exact H | now apply T].
      * destruct A as [_ A]. inversion A; subst. contradiction.
Qed.
Theorem C32_capabilities_exact : forall F : features,
  converts_exactly G_capability capability_from.
Proof.
  intros F s a V. split.
  - intros <-. now apply capability_sound.
  - intros H. now apply capability_complete in H.
Qed.
(** "QUOTA=XRES-STORAGE" is not the name of a resource (RFC 9208 has "QUOTA=RES-" and the name),
    but is converted to the capability of the resource STORAGE; and the name of an unknown
    resource loses its upper case letters. *)
Theorem C32_quota_resource_refuted : forall F : features,
  capability_from (bs "QUOTA=XRES-STORAGE") = CapQuotaRes RStorage /\
  ~ same_letters (bs "QUOTA=XRES-STORAGE") (capability_str (CapQuotaRes RStorage)) /\
  capability_from (bs "QUOTA=RES-Own") = CapQuotaRes (ROther (bs "own")).
Proof.
  intros F. split; [| split].
  - rewrite capability_fixed. destruct F. vm_compute. reflexivity.
  - intros H. apply same_letters_spec in H. discriminate H.
  - rewrite capability_fixed. destruct F. vm_compute. reflexivity.
Qed.
Print Assumptions C32_names_exact.
Print Assumptions C32_flags_exact.
Print Assumptions C32_capabilities_exact.
Print Assumptions C32_quota_resource_refuted.
Example C32_exact_example :
  name auth_table AMOther (bs "sCRAM-SHA-256-Plus") AMScramSha256Plus /\
  name auth_table AMOther (bs "SCRAM-SHA3-512") (AMOther (bs "SCRAM-SHA3-512")) /\
  G_flag (bs "\sEEN") FSeen /\ G_flag (bs "$Own") (FKeyword (bs "$Own")).
Proof.
  assert (A : forall s, atom_ok s = true -> some_of ATOM_CHAR s) by (intros s; apply atom_ok_spec).
  destruct (C32_names_exact default_features) as [H _].
  split; [now apply H; [apply A |] |]. split; [now apply H; [apply A |] |].
  split; [now apply (proj1 (C32_flags_exact (bs "\sEEN"))) | now apply (proj1 (C32_flags_exact (bs "$Own")))].
Qed.
