(** Facts about the values of imap-types: character classes, conversions, escaping, base64. *)

From Verif Require Import Bytes BytesFacts QuotedFacts Dec Features Nom Types Utf8 Conv SeqSet
  Base64 Date Ctors ValueSpec FragFacts Valid RtFacts RtCore.
Open Scope nat_scope.

(** ** Character classes *)
Lemma inb_spec lo hi b : inb lo hi b = true <-> (lo <= bN b <= hi)%N.
Proof. unfold inb. rewrite andb_true_iff, !N.leb_le. tauto. Qed.
Lemma bN_eq a b : a = b <-> bN a = bN b.
Proof. split; [congruence | apply bN_inj]. Qed.

Lemma is_char_spec b : is_char b = true <-> CHAR b.
Proof. apply inb_spec. Qed.
Lemma is_char8_spec b : is_char8 b = true <-> CHAR8 b.
Proof.
  unfold is_char8, CHAR8. rewrite negb_true_iff, beq_neq, bN_eq. reflexivity.
Qed.
Lemma is_text_char_spec b : is_text_char b = true <-> TEXT_CHAR b.
Proof.
  unfold is_text_char, TEXT_CHAR, CHAR. rewrite !orb_true_iff, !inb_spec, (bN_eq b x0d), (bN_eq b x0a).
  change (bN x0d) with 13%N. change (bN x0a) with 10%N. lia.
Qed.
Lemma is_quoted_specials_spec b : is_quoted_specials b = true <-> quoted_specials b.
Proof.
  unfold is_quoted_specials. rewrite orb_true_iff, !beq_eq. unfold quoted_specials.
  rewrite !bN_eq. reflexivity.
Qed.
Lemma is_ctl_spec b : is_ctl b = true <-> CTL b.
Proof. unfold is_ctl, CTL. rewrite orb_true_iff, !inb_spec. pose proof (bN_lt b). lia. Qed.
Lemma is_list_wildcards_spec b : is_list_wildcards b = true <-> list_wildcards b.
Proof. unfold is_list_wildcards. rewrite orb_true_iff, !beq_eq. reflexivity. Qed.
Lemma is_resp_specials_spec b : is_resp_specials b = true <-> resp_specials b.
Proof. apply beq_eq. Qed.
Lemma is_atom_specials_spec b : is_atom_specials b = true <-> atom_specials b.
Proof.
  unfold is_atom_specials, atom_specials.
  rewrite !orb_true_iff, !beq_eq, is_ctl_spec, is_list_wildcards_spec, is_quoted_specials_spec,
    is_resp_specials_spec. change bSP with " "%byte. tauto.
Qed.
Lemma not_true_false (x : bool) : negb x = true <-> ~ x = true.
Proof. destruct x; cbn; split; intros; congruence. Qed.
Lemma is_atom_char_spec b : is_atom_char b = true <-> ATOM_CHAR b.
Proof.
  unfold is_atom_char, ATOM_CHAR.
  rewrite andb_true_iff, not_true_false, is_char_spec, is_atom_specials_spec. reflexivity.
Qed.
Lemma is_astring_char_spec b : is_astring_char b = true <-> ASTRING_CHAR b.
Proof.
  unfold is_astring_char, ASTRING_CHAR. rewrite orb_true_iff, is_atom_char_spec, is_resp_specials_spec.
  reflexivity.
Qed.
Lemma is_list_char_spec b : is_list_char b = true <-> LIST_CHAR b.
Proof.
  unfold is_list_char, LIST_CHAR.
  rewrite !orb_true_iff, is_atom_char_spec, is_list_wildcards_spec, is_resp_specials_spec. tauto.
Qed.
Lemma is_tag_char_spec b :
  is_astring_char b && negb (beq b "+"%byte) = true <-> TAG_CHAR b.
Proof.
  unfold TAG_CHAR. rewrite andb_true_iff, negb_true_iff, beq_neq, is_astring_char_spec. reflexivity.
Qed.

(** ** Validators *)
Section Check.
Variable X : byte -> Prop.
Variable x : byte -> bool.
Hypothesis Hx : forall b, x b = true <-> X b.

Lemma forallb_Forall s : forallb x s = true <-> Forall X s.
Proof.
  rewrite forallb_forall, Forall_forall. split; intros H b Hb; apply Hx; auto.
Qed.
Lemma position_none s : Forall X s -> position (fun b => negb (x b)) s = None.
Proof.
  induction 1 as [| b s Hb _ IH]; [reflexivity |]. cbn. apply Hx in Hb. now rewrite Hb, IH.
Qed.
Lemma position_first l b r : Forall X l -> ~ X b ->
  position (fun b => negb (x b)) (l ++ b :: r) = Some (length l).
Proof.
  intros Hl Hb. induction Hl as [| c l Hc _ IH]; cbn.
  - destruct (x b) eqn:E; [| reflexivity]. apply Hx in E. contradiction.
  - apply Hx in Hc. now rewrite Hc, IH.
Qed.
Lemma check_ok s : Forall X s -> check_bytes x s = COk tt.
Proof. intros H. unfold check_bytes. now rewrite position_none. Qed.
Lemma check_wrong s b i : first_wrong X s b i -> check_bytes x s = CErr (VInvalidByteAt b i).
Proof.
  intros (l & r & -> & <- & Hl & Hb). unfold check_bytes. rewrite position_first by assumption.
  rewrite nth_error_app2, Nat.sub_diag by lia. reflexivity.
Qed.
Lemma ok_or_wrong s : Forall X s \/ exists b i, first_wrong X s b i.
Proof.
  induction s as [| b s [IH | (c & i & l & r & -> & <- & Hl & Hc)]]; [now left | |].
  - destruct (x b) eqn:E.
    + left. constructor; [now apply Hx | assumption].
    + right. exists b, 0, [], s. repeat split; auto. intros H. apply Hx in H. congruence.
  - right. destruct (x b) eqn:E.
    + exists c, (S (length l)), (b :: l), r. repeat split; auto. constructor; [now apply Hx | assumption].
    + exists b, 0, [], (l ++ c :: r). repeat split; auto. intros H. apply Hx in H. congruence.
Qed.
Lemma wrong_nonempty s b i : first_wrong X s b i -> s <> [].
Proof. intros (l & r & -> & _). destruct l; discriminate. Qed.

Lemma converts_some_by {A} (inj : bytes -> A) (f : bytes -> conv A) :
  (forall s, f s = cbind (cbind (check_nonempty s) (fun _ => check_bytes x s)) (fun _ => f s)) ->
  (forall s, Forall X s -> f s = COk (inj s) \/ s = []) -> converts_some X inj f.
Proof.
  intros Hf Hok. split; [| split; [| split]].
  - intros s [Hne Hs]. destruct (Hok s Hs); [assumption | contradiction].
  - rewrite Hf. reflexivity.
  - intros s b i Hw. rewrite Hf. pose proof (wrong_nonempty s b i Hw) as Hne.
    destruct s as [| c s]; [contradiction |]. cbn [check_nonempty cbind].
    now rewrite (check_wrong _ _ _ Hw).
  - intros s. destruct (ok_or_wrong s) as [H | H]; [| now right; right].
    destruct s; [right; now left |]. left. now split.
Qed.
Lemma converts_many_by {A} (inj : bytes -> A) (f : bytes -> conv A) :
  (forall s, f s = cbind (check_bytes x s) (fun _ => f s)) ->
  (forall s, Forall X s -> f s = COk (inj s)) -> converts_many X inj f.
Proof.
  intros Hf Hok. split; [| split].
  - exact Hok.
  - intros s b i Hw. rewrite Hf. now rewrite (check_wrong _ _ _ Hw).
  - apply ok_or_wrong.
Qed.
End Check.

(** ASCII is UTF-8. *)
Lemma utf8_chars s : Forall CHAR s -> utf8_ok s = true.
Proof.
  intros H. apply utf8_ascii. apply forallb_forall. intros b Hb. rewrite Forall_forall in H.
  specialize (H b Hb). unfold CHAR in H. apply inb_spec. lia.
Qed.
Lemma Forall_sub (X Y : byte -> Prop) s : (forall b, X b -> Y b) -> Forall X s -> Forall Y s.
Proof. intros H. apply Forall_impl. exact H. Qed.
Lemma atom_char_char b : ATOM_CHAR b -> CHAR b.
Proof. now intros []. Qed.
Lemma resp_char b : resp_specials b -> CHAR b.
Proof. intros ->. unfold CHAR. cbn. lia. Qed.
Lemma astring_char_char b : ASTRING_CHAR b -> CHAR b.
Proof. intros [H | H]; [now apply atom_char_char | now apply resp_char]. Qed.
Lemma tag_char_char b : TAG_CHAR b -> CHAR b.
Proof. intros [H _]. now apply astring_char_char. Qed.
Lemma text_char_char b : TEXT_CHAR b -> CHAR b.
Proof. now intros []. Qed.
Lemma char_char8 b : CHAR b -> CHAR8 b.
Proof. unfold CHAR, CHAR8. lia. Qed.

Lemma cbind_again {A B} (c : conv A) (f : A -> conv B) :
  cbind c f = cbind c (fun _ => cbind c f).
Proof. now destruct c. Qed.

Lemma unwrap_chars s : Forall CHAR s -> utf8_unwrap s = COk s.
Proof. intros H. unfold utf8_unwrap. now rewrite utf8_chars. Qed.

(** A conversion of the form [validate(s)?; Ok(from_utf8(s).unwrap())]. *)
Ltac conv_some spec sub :=
  eapply converts_some_by; [exact spec | intros s; exact (cbind_again _ _) |];
  intros s Hs; destruct s as [| c s]; [now right | left];
  match goal with |- ?f _ = _ => unfold f end;
  match goal with |- context [?v (_ :: _)] => unfold v end; cbn [check_nonempty cbind];
  rewrite (check_ok _ _ spec) by assumption; cbn [cbind];
  first [reflexivity | apply unwrap_chars; eapply Forall_sub; [apply sub | exact Hs]].

Lemma atom_conv : converts_some ATOM_CHAR (fun s => s) atom_from_bytes.
Proof. conv_some is_atom_char_spec atom_char_char. Qed.
Lemma atom_ext_conv : converts_some ASTRING_CHAR (fun s => s) atom_ext_from_bytes.
Proof. conv_some is_astring_char_spec astring_char_char. Qed.
Lemma tag_conv : converts_some TAG_CHAR (fun s => s) tag_from_bytes.
Proof. conv_some is_tag_char_spec tag_char_char. Qed.
Lemma text_conv : converts_some TEXT_CHAR (fun s => s) text_from_bytes.
Proof. conv_some is_text_char_spec text_char_char. Qed.
Lemma list_char_conv : converts_some LIST_CHAR (fun s => s) list_char_string_from_str.
Proof. conv_some is_list_char_spec atom_char_char. Qed.
Lemma quoted_conv : converts_many TEXT_CHAR (fun s => s) quoted_from_bytes.
Proof.
  eapply converts_many_by; [exact is_text_char_spec | intros s; exact (cbind_again _ _) |].
  intros s Hs. unfold quoted_from_bytes, validate_quoted.
  rewrite (check_ok _ _ is_text_char_spec) by assumption. cbn [cbind]. apply unwrap_chars.
  eapply Forall_sub; [apply text_char_char | exact Hs].
Qed.
Lemma literal_conv : converts_many CHAR8 (fun s => mkLit s Sync) literal_from_bytes.
Proof.
  eapply converts_many_by; [exact is_char8_spec | intros s; exact (cbind_again _ _) |].
  intros s Hs. unfold literal_from_bytes, validate_literal.
  now rewrite (check_ok _ _ is_char8_spec) by assumption.
Qed.

(** ** The boolean validators of Conv.v *)
Lemma some_ok (X : byte -> Prop) x (Hx : forall b, x b = true <-> X b) s :
  match s with [] => false | _ => forallb x s end = true <-> some_of X s.
Proof.
  unfold some_of. destruct s as [| c s]; [split; [discriminate | now intros []] |].
  rewrite (forallb_Forall X x Hx). split; [intros H; now split | now intros []].
Qed.
Lemma atom_ok_spec s : atom_ok s = true <-> some_of ATOM_CHAR s.
Proof. apply some_ok, is_atom_char_spec. Qed.
Lemma atom_ext_ok_spec s : atom_ext_ok s = true <-> some_of ASTRING_CHAR s.
Proof. apply some_ok, is_astring_char_spec. Qed.
Lemma tag_ok_spec s : tag_ok s = true <-> some_of TAG_CHAR s.
Proof. apply some_ok, is_tag_char_spec. Qed.
Lemma text_ok_spec s : text_ok s = true <-> some_of TEXT_CHAR s.
Proof. apply some_ok, is_text_char_spec. Qed.
Lemma list_char_string_ok_spec s : list_char_string_ok s = true <-> some_of LIST_CHAR s.
Proof. apply some_ok, is_list_char_spec. Qed.
Lemma quoted_ok_spec s : quoted_ok s = true <-> many_of TEXT_CHAR s.
Proof. apply forallb_Forall, is_text_char_spec. Qed.
Lemma literal_ok_spec s : literal_ok s = true <-> many_of CHAR8 s.
Proof. apply forallb_Forall, is_char8_spec. Qed.

(** What a conversion returns on an arbitrary string. *)
Lemma converts_some_cases {A} X inj (f : bytes -> conv A) : converts_some X inj f -> forall s,
  (some_of X s /\ f s = COk (inj s)) \/ (~ some_of X s /\ exists e, f s = CErr e).
Proof.
  intros (H1 & H2 & H3 & H4) s. destruct (H4 s) as [H | [-> | (b & i & H)]].
  - left. split; [assumption | now apply H1].
  - right. split; [now intros [] | eauto].
  - right. split; [| rewrite (H3 _ _ _ H); eauto]. destruct H as (l & r & -> & _ & _ & Hb).
    intros [_ H]. apply Forall_app in H as [_ H]. inversion H. contradiction.
Qed.
Lemma converts_many_cases {A} X inj (f : bytes -> conv A) : converts_many X inj f -> forall s,
  (many_of X s /\ f s = COk (inj s)) \/
  (~ many_of X s /\ exists b i, first_wrong X s b i /\ f s = CErr (VInvalidByteAt b i)).
Proof.
  intros (H1 & H2 & H3) s. destruct (H3 s) as [H | (b & i & H)].
  - left. split; [assumption | now apply H1].
  - right. split; [| exists b, i; split; [assumption | now apply H2]].
    destruct H as (l & r & -> & _ & _ & Hb).
    intros H. apply Forall_app in H as [_ H]. inversion H. contradiction.
Qed.

(** ** Strings *)
Lemma istring_conv s :
  (many_of TEXT_CHAR s -> istring_from_bytes s = COk (IQuoted s)) /\
  (~ many_of TEXT_CHAR s -> many_of CHAR8 s -> istring_from_bytes s = COk (ILiteral (mkLit s Sync))) /\
  (forall b i, first_wrong CHAR8 s b i -> istring_from_bytes s = CErr (VInvalidByteAt b i)).
Proof.
  unfold istring_from_bytes.
  destruct (converts_many_cases _ _ _ quoted_conv s) as [[H E] | [H (b & i & _ & E)]]; rewrite E; cbn.
  - repeat split; auto; [contradiction |]. intros b i (l & r & -> & _ & _ & Hb).
    exfalso. apply Hb. apply Forall_app in H as [_ H]. inversion H. now apply char_char8, text_char_char.
  - split; [contradiction |]. split.
    + intros _ Hs. now rewrite (proj1 literal_conv s Hs).
    + intros c j Hc. now rewrite (proj1 (proj2 literal_conv) s c j Hc).
Qed.
(** The conversion from [str] only differs in the [unwrap]. *)
Lemma istring_from_str_eq s : istring_from_str s = istring_from_bytes s.
Proof.
  unfold istring_from_str, istring_from_bytes, quoted_from_bytes, validate_quoted.
  destruct (ok_or_wrong _ _ is_text_char_spec s) as [H | (b & i & H)].
  - rewrite (check_ok _ _ is_text_char_spec) by assumption. cbn.
    rewrite unwrap_chars; [reflexivity |]. eapply Forall_sub; [apply text_char_char | exact H].
  - now rewrite (check_wrong _ _ is_text_char_spec _ _ _ H).
Qed.
Lemma some_ext_text s : some_of ASTRING_CHAR s -> many_of TEXT_CHAR s.
Proof.
  intros [_ H]. eapply Forall_sub; [| exact H]. intros b Hb. apply is_text_char_spec.
  apply is_astring_char_spec in Hb. revert b Hb. apply byte_impl. vm_compute. reflexivity.
Qed.
Lemma text_char8 s : many_of TEXT_CHAR s -> many_of CHAR8 s.
Proof. apply Forall_sub. intros b H. now apply char_char8, text_char_char. Qed.
Lemma astring_conv s :
  (some_of ASTRING_CHAR s -> astring_from_bytes s = COk (AAtom s)) /\
  (~ some_of ASTRING_CHAR s -> many_of TEXT_CHAR s ->
     astring_from_bytes s = COk (AString (IQuoted s))) /\
  (~ many_of TEXT_CHAR s -> many_of CHAR8 s ->
     astring_from_bytes s = COk (AString (ILiteral (mkLit s Sync)))) /\
  (forall b i, first_wrong CHAR8 s b i -> astring_from_bytes s = CErr (VInvalidByteAt b i)).
Proof.
  unfold astring_from_bytes. destruct (istring_conv s) as (H1 & H2 & H3).
  destruct (converts_some_cases _ _ _ atom_ext_conv s) as [[H E] | [H [e E]]]; rewrite E; cbn.
  - repeat split; auto; [contradiction | |].
    + intros N. now apply some_ext_text in H.
    + intros b i (l & r & -> & _ & _ & Hb). exfalso. apply Hb.
      apply some_ext_text, text_char8 in H. apply Forall_app in H as [_ H]. now inversion H.
  - repeat split; [contradiction | | |].
    + intros _ Ht. now rewrite H1.
    + intros Ht Hc. now rewrite H2.
    + intros b i Hw. now rewrite (H3 b i Hw).
Qed.
Lemma astring_cases s :
  (many_of CHAR8 s /\ exists a, astring_from_bytes s = COk a /\ bytes_of_astring a = s) \/
  (exists b i, first_wrong CHAR8 s b i /\ astring_from_bytes s = CErr (VInvalidByteAt b i)).
Proof.
  destruct (astring_conv s) as (H1 & H2 & H3 & H4).
  destruct (proj2 (proj2 literal_conv) s) as [H | (b & i & H)]; [left | right; eauto].
  split; [assumption |].
  destruct (atom_ext_ok s) eqn:A.
  { apply atom_ext_ok_spec in A. rewrite H1 by assumption. eauto. }
  assert (~ some_of ASTRING_CHAR s) by (rewrite <- atom_ext_ok_spec; congruence).
  destruct (quoted_ok s) eqn:Q.
  { apply quoted_ok_spec in Q. rewrite H2 by assumption. eauto. }
  assert (~ many_of TEXT_CHAR s) by (rewrite <- quoted_ok_spec; congruence).
  rewrite H3 by assumption. eauto.
Qed.
Lemma charset_conv s :
  (some_of ATOM_CHAR s -> charset_from_bytes s = COk (CharsetAtom s)) /\
  (~ some_of ATOM_CHAR s -> many_of TEXT_CHAR s -> charset_from_bytes s = COk (CharsetQuoted s)) /\
  (forall b i, first_wrong TEXT_CHAR s b i -> charset_from_bytes s = CErr (VInvalidByteAt b i)).
Proof.
  unfold charset_from_bytes.
  destruct (converts_some_cases _ _ _ atom_conv s) as [[H E] | [H [e E]]]; rewrite E; cbn.
  - repeat split; auto; [contradiction |]. intros b i (l & r & -> & _ & _ & Hb). exfalso. apply Hb.
    destruct H as [_ H]. apply Forall_app in H as [_ H]. inversion H.
    assert (A : ASTRING_CHAR b) by now left.
    assert (T : many_of TEXT_CHAR [b]) by (apply some_ext_text; split; [easy | now constructor]).
    now inversion T.
  - repeat split; [contradiction | |].
    + intros _ Ht. now rewrite (proj1 quoted_conv s Ht).
    + intros b i Hw. now rewrite (proj1 (proj2 quoted_conv) s b i Hw).
Qed.
Lemma list_mailbox_conv s :
  (s = [] -> list_mailbox_from_str s = COk (LMString (IQuoted []))) /\
  (some_of LIST_CHAR s -> list_mailbox_from_str s = COk (LMToken s)) /\
  (s <> [] -> ~ some_of LIST_CHAR s -> many_of TEXT_CHAR s ->
     list_mailbox_from_str s = COk (LMString (IQuoted s))) /\
  (~ many_of TEXT_CHAR s -> many_of CHAR8 s ->
     list_mailbox_from_str s = COk (LMString (ILiteral (mkLit s Sync)))) /\
  (forall b i, first_wrong CHAR8 s b i -> list_mailbox_from_str s = CErr (VInvalidByteAt b i)).
Proof.
  split; [now intros -> |].
  destruct s as [| c s].
  { repeat split; try now intros []. { intros H. exfalso. apply H. constructor. }
    intros b i (l & r & E & _). now destruct l. }
  unfold list_mailbox_from_str. rewrite istring_from_str_eq.
  destruct (istring_conv (c :: s)) as (H1 & H2 & H3).
  destruct (converts_some_cases _ _ _ list_char_conv (c :: s)) as [[H E] | [H [e E]]]; rewrite E; cbn [cmap cbind c_or].
  - assert (T : many_of TEXT_CHAR (c :: s)).
    { destruct H as [_ H]. eapply Forall_sub; [| exact H]. intros b Hb. apply is_text_char_spec.
      apply is_list_char_spec in Hb. revert b Hb. apply byte_impl. vm_compute. reflexivity. }
    repeat split; auto; try contradiction.
    intros b i (l & r & E' & _ & _ & Hb). exfalso. apply Hb. apply text_char8 in T. rewrite E' in T.
    apply Forall_app in T as [_ T]. now inversion T.
  - repeat split; [contradiction | | |].
    + intros _ _ Ht. now rewrite H1.
    + intros Ht Hc. now rewrite H2.
    + intros b i Hw. now rewrite (H3 b i Hw).
Qed.

(** ** INBOX *)
Lemma bN_lower b : bN (lower b) = (if inb 0x41 0x5a b then bN b + 32 else bN b)%N.
Proof.
  apply N.eqb_eq. revert b. apply byte_forall. vm_compute. reflexivity.
Qed.
Lemma same_letter_spec a b : same_letter a b <-> lower a = lower b.
Proof.
  unfold same_letter. rewrite (bN_eq (lower a)), !bN_lower, bN_eq.
  destruct (inb 0x41 0x5a a) eqn:A, (inb 0x41 0x5a b) eqn:B;
    rewrite ?inb_spec in A; rewrite ?inb_spec in B;
    try (assert (~ (65 <= bN a <= 90)%N) by (rewrite <- inb_spec; congruence));
    try (assert (~ (65 <= bN b <= 90)%N) by (rewrite <- inb_spec; congruence)); lia.
Qed.
Lemma same_letters_spec a b : same_letters a b <-> lowers a = lowers b.
Proof.
  unfold same_letters. revert b. induction a as [| x a IH]; intros [| y b]; split; intros H;
    try (now inversion H); try constructor.
  - inversion H; subst. cbn. f_equal; [now apply same_letter_spec | now apply IH].
  - cbn in H. injection H as E F. now apply same_letter_spec.
  - cbn in H. injection H as E F. now apply IH.
Qed.
Lemma same_letters_char s t : same_letters s t -> Forall CHAR t -> Forall CHAR s.
Proof.
  induction 1 as [| x y l l' L _ IH]; intros H; constructor; inversion H; subst; [| auto].
  unfold same_letter in L. rewrite bN_eq in L. unfold CHAR in *. lia.
Qed.
Lemma same_letters_inbox_ascii s : same_letters s (bs "inbox") -> Forall CHAR s.
Proof.
  intros H. eapply same_letters_char; [exact H |]. cbv. repeat constructor; discriminate.
Qed.
Lemma mailbox_conv s :
  (same_letters s (bs "inbox") -> mailbox_from_bytes s = COk MInbox) /\
  (~ same_letters s (bs "inbox") -> forall a, astring_from_bytes s = COk a ->
     mailbox_from_bytes s = COk (MOther a)) /\
  (forall b i, first_wrong CHAR8 s b i -> mailbox_from_bytes s = CErr (VInvalidByteAt b i)).
Proof.
  unfold mailbox_from_bytes.
  assert (AB : forall a, astring_bytes a = bytes_of_astring a) by (now intros [| [| | []]]).
  destruct (astring_cases s) as [[Hs (a & E & Hb)] | (b & i & Hw & E)]; rewrite E; cbn [cbind].
  - unfold mailbox_from, mailbox_other_ok. rewrite AB, Hb.
    split; [| split].
    + intros H. rewrite (utf8_chars _ (same_letters_inbox_ascii _ H)).
      apply same_letters_spec in H. apply eqi_spec in H. now rewrite H.
    + intros H a' [= <-]. destruct (eqi s (bs "inbox")) eqn:Q.
      { exfalso. apply H, same_letters_spec. now apply eqi_spec. }
      now rewrite andb_false_r.
    + intros b i (l & r & -> & _ & _ & Hn). exfalso. apply Hn. apply Forall_app in Hs as [_ Hs].
      now inversion Hs.
  - split; [| split].
    + intros H. apply same_letters_inbox_ascii in H. exfalso. destruct Hw as (l & r & -> & _ & _ & Hn).
      apply Hn, char_char8. apply Forall_app in H as [_ H]. now inversion H.
    + intros _ a [=].
    + intros b' i' Hw'. rewrite (proj2 (proj2 (proj2 (astring_conv s))) _ _ Hw') in E. congruence.
Qed.

(** ** Quoted strings *)
Lemma quoted_body_spec w s : quoted_body w s <-> w = escape_quoted s.
Proof.
  rewrite escape_quoted_flat. split.
  - induction 1 as [| b w s N _ IH | b w s N _ IH]; [reflexivity | |]; cbn [flat_map];
      unfold esc_char at 1; rewrite <- is_quoted_specials_spec in N;
      destruct (is_quoted_specials b); try congruence; cbn; now rewrite IH.
  - intros ->. induction s as [| b s IH]; [constructor |]. cbn [flat_map]. unfold esc_char at 1.
    destruct (is_quoted_specials b) eqn:E; cbn.
    + apply qb_escaped; [now apply is_quoted_specials_spec | assumption].
    + apply qb_plain; [rewrite <- is_quoted_specials_spec; congruence | assumption].
Qed.

(** ** Base64 *)
Lemma b64_value_spec c v : b64_value c v <-> b64_val c = Some v.
Proof.
  unfold b64_value, b64_val.
  destruct (inb 0x41 0x5a c) eqn:A; [| destruct (inb 0x61 0x7a c) eqn:B;
    [| destruct (inb 0x30 0x39 c) eqn:C; [| destruct (beq_spec c "+"%byte) as [-> | D];
    [| destruct (beq_spec c "/"%byte) as [-> | E]]]]].
  all: rewrite ?bN_eq; try rewrite bN_eq in D; try rewrite bN_eq in E.
  all: change (bN "+"%byte) with 43%N in *; change (bN "/"%byte) with 47%N in *.
  all: repeat match goal with
    | H : inb _ _ _ = true |- _ => apply inb_spec in H
    | H : inb ?lo ?hi ?x = false |- _ =>
      assert (~ (lo <= bN x <= hi)%N) by (rewrite <- inb_spec; congruence); clear H
    end.
  all: split; [intros | intros [= <-] || discriminate].
  all: try (f_equal; lia); try lia.
  all: exfalso; lia.
Qed.
Section B64Spec.
Open Scope N_scope.
Ltac nlt := repeat match goal with H : b64_val _ = _ |- _ => clear H | H : b64_value _ _ |- _ => clear H end;
  zify; Z.to_euclidean_division_equations; lia.
Lemma bN_byte_of n : n < 256 -> bN (byte_of n) = n.
Proof.
  intros L. unfold byte_of. destruct (Byte.of_N n) as [b |] eqn:E.
  - unfold bN. now apply Byte.to_of_N in E.
  - apply Byte.of_N_None_iff in E. lia.
Qed.
Lemma b64_val_lt c v : b64_val c = Some v -> v < 64.
Proof. rewrite <- b64_value_spec. unfold b64_value. pose proof (bN_lt c). lia. Qed.
Lemma b64_val_pad : b64_val "="%byte = None.
Proof. reflexivity. Qed.
Lemma base64_decode p t : base64 p t -> b64_decode t = Some p.
Proof.
  induction 1 as [| x c1 c2 v1 v2 H1 H2 E | x y c1 c2 c3 v1 v2 v3 H1 H2 H3 E
    | x y z c1 c2 c3 c4 v1 v2 v3 v4 p t H1 H2 H3 H4 E _ IH]; [reflexivity | ..];
    repeat match goal with H : b64_value _ _ |- _ => apply b64_value_spec in H end;
    repeat match goal with H : b64_val _ = Some ?v |- _ =>
      lazymatch goal with _ : v < 64 |- _ => fail | _ => pose proof (b64_val_lt _ _ H) end end;
    cbn [b64_decode]; pose proof (bN_lt x).
  - rewrite H1, H2, b64_val_pad. change (beq "="%byte b64_pad) with true. cbn [andb].
    assert (N.eqb (v2 mod 16) 0 = true) as -> by (apply N.eqb_eq; nlt).
    do 2 f_equal. apply byte_ofN. nlt.
  - pose proof (bN_lt y). rewrite H1, H2, H3, b64_val_pad.
    change (beq "="%byte b64_pad) with true. cbn [andb].
    assert (N.eqb (v3 mod 4) 0 = true) as -> by (apply N.eqb_eq; nlt).
    do 2 f_equal; [| f_equal]; apply byte_ofN; nlt.
  - pose proof (bN_lt y). pose proof (bN_lt z). rewrite H1, H2, H3, H4, IH.
    do 2 f_equal; [| f_equal; [| f_equal]]; apply byte_ofN; nlt.
Qed.
Lemma quad (P : bytes -> Prop) : P [] -> (forall a, P [a]) -> (forall a b, P [a; b]) ->
  (forall a b c, P [a; b; c]) ->
  (forall a b c d s, P s -> P (a :: b :: c :: d :: s)) -> forall s, P s.
Proof.
  intros H0 H1 H2 H3 H4. fix IH 1.
  intros [| a [| b [| c [| d s]]]]; [exact H0 | apply H1 | apply H2 | apply H3 | apply H4, IH].
Qed.
Lemma decode_base64 t : forall p, b64_decode t = Some p -> base64 p t.
Proof.
  induction t as [| a | a b | a b c | c1 c2 c3 c4 t IH] using quad; intros p; try discriminate.
  { intros [= <-]. constructor. }
  cbn [b64_decode]. destruct (b64_val c1) as [v1 |] eqn:V1; [| discriminate].
  destruct (b64_val c2) as [v2 |] eqn:V2; [| discriminate].
  pose proof (b64_val_lt _ _ V1). pose proof (b64_val_lt _ _ V2).
  apply b64_value_spec in V1. apply b64_value_spec in V2.
  destruct (b64_val c3) as [v3 |] eqn:V3.
  - pose proof (b64_val_lt _ _ V3). apply b64_value_spec in V3.
    destruct (b64_val c4) as [v4 |] eqn:V4.
    + pose proof (b64_val_lt _ _ V4). apply b64_value_spec in V4.
      destruct (b64_decode t) as [r |]; [| discriminate]. intros [= <-].
      eapply b64_3; eauto. rewrite !bN_byte_of by nlt. nlt.
    + destruct t; [| discriminate].
      destruct (beq_spec c4 b64_pad) as [-> |]; [| discriminate]. cbn [andb].
      destruct (N.eqb_spec (v3 mod 4) 0); [| discriminate]. intros [= <-].
      eapply b64_2; eauto. rewrite !bN_byte_of by nlt. nlt.
  - destruct t; [| discriminate].
    destruct (beq_spec c3 b64_pad) as [-> |]; [| discriminate].
    destruct (beq_spec c4 b64_pad) as [-> |]; [| discriminate]. cbn [andb].
    destruct (N.eqb_spec (v2 mod 16) 0); [| discriminate]. intros [= <-].
    eapply b64_1; eauto. rewrite !bN_byte_of by nlt. nlt.
Qed.
Lemma base64_spec p t : base64 p t <-> b64_decode t = Some p.
Proof. split; [apply base64_decode | apply decode_base64]. Qed.
Lemma b64_value_inj c c' v : b64_value c v -> b64_value c' v -> c = c'.
Proof. unfold b64_value. rewrite !(bN_eq _ "+"%byte), !(bN_eq _ "/"%byte), bN_eq. cbn. lia. Qed.
Lemma base64_encode p : base64 p (b64_encode p).
Proof. apply base64_spec, b64_roundtrip. Qed.
(** The values of the symbols of a group are determined by the bytes. *)
Lemma base64_inj p t : base64 p t -> forall t', base64 p t' -> t' = t.
Proof.
  induction 1 as [| x c1 c2 v1 v2 H1 H2 E | x y c1 c2 c3 v1 v2 v3 H1 H2 H3 E
    | x y z c1 c2 c3 c4 v1 v2 v3 v4 p t H1 H2 H3 H4 E _ IH]; intros t' Ht; inversion Ht; subst;
    repeat match goal with H : b64_value _ ?v |- _ =>
      lazymatch goal with _ : v < 64 |- _ => fail | _ =>
      pose proof (b64_val_lt _ _ (proj1 (b64_value_spec _ _) H)) end end.
  - reflexivity.
  - assert (v0 = v1 /\ v3 = v2) as [-> ->] by lia.
    f_equal; [| f_equal]; eapply b64_value_inj; eassumption.
  - assert (v0 = v1 /\ v4 = v2 /\ v5 = v3) as (-> & -> & ->) by lia.
    f_equal; [| f_equal; [| f_equal]]; eapply b64_value_inj; eassumption.
  - assert (v0 = v1 /\ v5 = v2 /\ v6 = v3 /\ v7 = v4) as (-> & -> & -> & ->) by lia.
    f_equal; [| f_equal; [| f_equal; [| f_equal]]]; try (eapply b64_value_inj; eassumption). auto.
Qed.
Lemma b64_decode_inj t t' p : b64_decode t = Some p -> b64_decode t' = Some p -> t = t'.
Proof. rewrite <- !base64_spec. intros H H'. now apply (base64_inj p t' H'). Qed.
Lemma b64_decode_encode t p : b64_decode t = Some p -> t = b64_encode p.
Proof. intros H. eapply b64_decode_inj; [exact H | apply b64_roundtrip]. Qed.
End B64Spec.

(** ** Calendar *)
Lemma divides_spec a b : (a <> 0)%N -> divides a b <-> (b mod a = 0)%N.
Proof.
  intros A. unfold divides. rewrite N.mod_divides by assumption. reflexivity.
Qed.
Lemma leap_spec y : leap y = true <-> leap_year y.
Proof.
  unfold leap, leap_year. rewrite !divides_spec by discriminate.
  rewrite andb_true_iff, orb_true_iff, negb_true_iff, !N.eqb_eq, N.eqb_neq. reflexivity.
Qed.
Lemma ymd_spec y m d : ymd_ok y m d = true <-> exists n, month_length y m n /\ (1 <= d <= n)%N.
Proof.
  unfold ymd_ok, month_length. rewrite !andb_true_iff, !N.leb_le. cbn [In].
  pose proof (leap_spec y) as L. split.
  - intros [[[M1 M2] D1] D2]. exists (days_in_month y m). split; [| lia].
    assert (M : (m = 1 \/ m = 2 \/ m = 3 \/ m = 4 \/ m = 5 \/ m = 6 \/ m = 7 \/ m = 8 \/ m = 9
      \/ m = 10 \/ m = 11 \/ m = 12)%N) by lia.
    repeat destruct M as [-> | M]; [.. | subst m]; cbn [days_in_month];
      try (left; split; [tauto | reflexivity]); try (right; left; split; [tauto | reflexivity]).
    right. right. destruct (leap y) eqn:E.
    + left. repeat split; now apply L.
    + right. split; [reflexivity |]. split; [| reflexivity]. rewrite <- L. congruence.
  - intros (n & H & D).
    destruct H as [[H ->] | [[H ->] | [(-> & H & ->) | (-> & H & ->)]]].
    + repeat destruct H as [<- | H]; try contradiction; cbn [days_in_month]; lia.
    + repeat destruct H as [<- | H]; try contradiction; cbn [days_in_month]; lia.
    + apply L in H. cbn [days_in_month]. rewrite H. lia.
    + cbn [days_in_month]. destruct (leap y); [tauto | lia].
Qed.
Lemma v_date_spec d : v_date d = true <-> real_date d.
Proof.
  unfold v_date, real_date. rewrite andb_true_iff, ymd_spec, N.leb_le.
  split; [intros [(n & H & D) Y]; eauto | intros (n & H & D & Y); eauto].
Qed.
Lemma v_date_time_spec t : v_date_time t = true <-> real_date_time t.
Proof.
  unfold v_date_time, real_date_time.
  rewrite !andb_true_iff, v_date_spec, !N.ltb_lt, !Z.ltb_lt, Z.eqb_eq.
  rewrite Z.rem_divide by lia. unfold Z.divide.
  assert (E : (exists z, dt_offset t = (z * 60)%Z) <-> (exists k, dt_offset t = (60 * k)%Z))
    by (split; intros [z ->]; exists z; lia).
  rewrite E. intuition lia.
Qed.

(** ** Numbers *)
Lemma is_digit_spec b : is_digit b = true <-> (0x30 <= bN b <= 0x39)%N.
Proof. apply inb_spec. Qed.
Lemma digits_spec s n : digits s n <-> forallb is_digit s = true /\ dval s = n.
Proof.
  split.
  - induction 1 as [| s n b _ [IH <-] Hb]; [now split |]. split.
    + rewrite forallb_app, IH. cbn. now rewrite (proj2 (is_digit_spec b) Hb).
    + now rewrite dval_snoc.
  - intros [H <-]. revert H. induction s as [| b s IH] using rev_ind; [constructor |].
    rewrite forallb_app, dval_snoc. intros H. apply andb_true_iff in H as [H Hb].
    cbn in Hb. rewrite andb_true_r in Hb. apply digits_snoc; [auto | now apply is_digit_spec].
Qed.
