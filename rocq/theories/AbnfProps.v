(** C69: the decoders accept exactly the formal syntax that is documented beside them, with the
    differences marked in AbnfSpec.v. *)

From Verif Require Import Bytes BytesFacts Features Nom Types Decode ValueSpec ValueFacts Grammar GrammarProps CompCore CompleteProps
  NameFacts AbnfSpec AbnfFacts AbnfCore AbnfCmd.
Open Scope N_scope.
Open Scope abnf_scope.

(** What the decoders accept, byte by byte; [r] is what they leave. *)
Theorem C69_command `{F : features} i r :
  (exists c, decode_command i = Decoded r c) <-> exists t, i = t ++ r /\ accepted Command t.
Proof.
  setoid_rewrite C45_exactly. split.
  - intros (c & t & -> & G). exists t. split; [reflexivity |]. apply (spec Command). eauto.
  - intros (t & -> & H). apply (spec Command) in H as [c G]. eauto.
Qed.
Theorem C69_authenticate_data `{F : features} i r :
  (exists a, decode_authenticate_data i = Decoded r a) <-> exists t, i = t ++ r /\ accepted AuthenticateData t.
Proof.
  setoid_rewrite C45_exactly_authenticate_data. split.
  - intros (c & t & -> & G). exists t. split; [reflexivity |]. apply (spec AuthenticateData). eauto.
  - intros (t & -> & H). apply (spec AuthenticateData) in H as [c G]. eauto.
Qed.
Theorem C69_idle_done `{F : features} i r :
  (exists a, decode_idle_done i = Decoded r a) <-> exists t, i = t ++ r /\ accepted IdleDone t.
Proof.
  setoid_rewrite C45_exactly_idle_done. split.
  - intros (c & t & -> & G). exists t. split; [reflexivity |]. apply (spec IdleDone). eauto.
  - intros (t & -> & H). apply (spec IdleDone) in H as [c G]. eauto.
Qed.
(** A text of the documented syntax is refused only if it is beyond one of the limits, and a text
    outside the documented syntax is accepted only by one of the extras. *)
Theorem C69_between `{F : features} a t :
  (derives false true a t -> accepted a t) /\ (accepted a t -> derives true false a t) /\
  (derives false true a t -> documented a t) /\ (documented a t -> derives true false a t).
Proof. repeat split; apply derives_mono; auto. Qed.
Print Assumptions C69_command.
Print Assumptions C69_authenticate_data.
Print Assumptions C69_idle_done.
Print Assumptions C69_between.

(** A command of the documented syntax, derived rule by rule *)
Example C69_noop : @documented default_features Command (bs "a1 nOOp" ++ [bCR; bLF]).
Proof.
  assert (T : forall b, is_astring_char b && negb (beq b "+"%byte) = true -> TAG_CHAR b) by (intros b; apply is_tag_char_spec).
  change (bs "a1 nOOp" ++ [bCR; bLF]) with (([x61] ++ [x31] ++ []) ++ bs " " ++ bs "nOOp" ++ [bCR; bLF]).
  apply d_ref. apply d_cat; [| apply d_cat; [| apply d_cat]].
  - apply d_ref. apply d_cat; [apply d_chr; now apply T | apply d_more; [apply d_chr; now apply T | apply d_none]].
  - apply d_str. now apply letters_fixed.
  - apply d_or_l, d_or_l, d_or_l, d_ref, d_or_l, d_or_r, d_str. now apply same_letters_spec.
  - apply d_ref, d_or_l, d_str. now apply letters_fixed.
Qed.
(** and accepted, with all that the theorem says *)
Example C69_noop_decoded : exists c, @decode_command default_features (bs "a1 nOOp" ++ [bCR; bLF]) = Decoded [] c.
Proof. exists (mkCommand (bs "a1") CNoop). vm_compute. reflexivity. Qed.
(** An extra: leading zeros *)
Example C69_extra : @accepted default_features NzNumber (bs "07") /\ ~ @documented default_features NzNumber (bs "07").
Proof.
  split.
  - apply (proj2 (@spec default_features N NzNumber G_nz_number _ (bs "07"))). exists 7. split; [split; [discriminate | split; [apply (digits_snoc [x30] 0 x37); [apply (digits_snoc [] 0 x30); [apply digits_nil |] |]; now vm_compute | discriminate]] | discriminate].
  - intros H. apply D_ref in H. cbn [rules] in H. apply D_or in H as [H | H].
    + apply D_where in H as [H _]. apply D_cat in H as (u & v & E & H & _). apply D_chr in H as (b & -> & B).
      injection E as <- _. vm_compute in B. now destruct B as [B _].
    + apply D_extra in H as [H _]. discriminate.
Qed.
(** A limit: the date does not exist *)
Example C69_limit : @documented default_features DateText (bs "30-Feb-2020") /\ ~ @accepted default_features DateText (bs "30-Feb-2020").
Proof.
  assert (T : forall b, is_digit b = true -> 0x30 <= bN b <= 0x39) by (intros b; apply is_digit_spec).
  split.
  - apply d_ref, d_limit; [| discriminate]. change (bs "30-Feb-2020") with (([x33] ++ [x30]) ++ bs "-" ++ bs "Feb" ++ bs "-" ++ ([x32] ++ [x30] ++ [x32] ++ [x30] ++ [])).
    apply d_cat; [| apply d_cat; [| apply d_cat; [| apply d_cat]]].
    + apply d_ref, d_or_r. apply d_cat; apply d_chr; now apply T.
    + apply d_str. now apply letters_fixed.
    + apply d_ref. do 10 apply d_or_l. apply d_or_r, d_str. now apply same_letters_spec.
    + apply d_str. now apply letters_fixed.
    + apply d_ref. cbn [rules times]. repeat (apply d_cat; [apply d_chr; now apply T |]). apply d_eps.
  - intros H. apply (proj1 (@spec default_features _ DateText G_date_text _ _)) in H as [d H].
    apply (date_text_go _ _ (bs " ")) in H; [| reflexivity]. vm_compute in H. discriminate.
Qed.
