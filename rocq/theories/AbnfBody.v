(** The rules of AbnfSpec.v and the relations of Grammar.v: envelopes, bodies, fetch results. *)

From Verif Require Import Bytes BytesFacts Features Nom Types Utf8 Conv ValueSpec ValueFacts Grammar SoundCap MoreFacts NameFacts
  AbnfSpec AbnfFacts AbnfCore AbnfCmd.
Open Scope N_scope.
Open Scope abnf_scope.

(** ** Repetition without a separator *)
Section Repeat.
Context {F : features}.
Local Notation D := (derives true true).
Lemma R_many {A} a (L : lang A) : R a L -> R (Many a) (many L).
Proof.
  intros E t. split.
  - remember (Many a) as m. induction 1; try discriminate; injection Heqm as ->.
    + exists []. constructor.
    + apply E in H as [x H]. destruct (IHderives2 eq_refl) as [l G]. exists (x :: l). now constructor.
  - intros [l H]. induction H as [| t x u l H G IH]; [constructor |]. apply d_more; [apply E; eauto | exact IH].
Qed.
Lemma R_some1 {A} a (L : lang A) : R a L -> R (some a) (at_least 1 L).
Proof.
  intros E t. unfold some. rewrite D_cat. split.
  - intros (u & v & -> & H & G). apply E in H as [x H]. apply (R_many a L E) in G as [l G].
    exists (x :: l). split; [now constructor | cbn [length]; lia].
  - intros [l [H G]]. inversion H as [| u x v l' X Y]; subst; [cbn [length] in G; lia |].
    exists u, v. repeat split; [apply E; eauto | apply (R_many a L E); eauto].
Qed.
Lemma R_some2 {A} a (L : lang A) : R a L -> R (a ^ some a) (at_least 2 L).
Proof.
  intros E t. rewrite D_cat. split.
  - intros (u & v & -> & H & G). apply E in H as [x H]. apply (R_some1 a L E) in G as [l [G N]].
    exists (x :: l). split; [now constructor | cbn [length]; lia].
  - intros [l [H G]]. inversion H as [| u x v l' X Y]; subst; [cbn [length] in G; lia |].
    exists u, v. repeat split; [apply E; eauto | apply (R_some1 a L E)]. exists l'. split; [assumption | cbn [length] in G; lia].
Qed.
Lemma spaces_rule t : D (Many SP) t <-> Forall (eq bSP) t.
Proof.
  split.
  - remember (Many SP) as m. induction 1; try discriminate; injection Heqm as ->; [constructor |].
    apply D_str in H. fixed H. constructor; [reflexivity | auto].
  - induction 1 as [| b t <- H IH]; [constructor |]. change (bSP :: t) with (bs " " ++ t).
    apply d_more; [now apply D_str, letters_fixed | exact IH].
Qed.
Lemma some_spaces_rule t : D (some SP) t <-> some_of (eq bSP) t.
Proof.
  unfold some. rewrite D_cat. split.
  - intros (u & v & -> & H & G). apply D_str in H. fixed H. apply spaces_rule in G. split; [discriminate | now constructor].
  - intros [N H]. destruct H as [| b t <- H]; [easy |]. exists (bs " "), t. split; [reflexivity |].
    split; [now apply D_str, letters_fixed | now apply spaces_rule].
Qed.
End Repeat.
#[global] Instance I_many {F : features} {A} a (L : lang A) : R a L -> R (Many a) (many L) | 5.
Proof. apply R_many. Qed.
#[global] Instance I_some1 {F : features} {A} a (L : lang A) : R a L -> R (some a) (at_least 1 L) | 5.
Proof. apply R_some1. Qed.
#[global] Instance I_some2 {F : features} {A} a (L : lang A) : R a L -> R (a ^ some a) (at_least 2 L) | 5.
Proof. apply R_some2. Qed.

Section Bodies.
Context {F : features}.
Local Notation D := (derives true true).
Ltac rule := apply R_ref; intros t; cbn [rules]; split.
Ltac gist := first [eassumption | inword | kw].
Ltac done := rewrite <- ?app_assoc; eexists; solve [econstructor; gist].
Ltac down := intros [v H]; inversion H; subst; norm; wordcases; kwsplit; norm; try build.
Ltac joinsp := repeat match goal with H : same_letters ?x ?s |- context [?x ++ ?sp ++ ?r] =>
  unify sp (bs " "); rewrite (app_assoc x sp r);
  let J := fresh "J" in assert (J : same_letters (x ++ sp) (s ++ bs " ")) by (apply letters_app; [exact H | now apply letters_fixed]);
  let s' := eval cbv in (s ++ bs " ") in change (s ++ bs " ") with s' in J;
  clear H end.
Ltac done' := rewrite <- ?app_assoc, ?app_nil_l, ?app_nil_r; joinsp; eexists; solve [econstructor; gist].

(** ** Envelopes *)
#[global] Instance addr_name_rule : R AddrName G_nstring. Proof. apply R_ref. exact nstring_rule. Qed.
#[global] Instance addr_adl_rule : R AddrAdl G_nstring. Proof. apply R_ref. exact nstring_rule. Qed.
#[global] Instance addr_mailbox_rule : R AddrMailbox G_nstring. Proof. apply R_ref. exact nstring_rule. Qed.
#[global] Instance addr_host_rule : R AddrHost G_nstring. Proof. apply R_ref. exact nstring_rule. Qed.
#[global] Instance address_rule : R Address G_address.
Proof.
  rule.
  - intros H. apply D_or in H as [H | H]; [dinv |].
    + eexists. eapply (g_address []); eauto.
    + apply (proj1 (D_extra_t _ _)), D_feature in H as [Q H]. apply D_cat in H as (z & w & -> & Z & H).
      apply spaces_rule in Z. dinv. norm. eexists. eapply g_address; eauto.
  - intros [v H]. inversion H as [z ta a tb b tc c td d Z A B C E]; subst. destruct Z as [-> | [Q Z]].
    + norm. apply d_or_l. build.
    + apply d_or_r, l_extra, d_feature; [exact Q |]. apply d_cat; [now apply spaces_rule |]. build.
Qed.
Lemma addresses_rule r : rules r = "(" ^ some Address ^ ")" / Nil -> R (Ref r) G_addresses.
Proof.
  intros E. apply R_ref. intros t. rewrite E. split.
  - intros H. orcases H; dinv; done.
  - intros [v H]. inversion H; subst; build.
Qed.
#[global] Instance env_from_rule : R EnvFrom G_addresses. Proof. now apply addresses_rule. Qed.
#[global] Instance env_sender_rule : R EnvSender G_addresses. Proof. now apply addresses_rule. Qed.
#[global] Instance env_reply_to_rule : R EnvReplyTo G_addresses. Proof. now apply addresses_rule. Qed.
#[global] Instance env_to_rule : R EnvTo G_addresses. Proof. now apply addresses_rule. Qed.
#[global] Instance env_cc_rule : R EnvCc G_addresses. Proof. now apply addresses_rule. Qed.
#[global] Instance env_bcc_rule : R EnvBcc G_addresses. Proof. now apply addresses_rule. Qed.
#[global] Instance env_date_rule : R EnvDate G_nstring. Proof. apply R_ref. exact nstring_rule. Qed.
#[global] Instance env_subject_rule : R EnvSubject G_nstring. Proof. apply R_ref. exact nstring_rule. Qed.
#[global] Instance env_in_reply_to_rule : R EnvInReplyTo G_nstring. Proof. apply R_ref. exact nstring_rule. Qed.
#[global] Instance env_message_id_rule : R EnvMessageId G_nstring. Proof. apply R_ref. exact nstring_rule. Qed.
#[global] Instance envelope_rule : R Envelope G_envelope.
Proof. rule. - intros H. dinv. done. - down. Qed.

(** ** Bodies *)
#[global] Instance pair_rule : R (String_ ^ SP ^ String_) G_pair | 0.
Proof. intros t. split. - intros H. apply D_cat in H as (? & ? & -> & ? & ?). dinv. done. - down. Qed.
#[global] Instance body_param_rule : R BodyFldParam G_body_params.
Proof.
  rule.
  - intros H. orcases H; dinv.
    + match goal with H : in_parens _ _ _ |- _ => inversion H; subst end. eexists. apply g_params. constructor. constructor. eassumption.
    + done.
    + exists []. apply g_params. exact (parens_intro _ [] [] (list_none _ _)).
  - intros [v H]. inversion H as [u N | u l G]; subst; [build |]. inversion G as [u l' I]; subst. inversion I; subst.
    + apply d_or_r. norm. build.
    + apply d_or_l, d_or_l. build.
Qed.
#[global] Instance body_id_rule : R BodyFldId G_nstring. Proof. apply R_ref. exact nstring_rule. Qed.
#[global] Instance body_desc_rule : R BodyFldDesc G_nstring. Proof. apply R_ref. exact nstring_rule. Qed.
#[global] Instance body_md5_rule : R BodyFldMd5 G_nstring. Proof. apply R_ref. exact nstring_rule. Qed.
#[global] Instance body_loc_rule : R BodyFldLoc G_nstring. Proof. apply R_ref. exact nstring_rule. Qed.
#[global] Instance body_lines_rule : R BodyFldLines G_number. Proof. apply R_ref. exact number_rule. Qed.
#[global] Instance media_subtype_rule : R MediaSubtype G_string. Proof. apply R_ref. exact string_rule. Qed.
#[global] Instance body_enc_rule : R BodyFldEnc G_body_enc.
Proof.
  rule.
  - intros H. orcases H; dinv; eexists; [eapply g_enc | apply g_enc_nil]; eassumption.
  - intros [v H]. inversion H; subst; [build |]. apply d_or_r. apply l_extra, d_feature; [assumption |]. apply (spec Nil). now exists tt.
Qed.
#[global] Instance body_octets_rule : R BodyFldOctets G_octets.
Proof. rule. - intros H. dinv; eexists; econstructor; eassumption. - down. Qed.
#[global] Instance body_fields_rule : R BodyFields G_body_fields.
Proof. rule. - intros H. dinv. done. - down. Qed.
#[global] Instance body_dsp_rule : R BodyFldDsp G_body_dsp.
Proof. rule. - intros H. orcases H; dinv; done. - down. Qed.
#[global] Instance body_lang_rule : R BodyFldLang G_body_lang.
Proof.
  rule.
  - intros H. orcases H; dinv; [| done].
    match goal with H : G_nstring _ _ |- _ => inversion H; subst end; done.
  - intros [v H]. inversion H; subst; [apply d_or_l .. | build]; apply (spec Nstring); eexists; econstructor; eassumption.
Qed.
#[global] Instance body_extension_rule n : R (BodyExtension n) (G_body_extension n).
Proof.
  induction n as [| n IH]; rule.
  - intros H. cbn [deeper] in H. orcases H; dinv; done.
  - intros [v H]. inversion H; subst; build.
  - intros H. cbn [deeper] in H. orcases H; dinv; done.
  - cbn [deeper]. intros [v H]. inversion H; subst; build.
Qed.
#[global] Instance location_rule : R (SP ^ BodyFldLoc ^ Many (SP ^ BodyExtension 7)) G_location | 0.
Proof. intros t. split. - intros H. apply D_cat in H as (? & ? & -> & ? & ?). dinv. done. - down. Qed.
#[global] Instance language_rule : R (SP ^ BodyFldLang ^ opt (SP ^ BodyFldLoc ^ Many (SP ^ BodyExtension 7))) G_language | 0.
Proof. intros t. split. - intros H. apply D_cat in H as (? & ? & -> & ? & ?). dinv. done. - down. Qed.
#[global] Instance disposition_rule :
  R (SP ^ BodyFldDsp ^ opt (SP ^ BodyFldLang ^ opt (SP ^ BodyFldLoc ^ Many (SP ^ BodyExtension 7)))) G_disposition | 0.
Proof. intros t. split. - intros H. apply D_cat in H as (? & ? & -> & ? & ?). dinv. done. - down. Qed.
#[global] Instance single_ext_rule : R BodyExt1part G_single_ext.
Proof. rule. - intros H. dinv. done. - down. Qed.
#[global] Instance multi_ext_rule : R BodyExtMpart G_multi_ext.
Proof. rule. - intros H. dinv. done. - down. Qed.
(** The body in a message/rfc822 part may be nested as deep as the one around it: induction on the length of the text. *)
Lemma many_from {A} a (L : lang A) k : (forall t, (length t < k)%nat -> D a t -> exists x, L t x) ->
  forall t, (length t < k)%nat -> D (Many a) t -> exists l, many L t l.
Proof.
  intros E t N H. remember (Many a) as m. induction H; try discriminate; injection Heqm as ->.
  - exists []. constructor.
  - rewrite app_length in N. apply E in H as [x H]; [| lia]. destruct (IHderives2 ltac:(lia) eq_refl) as [l G]. exists (x :: l). now constructor.
Qed.
Lemma many_to {A} a (L : lang A) k : (forall t x, (length t < k)%nat -> L t x -> D a t) ->
  forall t l, (length t < k)%nat -> many L t l -> D (Many a) t.
Proof.
  intros E t l N H. induction H as [| t x u l H G IH]; [constructor |]. rewrite app_length in N. apply d_more; [apply (E t x); [lia | exact H] | apply IH; lia].
Qed.
Lemma some_from {A} a (L : lang A) k : (forall t, (length t < k)%nat -> D a t -> exists x, L t x) ->
  forall t, (length t < k)%nat -> D (some a) t -> exists l, at_least 1 L t l.
Proof.
  intros E t N H. apply D_cat in H as (u & v & -> & H & G). rewrite app_length in N.
  apply E in H as [x H]; [| lia]. apply (many_from a L k E) in G as [l G]; [| lia].
  exists (x :: l). split; [now constructor | cbn [length]; lia].
Qed.
Lemma some_to {A} a (L : lang A) k : (forall t x, (length t < k)%nat -> L t x -> D a t) ->
  forall t l, (length t < k)%nat -> at_least 1 L t l -> D (some a) t.
Proof.
  intros E t l N [H G]. inversion H as [| u x v l' X Y]; subst; [cbn [length] in G; lia |]. rewrite app_length in N.
  apply d_cat; [apply (E u x); [lia | exact X] | apply (many_to a L k E v l'); [lia | exact Y]].
Qed.

Definition G_media_message : lang unit := fun t _ => t ~ """MESSAGE"" ""RFC822""".
#[global] Instance media_message_rule : R MediaMessage G_media_message.
Proof.
  unfold G_media_message. rule.
  - intros H. exists tt. dinv.
    change (bs """MESSAGE"" ""RFC822""") with (bs """" ++ bs "MESSAGE" ++ bs """" ++ bs " " ++ bs """" ++ bs "RFC822" ++ bs """").
    repeat apply letters_app; first [assumption | now apply letters_fixed].
  - intros [_ H].
    change (bs """MESSAGE"" ""RFC822""") with (bs """" ++ bs "MESSAGE" ++ bs """" ++ bs " " ++ bs """" ++ bs "RFC822" ++ bs """") in H.
    repeat (apply letters_split in H; destruct H as (? & ? & -> & ? & H)).
    repeat apply d_cat; now apply D_str.
Qed.
Definition G_media_text : lang istring := fun t s => exists k u, t = k ++ u /\ k ~ """TEXT"" " /\ G_string u s.
#[global] Instance media_text_rule : R MediaText G_media_text.
Proof.
  unfold G_media_text. rule.
  - intros H. dinv. eexists. exists (bs """" ++ x1 ++ bs """" ++ bs " "). eexists. rewrite <- !app_assoc. split; [reflexivity |].
    split; [| eassumption]. change (bs """TEXT"" ") with (bs """" ++ bs "TEXT" ++ bs """" ++ bs " ").
    repeat apply letters_app; first [assumption | now apply letters_fixed].
  - intros (s & k & u & -> & H & G). change (bs """TEXT"" ") with (bs """" ++ bs "TEXT" ++ bs """" ++ bs " ") in H.
    repeat (apply letters_split in H; destruct H as (? & ? & -> & ? & H)). rewrite <- !app_assoc.
    repeat apply d_cat; try (now apply D_str). build.
Qed.
Lemma body_from k : forall n t, (length t < k)%nat -> D (Body n) t -> exists b, G_body n t b.
Proof.
  induction k as [| k IH]; intros n t N H; [lia |]. apply D_ref in H. cbn [rules] in H.
  apply D_cat in H as (o & w & -> & O & H). apply D_str in O. fixed O. apply D_cat in H as (u & c & -> & H & C).
  apply D_str in C. fixed C. rewrite !app_length in N. cbn [bs length] in N.
  apply D_or in H as [H | H]; apply D_ref in H; cbn [rules] in H.
  - apply D_cat in H as (v & x & -> & H & X). apply (spec (opt (SP ^ BodyExt1part))) in X as [x' X].
    orcases H.
    + dinv; norm; eexists; eapply g_body_basic; eassumption.
    + apply D_ref in H. cbn [rules] in H.
      apply D_cat in H as (v1 & w & -> & V1 & H). apply D_cat in H as (s1 & w1 & -> & S1 & H).
      apply D_cat in H as (v2 & w2 & -> & V2 & H). apply D_cat in H as (s2 & w3 & -> & S2 & H).
      apply D_cat in H as (v3 & w4 & -> & V3 & H). apply D_cat in H as (s3 & w5 & -> & S3 & H).
      apply D_cat in H as (v4 & w6 & -> & V4 & H). rewrite !app_length in N.
      apply IH in V4 as [b V4]; [| lia]. dinv. norm. eexists.
      eapply text_is; [eapply (g_body_message n (v1 ++ bs " ")); try eassumption | text].
      eapply letters_join; [exact V1 | now apply (letters_fixed (bs " ")) | reflexivity].
    + dinv. destruct H as (k' & u & -> & K & G). norm. eexists. eapply g_body_text; eassumption.
  - destruct n as [| n]; cbn [deeper] in H; [dinv |].
    apply D_cat in H as (v & w & -> & V & H). rewrite !app_length in N.
    apply (some_from _ (G_body n) k) in V as [l V]; [| intros; eapply IH; eassumption | lia].
    dinv. norm. eexists. eapply g_body_multi; eassumption.
Qed.
Lemma body_to k : forall n t b, (length t < k)%nat -> G_body n t b -> D (Body n) t.
Proof.
  induction k as [| k IH]; intros n t b N H; [lia |]. apply l_ref. cbn [rules].
  inversion H; subst; rewrite !app_length in N; cbn [bs length] in N.
  - apply d_cat; [now apply D_str, letters_fixed |]. norm. apply c_or_l, c_ref. cbn [rules]. apply c_assoc, c_or_l, c_or_l, c_ref. cbn [rules].
    apply c_or_r, c_extra. build.
  - apply d_cat; [now apply D_str, letters_fixed |]. norm. apply c_or_l, c_ref. cbn [rules]. apply c_assoc, c_or_r, c_ref. cbn [rules].
    rewrite (app_assoc k0). apply c_assoc. apply d_cat; [apply (spec MediaText); eexists; eexists _, _; eauto |]. build.
  - apply d_cat; [now apply D_str, letters_fixed |]. norm. apply c_or_l, c_ref. cbn [rules]. apply c_assoc, c_or_l, c_or_r, c_ref. cbn [rules].
    assert (B : D (Body 5) ti) by (eapply IH; [| eassumption]; lia).
    match goal with K : same_letters k0 _ |- _ => rename K into KW end.
    change (same_letters k0 (bs """MESSAGE"" ""RFC822""" ++ bs " ")) in KW.
    apply letters_split in KW as (k1 & k2 & -> & K & K2).
    apply (letters_fixed (bs " ") eq_refl) in K2 as ->. rewrite <- !app_assoc.
    apply c_assoc, d_cat; [apply (spec MediaMessage); exists tt; exact K |]. apply c_assoc, d_cat; [build |].
    apply c_assoc, d_cat; [build |]. apply c_assoc, d_cat; [build |]. apply c_assoc, d_cat; [build |]. apply c_assoc, d_cat; [build |].
    apply c_assoc, d_cat; [exact B |]. build.
  - apply d_cat; [now apply D_str, letters_fixed |]. apply c_or_r, c_ref. cbn [rules deeper].
    norm. apply c_assoc, d_cat; [| build].
    eapply (some_to _ (G_body d) k); [intros; eapply IH; eassumption | lia | eassumption].
Qed.
#[global] Instance body_rule n : R (Body n) (G_body n).
Proof. intros t. split; [apply (body_from (S (length t))); lia | intros [b H]; apply (body_to (S (length t)) n t b); [lia | exact H]]. Qed.
End Bodies.
