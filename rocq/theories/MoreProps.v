(** C60: switching features on never takes an accepted message away and never changes what it means,
    except that names kept as text become known. *)

From Verif Require Import Bytes Features Nom Types Conv Encode EncodeCtx EncodeApi OtherCode Valid Decode DecodeSpec RoundTripSpec RoundTripProps ValueSpec ValueFacts
  Grammar GrammarProps CompleteProps MoreSpec MoreFacts.

(** ** Whatever a build accepts, a build with more features accepts, up to the same byte *)
Theorem C60_command : forall F F' i rest c, more F F' -> @decode_command F i = Decoded rest c ->
  exists c', @decode_command F' i = Decoded rest c' /\ learn_command F' c c'.
Proof.
  intros F F' i rest c M H. apply C44_command in H as (t & -> & G). destruct (m_command F F' M _ _ G) as (c' & G' & R).
  exists c'. split; [now apply C45_command | exact R].
Qed.
Theorem C60_response : forall F F' i rest r, more F F' -> @decode_response F i = Decoded rest r ->
  exists r', @decode_response F' i = Decoded rest r' /\ learn_response F' r r'.
Proof.
  intros F F' i rest c M H. apply C44_response in H as (t & -> & G). destruct (m_response F F' M _ _ G) as (c' & G' & R).
  exists c'. split; [now apply C45_response | exact R].
Qed.
Theorem C60_greeting : forall F F' i rest g, more F F' -> @decode_greeting F i = Decoded rest g ->
  exists g', @decode_greeting F' i = Decoded rest g' /\ learn_greeting F' g g'.
Proof.
  intros F F' i rest c M H. apply C44_greeting in H as (t & -> & G). destruct (m_greeting F F' M _ _ G) as (c' & G' & R).
  exists c'. split; [now apply C45_greeting | exact R].
Qed.
Theorem C60_authenticate_data : forall F F' i rest a, more F F' -> @decode_authenticate_data F i = Decoded rest a ->
  @decode_authenticate_data F' i = Decoded rest a.
Proof.
  intros F F' i rest c M H. apply C44_authenticate_data in H as (t & -> & G). apply C45_authenticate_data. now apply (m_G_authenticate_data F F' M).
Qed.
Theorem C60_idle_done : forall F F' i rest u, more F F' -> @decode_idle_done F i = Decoded rest u ->
  @decode_idle_done F' i = Decoded rest u.
Proof.
  intros F F' i rest c M H. apply C44_idle_done in H as (t & -> & G). apply C45_idle_done. now apply (m_G_idle_done F F' M).
Qed.

(** ** Messages without unknown names mean the same *)
Lemma settled_list {A} (f : A -> bool) (R : A -> A -> Prop) l l' :
  (forall a b, f a = true -> R a b -> a = b) -> forallb f l = true -> Forall2 R l l' -> l = l'.
Proof.
  intros H S E. induction E as [| a b l l' r E IH]; [reflexivity |]. cbn in S. apply andb_true_iff in S as [S1 S2]. f_equal; auto.
Qed.
Lemma settled_capabilities F l l' : forallb settled_capability l = true -> Forall2 (learn_capability F) l l' -> l = l'.
Proof. apply settled_list. intros a b S R. destruct R as [c | t c W]; [reflexivity | discriminate S]. Qed.
Lemma settled_enables F l l' : forallb settled_enable l = true -> Forall2 (learn_enable F) l l' -> l = l'.
Proof. apply settled_list. intros a b S R. destruct R as [c | t c W]; [reflexivity | discriminate S]. Qed.
Lemma settled_codes F c c' : settled_code c = true -> learn_opt_code F c c' -> c = c'.
Proof.
  intros S O. destruct O as [| a b R]; [reflexivity |]. destruct R as [a | l l' R | t a K]; [reflexivity | | discriminate S].
  cbn in S. now rewrite (settled_capabilities _ _ _ S R).
Qed.
Theorem C60_command_same : forall F F' i rest c, more F F' -> settled_command c = true ->
  @decode_command F i = Decoded rest c -> @decode_command F' i = Decoded rest c.
Proof.
  intros F F' i rest c M S H. destruct (C60_command F F' i rest c M H) as (c' & H' & R). rewrite H'. f_equal.
  destruct R as [c | tag l l' R]; [reflexivity |]. cbn in S. now rewrite (settled_enables _ _ _ S R).
Qed.
Theorem C60_response_same : forall F F' i rest r, more F F' -> settled_response r = true ->
  @decode_response F i = Decoded rest r -> @decode_response F' i = Decoded rest r.
Proof.
  intros F F' i rest c M S H. destruct (C60_response F F' i rest c M H) as (c' & H' & R). rewrite H'. f_equal.
  destruct R as [k k' t R | d | d d' R | b b' R | t b b' R | k k' t R]; cbn in S; try reflexivity.
  - now rewrite (settled_codes _ _ _ S R).
  - destruct R as [d | l l' R | l l' R]; [reflexivity | now rewrite (settled_capabilities _ _ _ S R) | now rewrite (settled_enables _ _ _ S R)].
  - destruct R as [k c c' t R]. now rewrite (settled_codes _ _ _ S R).
  - destruct R as [k c c' u R]. now rewrite (settled_codes _ _ _ S R).
  - now rewrite (settled_codes _ _ _ S R).
Qed.
Theorem C60_greeting_same : forall F F' i rest g, more F F' -> settled_greeting g = true ->
  @decode_greeting F i = Decoded rest g -> @decode_greeting F' i = Decoded rest g.
Proof.
  intros F F' i rest c M S H. destruct (C60_greeting F F' i rest c M H) as (c' & H' & R). rewrite H'. f_equal.
  destruct R as [k a b t R]. unfold settled_greeting in S; cbn in S; now rewrite (settled_codes _ _ _ S R).
Qed.

(** ** Two peers built with different features: what one of them writes, the one with more features reads. *)
Theorem C60_command_peers : forall F F' c, more F F' -> @v_command F LDecoded c = true -> settled_command c = true ->
  decodes_to (@encode_command F) (@decode_command F') c (@w_command F c).
Proof.
  intros F F' c M V S rest. apply (C60_command_same F F'); [exact M | | now apply C09_command].
  destruct c as [t b]. destruct b; try reflexivity. exact S.
Qed.
Theorem C60_response_peers : forall F F' r, more F F' -> @v_response F LDecoded (@other_name F) r = true -> has_modseq r = false ->
  settled_response r = true -> decodes_to (@encode_response F) (@decode_response F') r (@w_response F r).
Proof.
  intros F F' r M V N S rest. apply (C60_response_same F F'); [exact M | | exact (C10_response r V N rest)].
  assert (K : forall c, settled_code (option_map (@w_code F) c) = settled_code c) by (intros [[] |]; reflexivity).
  destruct r as [[c t | d] | d | [[k c t] | t [k c u] | c t]]; cbn in S |- *; rewrite ?K; try exact S; destruct d; exact S.
Qed.
Theorem C60_greeting_peers : forall F F' g, more F F' -> @v_greeting F LDecoded (@other_name F) g = true -> settled_greeting g = true ->
  decodes_to (@encode_greeting F) (@decode_greeting F') g (@w_greeting F g).
Proof.
  intros F F' g M V S rest. apply (C60_greeting_same F F'); [exact M | | now apply C11_greeting].
  destruct g as [k c t]. unfold settled_greeting in *. cbn in *. destruct c as [[] |]; exact S.
Qed.

(** ** Cases that meet the hypotheses. A build that knows CONDSTORE learns names; everything else stays. *)
Definition no_features : features := Features false false false false false false false false false false false
  false false false false false false false false false false.
Example ex_none : forall F, more no_features F.
Proof. intros F. unfold more. repeat split; discriminate. Qed.
Example ex_all : forall F, more F all_features.
Proof. intros F. unfold more. repeat split. Qed.
Example ex_same : @decode_command no_features (bs "a1 LOGIN x y" ++ [bCR; bLF]) = Decoded [] (mkCommand (bs "a1") (CLogin (AAtom (bs "x")) (AAtom (bs "y")))) /\
  settled_command (mkCommand (bs "a1") (CLogin (AAtom (bs "x")) (AAtom (bs "y")))) = true.
Proof. split; vm_compute; reflexivity. Qed.
Example ex_enable : @decode_command default_features (bs "a1 ENABLE CONDSTORE X" ++ [bCR; bLF]) = Decoded [] (mkCommand (bs "a1") (CEnable [CEOther (bs "CONDSTORE"); CEOther (bs "X")])) /\
  @decode_command all_features (bs "a1 ENABLE CONDSTORE X" ++ [bCR; bLF]) = Decoded [] (mkCommand (bs "a1") (CEnable [CECondStore; CEOther (bs "X")])).
Proof. split; vm_compute; reflexivity. Qed.
Example ex_code : @decode_response default_features (bs "* OK [HIGHESTMODSEQ 7] x" ++ [bCR; bLF]) =
    Decoded [] (RStatus (StUntagged (mkStatusBody SKOk (Some (CdOther (bs "HIGHESTMODSEQ 7"))) (bs "x")))) /\
  @decode_response all_features (bs "* OK [HIGHESTMODSEQ 7] x" ++ [bCR; bLF]) =
    Decoded [] (RStatus (StUntagged (mkStatusBody SKOk (Some (CdHighestModSeq 7)) (bs "x")))).
Proof. split; vm_compute; reflexivity. Qed.
(** The converse is false: a message that a build with more features accepts need not be accepted. *)
Theorem C60_converse_refuted : exists F F' i rest c, more F F' /\ @decode_command F' i = Decoded rest c /\
  @decode_command F i = Error CmdFailed.
Proof.
  exists default_features, all_features, (bs "a1 NAMESPACE" ++ [bCR; bLF]), [], (mkCommand (bs "a1") CNamespace).
  split; [apply ex_all | split; vm_compute; reflexivity].
Qed.
Print Assumptions C60_command.
Print Assumptions C60_response.
Print Assumptions C60_greeting.
Print Assumptions C60_authenticate_data.
Print Assumptions C60_idle_done.
Print Assumptions C60_command_same.
Print Assumptions C60_response_same.
Print Assumptions C60_greeting_same.
Print Assumptions C60_command_peers.
Print Assumptions C60_response_peers.
Print Assumptions C60_greeting_peers.
Print Assumptions C60_converse_refuted.
