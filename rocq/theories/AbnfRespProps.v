(** C70: of the messages of a server, the decoders accept exactly the formal syntax that is
    documented beside them, with the differences marked in AbnfSpec.v. *)

From Verif Require Import Bytes BytesFacts Features Nom Types Decode ValueSpec ValueFacts Grammar GrammarProps CompCore CompleteProps
  SoundCap NameFacts AbnfSpec AbnfFacts AbnfCore AbnfCmd AbnfBody AbnfResp AbnfText AbnfProps.
Open Scope N_scope.
Open Scope abnf_scope.

(** What the decoders accept, byte by byte; [r] is what they leave. *)
Theorem C70_greeting `{F : features} i r :
  (exists g, decode_greeting i = Decoded r g) <-> exists t, i = t ++ r /\ accepted Greeting t.
Proof.
  setoid_rewrite C45_exactly_greeting. split.
  - intros (g & t & -> & G). exists t. split; [reflexivity |]. apply (spec Greeting). eauto.
  - intros (t & -> & H). apply (spec Greeting) in H as [g G]. eauto.
Qed.
Theorem C70_response `{F : features} i r :
  (exists x, decode_response i = Decoded r x) <-> exists t, i = t ++ r /\ accepted Response t.
Proof.
  setoid_rewrite C45_exactly_response. split.
  - intros (x & t & -> & G). exists t. split; [reflexivity |]. apply (spec Response). eauto.
  - intros (t & -> & H). apply (spec Response) in H as [x G]. eauto.
Qed.
(** In particular: what is documented and keeps to the limits is decoded, whatever follows it. *)
Theorem C70_documented `{F : features} t r :
  (common Greeting t -> exists g, decode_greeting (t ++ r) = Decoded r g) /\
  (common Response t -> exists x, decode_response (t ++ r) = Decoded r x) /\
  (common Command t -> exists c, decode_command (t ++ r) = Decoded r c).
Proof.
  repeat split; intros H; [apply C70_greeting | apply C70_response | apply C69_command]; exists t; (split; [reflexivity |]);
    apply (proj1 (C69_between _ t)); exact H.
Qed.
Print Assumptions C70_greeting.
Print Assumptions C70_response.
Print Assumptions C70_documented.

(** A greeting of the documented syntax within the limits, derived rule by rule *)
Example C70_alert : @common default_features Greeting (bs "* Ok [alert] x" ++ [bCR; bLF]).
Proof.
  assert (T : forall b, is_text_char b = true -> TEXT_CHAR b) by (intros b; apply is_text_char_spec).
  change (bs "* Ok [alert] x" ++ [bCR; bLF]) with
    (bs "*" ++ bs " " ++ (bs "Ok" ++ bs " " ++ (bs "[" ++ bs "alert" ++ bs "]" ++ bs " " ++ ([x78] ++ []))) ++ [bCR; bLF]).
  apply d_ref. cbn [rules]. apply d_cat; [| apply d_cat; [| apply d_cat]].
  - apply d_str. now apply letters_fixed.
  - apply d_str. now apply letters_fixed.
  - apply d_or_l, d_ref. cbn [rules]. apply d_cat; [| apply d_cat].
    + apply d_or_l, d_str. now apply same_letters_spec.
    + apply d_str. now apply letters_fixed.
    + apply d_ref. cbn [rules]. apply d_or_l, d_or_r, d_limit.
      * apply d_cat; [apply d_str; now apply letters_fixed |]. apply d_cat; [| apply d_cat; [apply d_str; now apply letters_fixed |]].
        -- apply d_ref. cbn [rules]. do 24 apply d_or_l. apply d_str. now apply same_letters_spec.
        -- apply d_cat; [apply d_str; now apply letters_fixed |]. apply d_ref. cbn [rules]. apply d_cat; [apply d_chr; now apply T | apply d_none].
      * intros _ c u E (k & l & -> & K & _). exfalso. injection E as E. pose proof (letters_length _ _ K) as L.
        assert (X : length (bs "alert] x") = length ((k ++ bs "(" ++ l ++ bs ")") ++ bs "]" ++ u)) by now rewrite E.
        rewrite !app_length, L in X. cbn in X. lia.
  - apply d_ref, d_or_l, d_str. now apply letters_fixed.
Qed.
Example C70_alert_decoded : exists g, @decode_greeting default_features ((bs "* Ok [alert] x" ++ [bCR; bLF]) ++ bs "a1") = Decoded (bs "a1") g.
Proof. apply C70_documented, C70_alert. Qed.
(** A limit: by the documentation this may be an unknown code (up to the first closing bracket) and
    a text; the crate takes it for a list of one charset, whose name contains the bracket, and
    misses the text. *)
Definition badcharset_corner : bytes := bs "[BADCHARSET (""a] b"")]x".
Example C70_limit : @documented default_features RespText badcharset_corner /\
  ~ @accepted default_features RespText badcharset_corner /\
  @decode_greeting default_features (bs "* OK " ++ badcharset_corner ++ [bCR; bLF]) = Error Failed.
Proof.
  assert (T : forall b, is_text_char b = true -> TEXT_CHAR b) by (intros b; apply is_text_char_spec).
  assert (M : forall t, forallb is_text_char t = true -> many_of TEXT_CHAR t).
  { intros t H. apply Forall_forall. intros b I. apply T. rewrite forallb_forall in H. now apply H. }
  assert (S : forall X t, some_of X t -> @derives default_features false false (some (Chr X)) t).
  { intros X t [N H]. destruct H as [| b t B H]; [easy |]. apply (d_cat _ _ _ _ [b] t); [now apply d_chr |].
    induction H as [| c t C H IH]; [apply d_none |]. apply (d_more _ _ _ [c] t); [now apply d_chr | now apply IH]. }
  assert (A : some_of ATOM_CHAR (bs "BADCHARSET")).
  { split; [discriminate |]. apply Forall_forall. intros b I. apply is_atom_char_spec.
    exact (proj1 (forallb_forall is_atom_char (bs "BADCHARSET")) eq_refl b I). }
  split; [| split].
  - apply d_ref. cbn [rules]. apply d_or_l, d_or_r, d_limit; [| discriminate].
    change badcharset_corner with (bs "[" ++ (bs "BADCHARSET" ++ bs " " ++ bs "(""a") ++ bs "]" ++ bs " " ++ bs "b"")]x").
    apply d_cat; [apply d_str; now apply letters_fixed |]. apply d_cat; [| apply d_cat; [apply d_str; now apply letters_fixed |]].
    + apply d_ref. cbn [rules]. apply d_or_l, d_or_r. apply d_cat; [apply d_ref, S; exact A |]. apply d_or_r.
      apply d_cat; [apply d_str; now apply letters_fixed |]. apply S. split; [discriminate |].
      repeat constructor; try discriminate; now apply T.
    + apply d_cat; [apply d_str; now apply letters_fixed |]. apply d_ref, S. split; [discriminate | now apply M].
  - intros H. apply (proj1 (@spec default_features _ RespText (@G_resp_text default_features) _ _)) in H as [[c x] H].
    assert (G : @G_greeting default_features (bs "* " ++ bs "OK " ++ badcharset_corner ++ [bCR; bLF]) (mkGreeting GKOk c x)).
    { apply g_greeting; [| exact H | now left]. apply (word_intro _ _ (bs "OK ")); [now left | apply same_refl]. }
    apply (@C45_greeting default_features _ _ []) in G. vm_compute in G. discriminate.
  - vm_compute. reflexivity.
Qed.
(** An extra: capabilities without IMAP4rev1 *)
Example C70_extra : (exists x, @decode_response default_features (bs "* CAPABILITY IDLE" ++ [bCR; bLF]) = Decoded [] (RData x)) /\
  ~ @documented default_features CapabilityData (bs "CAPABILITY IDLE").
Proof.
  split.
  - eexists. vm_compute. reflexivity.
  - intros H. apply D_ref in H. cbn [rules] in H. apply D_or in H as [H | H]; [apply D_or in H as [H | H] |].
    + apply D_cat in H as (a & r & E & A & H). apply D_cat in H as (b & r' & -> & _ & H). apply D_cat in H as (s & r & -> & _ & H).
      apply D_cat in H as (d & r' & -> & B & _). apply D_str in A, B. apply letters_length in A, B.
      assert (X : length (bs "CAPABILITY IDLE") = length (a ++ b ++ s ++ d ++ r')) by now rewrite E.
      rewrite !app_length, A, B in X. cbn in X. lia.
    + apply D_extra in H as [H _]. discriminate.
    + apply D_extra in H as [H _]. discriminate.
Qed.
