(** The exceptions of property C71 are needed: messages of the types that are sent in a way the
    documented syntax does not allow. *)

From Verif Require Import Bytes BytesFacts Dec Features Nom Types Conv SeqSet EncodeCtx Encode EncodeApi EncFragFacts Valid QuotedFacts ValueSpec ValueFacts
  RoundTripSpec OtherCode AbnfSpec AbnfFacts SentSpec SentFacts.
Open Scope N_scope.
Open Scope abnf_scope.

Section Refute.
Context {F : features}.
Local Notation D := (derives false false).

(** [P a k t]: whenever [t] starts with a text of [a], [k] holds of the rest. *)
Definition P (a : abnf) (k : bytes -> Prop) (t : bytes) : Prop := forall u w, t = u ++ w -> D a u -> k w.
Fixpoint strip (s t : bytes) : option bytes :=
  match s, t with
  | [], _ => Some t
  | x :: s, y :: t => if beq (lower x) (lower y) then strip s t else None
  | _ :: _, [] => None
  end.
Lemma strip_spec s : forall u w, same_letters u s -> strip s (u ++ w) = Some w.
Proof.
  induction s as [| x s IH]; intros u w H; inversion H; subst; [reflexivity |]. cbn [app strip].
  match goal with X : same_letter _ _ |- _ => apply same_letter_spec in X; rewrite X end. rewrite beq_refl. auto.
Qed.
Lemma p_str s k t r : strip s t = r -> match r with Some w => k w | None => True end -> P (Str s) k t.
Proof. intros <- H u w -> G. apply D_str in G. now rewrite strip_spec in H. Qed.
Lemma p_chr (X : byte -> Prop) (k : bytes -> Prop) t : match t with b :: w => X b -> k w | [] => True end -> P (Chr X) k t.
Proof. intros H u w -> G. apply D_chr in G as (b & -> & G). now apply H. Qed.
Lemma p_eps (k : bytes -> Prop) t : k t -> P Eps k t.
Proof. intros H u w -> G. now apply D_eps in G as ->. Qed.
Lemma p_cat a b k t : P a (P b k) t -> P (a ^ b) k t.
Proof. intros H u w -> G. apply D_cat in G as (x & y & -> & G1 & G2). rewrite <- app_assoc in H. exact (H x _ eq_refl G1 y w eq_refl G2). Qed.
Lemma p_or a b k t : P a k t -> P b k t -> P (a / b) k t.
Proof. intros H1 H2 u w -> G. apply D_or in G as [G | G]; [exact (H1 _ _ eq_refl G) | exact (H2 _ _ eq_refl G)]. Qed.
Lemma p_many a (k : bytes -> Prop) t : k t -> P a (P (Many a) k) t -> P (Many a) k t.
Proof.
  intros H1 H2 u w -> G. apply D_many in G as [-> | (x & y & -> & G1 & G2)]; [exact H1 |]. rewrite <- app_assoc in H2.
  exact (H2 x _ eq_refl G1 y w eq_refl G2).
Qed.
Lemma p_ref r k t : P (rules r) k t -> P (Ref r) k t.
Proof. intros H u w -> G. apply D_ref in G. exact (H _ _ eq_refl G). Qed.
Lemma taken (u w : bytes) : firstn (length (u ++ w) - length w) (u ++ w) = u.
Proof. rewrite app_length, Nat.add_sub, firstn_app, firstn_all, Nat.sub_diag. cbn [firstn]. apply app_nil_r. Qed.
Lemma p_where (Q : bytes -> Prop) a (k : bytes -> Prop) t : P a (fun w => Q (firstn (length t - length w) t) -> k w) t -> P (Where Q a) k t.
Proof. intros H u w -> G. apply D_where in G as [G G2]. apply (H u w eq_refl G). now rewrite taken. Qed.
Lemma p_feature b a k t : P a k t -> P (Feature b a) k t.
Proof. intros H u w -> G. apply D_feature in G as [_ G]. exact (H _ _ eq_refl G). Qed.
Lemma p_extra a k t : P (Extra a) k t.
Proof. intros u w -> G. now apply D_extra in G as [G _]. Qed.
Lemma p_limit Q a k t : P a k t -> P (Limit Q a) k t.
Proof. intros H u w -> G. apply D_limit in G as [G _]. exact (H _ _ eq_refl G). Qed.
Lemma p_literal s e X k t : strip s t = None -> P (Prose (literal_text s e X)) k t.
Proof.
  intros H u w -> G. apply D_prose in G as (d & p & eol & x & -> & _). rewrite <- app_assoc in H. rewrite strip_spec in H; [discriminate |].
  apply same_letters_spec. reflexivity.
Qed.
(** The splits of a text *)
Fixpoint splits (t : bytes) : list (bytes * bytes) :=
  match t with [] => [([], [])] | b :: w => ([], t) :: map (fun p => (b :: fst p, snd p)) (splits w) end.
Lemma splits_spec u w : In (u, w) (splits (u ++ w)).
Proof.
  induction u as [| b u IH]; [destruct w; left; reflexivity |]. cbn [app splits]. right.
  apply in_map_iff. now exists (u, w).
Qed.
Lemma p_prose (Q k : bytes -> Prop) t l : splits t = l -> Forall (fun p => Q (fst p) -> k (snd p)) l -> P (Prose Q) k t.
Proof.
  intros <- H u w -> G. apply D_prose in G. rewrite Forall_forall in H. exact (H (u, w) (splits_spec u w) G).
Qed.
Lemma utf8_text_in X t b : utf8_text X t -> In b t -> b <> bBS -> X b.
Proof.
  intros (_ & s & B & H) I N. apply quoted_body_spec in B as ->. rewrite escape_quoted_flat in I. apply in_flat_map in I as (c & C & I).
  rewrite Forall_forall in H. unfold esc_char in I. destruct (is_quoted_specials c); cbn in I.
  - destruct I as [I | [<- | []]]; [congruence | auto].
  - destruct I as [<- | []]. auto.
Qed.
Lemma refuted a t : P a (fun w => w = [] -> False) t -> ~ D a t.
Proof. intros H G. refine (H t [] _ G eq_refl). now rewrite app_nil_r. Qed.
End Refute.

Ltac absurd_char H := exfalso; cbv in H; intuition congruence.
Ltac absurd_value H := let n := fresh in let V := fresh in destruct H as (n & V & H); apply digits_spec in V as [_ <-]; exfalso; cbv in H; intuition congruence.
Ltac absurd_star H := exfalso; apply H; cbn; tauto.
Ltac absurd_message H := exfalso; match type of H with _ ?u => apply (H (firstn 18 u) (skipn 18 u)); [reflexivity |] end;
  cbn [firstn]; repeat (constructor; [now apply same_letter_spec |]); constructor.
Ltac refute :=
  lazymatch goal with
  | |- True => exact I
  | |- P (Str _) _ _ => eapply p_str; [vm_compute; reflexivity |]; cbv iota; refute
  | |- P (Chr _) _ _ => apply p_chr; cbv iota;
      first [exact I | let H := fresh in intros H; first [solve [absurd_char H] | clear H; refute]]
  | |- P Eps _ _ => apply p_eps; refute
  | |- P SP _ _ => unfold SP; refute
  | |- P DQUOTE _ _ => unfold DQUOTE; refute
  | |- P DIGIT _ _ => unfold DIGIT; refute
  | |- P digit_nz _ _ => unfold digit_nz; refute
  | |- P (opt _) _ _ => unfold opt; refute
  | |- P (some _) _ _ => unfold some; refute
  | |- P (deeper _ _) _ _ => cbv beta iota delta [deeper]; refute
  | |- P (Cat _ _) _ _ => apply p_cat; refute
  | |- P (Or _ _) _ _ => apply p_or; refute
  | |- P (Many _) _ _ => apply p_many; refute
  | |- P (Ref _) _ _ => apply p_ref; cbn [rules]; refute
  | |- P (Where _ _) _ _ => apply p_where; refute
  | |- P (Feature _ _) _ _ => apply p_feature; refute
  | |- P (Limit _ _) _ _ => apply p_limit; refute
  | |- P (Extra _) _ _ => apply p_extra
  | |- P (Prose (literal_text _ _ _)) _ _ => apply p_literal; reflexivity
  | |- P (Prose _) _ _ => eapply p_prose; [vm_compute; reflexivity |]; cbv beta; repeat (apply Forall_cons; cbn [fst snd]); [refute .. | constructor]
  | |- utf8_text ?X ?t -> _ => let H := fresh in intros H;
      first [solve [assert (Z := utf8_text_in _ _ bCR H); cbv in Z; intuition congruence] | clear H; refute]
  | |- (fun _ => _) _ => cbv beta; refute
  | |- ?x = [] -> False => discriminate
  | |- _ (firstn _ _) -> _ => let H := fresh in intros H; cbv [length Nat.sub firstn] in H;
      first [solve [absurd_value H] | solve [absurd_message H] | solve [absurd_star H] | clear H; refute]
  end.

Ltac not_documented := apply refuted; match goal with |- P _ _ ?t => let x := eval vm_compute in t in change t with x end; refute.
Ltac is_regular := repeat (apply Forall_cons; [first [vm_compute; reflexivity | eexists; split; [match goal with |- ?t = _ =>
  let n := eval vm_compute in (firstn (length t - 2) t) in instantiate (1 := n) end; vm_compute; reflexivity | repeat constructor; discriminate]] |]); constructor.

(** Of the conditions of the theorems of SentProps.v only one is missing in each of these. *)
Definition no_attributes : command := mkCommand (bs "a") (CStatus MInbox []).
Theorem C71_empty_status_refuted :
  ~ forall (F : features) c, v_command LType c = true -> regular (encode_command c) -> documented Command (dump_fragments (encode_command c)).
Proof. intros H. refine (_ (H all_features no_attributes eq_refl _)); [not_documented | is_regular]. Qed.
Definition no_items : command := mkCommand (bs "a") (CFetch [SSingle (SValue 1)] (MIItems []) false []).
Theorem C71_empty_fetch_refuted :
  ~ forall (F : features) c, v_command LType c = true -> regular (encode_command c) -> documented Command (dump_fragments (encode_command c)).
Proof. intros H. refine (_ (H all_features no_items eq_refl _)); [not_documented | is_regular]. Qed.
Definition big_quota : command := mkCommand (bs "a") (CSetQuota (AAtom (bs "x")) [mkQuotaSet RStorage 9223372036854775808]).
Theorem C71_quota_refuted :
  ~ forall (F : features) c, v_command LType c = true -> regular (encode_command c) -> documented Command (dump_fragments (encode_command c)).
Proof. intros H. refine (_ (H all_features big_quota eq_refl _)); [not_documented | is_regular]. Qed.
Definition star_known : command := mkCommand (bs "a") (CSelect (MOther (AAtom (bs "x"))) [SPQResync 1 1 (Some [SRange (SValue 1) SAsterisk]) None]).
Theorem C71_known_uids_refuted :
  ~ forall (F : features) c, v_command LType c = true -> regular (encode_command c) -> documented Command (dump_fragments (encode_command c)).
Proof. intros H. refine (_ (H all_features star_known eq_refl _)); [not_documented | is_regular]. Qed.
(** A quoted string of UTF-8 with a line break in it *)
Definition broken_line : command := mkCommand (bs "a") (CLogin (AAtom (bs "x")) (AString (IQuotedUtf8 [xc3; xa9; bCR; bLF]))).
Theorem C71_regular_refuted :
  ~ forall (F : features) c, v_command LType c = true -> doc_command c -> documented Command (dump_fragments (encode_command c)).
Proof. intros H. refine (_ (H all_features broken_line eq_refl I)). not_documented. Qed.
(** Codes *)
Definition odd_code : greeting := mkGreeting GKOk (Some (CdOther [xc3; xa9])) (bs "x").
Theorem C71_odd_code_refuted :
  ~ forall (F : features) g, v_greeting LType other_name g = true -> regular (encode_greeting g) -> documented Greeting (dump_fragments (encode_greeting g)).
Proof. intros H. refine (_ (H all_features odd_code eq_refl _)); [not_documented | is_regular]. Qed.
(** Responses *)
Definition modseq : response := RData (DFetch 1 [MDModSeq 5]).
Theorem C71_modseq_refuted :
  ~ forall (F : features) r, v_response LType other_name r = true -> regular (encode_response r) -> documented Response (dump_fragments (encode_response r)).
Proof. intros H. refine (_ (H all_features modseq eq_refl _)); [not_documented | is_regular]. Qed.
Definition no_imap4rev1 : response := RData (DCapability [CapIdle]).
Theorem C71_capability_refuted :
  ~ forall (F : features) r, v_response LType other_name r = true -> regular (encode_response r) -> documented Response (dump_fragments (encode_response r)).
Proof. intros H. refine (_ (H all_features no_imap4rev1 eq_refl _)); [not_documented | is_regular]. Qed.
Definition vanished_star : response := RData (DVanished false [SSingle SAsterisk]).
Theorem C71_vanished_refuted :
  ~ forall (F : features) r, v_response LType other_name r = true -> regular (encode_response r) -> documented Response (dump_fragments (encode_response r)).
Proof. intros H. refine (_ (H all_features vanished_star eq_refl _)); [not_documented | is_regular]. Qed.
(** A body of type message/rfc822 that is described like any other *)
Definition basic_rfc822 : response := RData (DFetch 1 [MDBody (BSSingle (mkBasic [] None None (IQuoted (bs "b")) 1) (SFBasic (IQuoted (bs "message")) (IQuoted (bs "rfc822"))) None)]).
Theorem C71_rfc822_refuted :
  ~ forall (F : features) r, v_response LType other_name r = true -> regular (encode_response r) -> documented Response (dump_fragments (encode_response r)).
Proof. intros H. refine (_ (H all_features basic_rfc822 eq_refl _)); [not_documented | is_regular]. Qed.
Definition big_storage : response := RData (DStatus MInbox [SIDeletedStorage 9223372036854775808]).
Theorem C71_deleted_storage_refuted :
  ~ forall (F : features) r, v_response LType other_name r = true -> regular (encode_response r) -> documented Response (dump_fragments (encode_response r)).
Proof. intros H. refine (_ (H all_features big_storage eq_refl _)); [not_documented | is_regular]. Qed.
Definition odd_referral : greeting := mkGreeting GKBye (Some (CdReferral [xc3; xa9])) (bs "x").
Theorem C71_referral_refuted :
  ~ forall (F : features) g, v_greeting LType other_name g = true -> regular (encode_greeting g) -> documented Greeting (dump_fragments (encode_greeting g)).
Proof. intros H. refine (_ (H all_features odd_referral eq_refl _)); [not_documented | is_regular]. Qed.
Print Assumptions C71_empty_status_refuted.
Print Assumptions C71_empty_fetch_refuted.
Print Assumptions C71_quota_refuted.
Print Assumptions C71_known_uids_refuted.
Print Assumptions C71_regular_refuted.
Print Assumptions C71_odd_code_refuted.
Print Assumptions C71_modseq_refuted.
Print Assumptions C71_capability_refuted.
Print Assumptions C71_vanished_refuted.
Print Assumptions C71_rfc822_refuted.
Print Assumptions C71_deleted_storage_refuted.
Print Assumptions C71_referral_refuted.
