(** C54: exactly which messages the generators of arbitrary messages can make.

    What they leave out is listed in ArbSpec.v; everything else that satisfies the invariants
    of its type (C50) is made, whatever the features, by some random choices, from every long
    enough input. *)

From Verif Require Import Bytes BytesFacts Features Nom Types Valid OtherCode Arb ArbFacts ArbSpec ArbCover ArbBound ArbProps.
Open Scope nat_scope.

(** Only values with [P] are made, and all of them are made. *)
Definition makes_exactly {A} (g : N -> gen A) (P : A -> Prop) : Prop :=
  (forall size a, g size (GVal a) -> P a) /\ (forall a, P a -> may_make g a).

Section Props.
Context {F : features}.
Variable simplified : bool.

Theorem C54_command : makes_exactly (arb_command simplified)
  (fun c => v_command LType c = true /\ r_command simplified c = true).
Proof.
  split.
  - intros size c H. split; [now apply (proj2 (C50_command simplified size)) | exact (va_command simplified size c H)].
  - intros c [V R]. now apply mk_command.
Qed.
Theorem C54_greeting : makes_exactly arb_greeting
  (fun g => v_greeting LType other_name g = true /\ r_greeting g = true).
Proof.
  split.
  - intros size c H. split; [now apply (proj2 (C50_greeting size)) | exact (va_greeting size c H)].
  - intros c [V R]. now apply mk_greeting.
Qed.
Theorem C54_response : makes_exactly (arb_response simplified)
  (fun r => v_response LType other_name r = true /\ r_response simplified r).
Proof.
  split.
  - intros size c H. split; [now apply (proj2 (C50_response simplified size)) | exact (va_response simplified size c H)].
  - intros c [V R]. now apply mk_response.
Qed.
Theorem C54_authenticate_data : makes_exactly arb_authenticate_data (fun _ => True).
Proof. split; [auto | intros a _; apply mk_authenticate_data]. Qed.

(** Some of what the generators leave out, and so the fuzz targets built on them never see:
    times west of Greenwich, mailboxes sent as non-synchronizing literals, lists in body
    extensions, threads whose answers differ. *)
Theorem C54_never_west : forall size tag m flags d msg,
  arb_command simplified size (GVal (mkCommand tag (CAppend m flags (Some d) msg))) -> (0 <= dt_offset d)%Z.
Proof.
  intros size tag m flags d msg H. apply (proj1 C54_command) in H as [_ R]. cbn in R.
  apply andb_true_iff in R as [_ R]. now apply Z.leb_le in R.
Qed.
Theorem C54_never_nonsync_mailbox : forall size tag data,
  ~ arb_command simplified size (GVal (mkCommand tag (CSelect (MOther (AString (ILiteral (mkLit data NonSync)))) []))).
Proof. intros size tag data H. apply (proj1 C54_command) in H as [_ R]. discriminate R. Qed.
Theorem C54_never_different_answers : forall size t1 t2 rest, t1 <> t2 ->
  ~ arb_response simplified size (GVal (RData (DThread [TNested (t1 :: t2 :: rest)]))).
Proof.
  intros size t1 t2 rest N H. apply (proj1 C54_response) in H as [_ R]. cbn in R. inversion R as [| t l X _]. subst.
  inversion X. subst. contradiction.
Qed.
End Props.

Print Assumptions C54_command.
Print Assumptions C54_greeting.
Print Assumptions C54_response.
Print Assumptions C54_authenticate_data.
Print Assumptions C54_never_west.
Print Assumptions C54_never_nonsync_mailbox.
Print Assumptions C54_never_different_answers.

(** ** Messages the generators make *)
Definition deep_search : command := mkCommand (bs "A1")
  (CSearch (Some (CharsetAtom (bs "utf-8")))
    [KNot (KOr (KAnd [KUnseen; KKeyword (bs "x")]) (KHeader (AAtom (bs "k")) (AString (ILiteral (mkLit (bs "v") NonSync)))))] true).
Example C54_makes_deep_search : may_make (arb_command (F := default_features) false) deep_search.
Proof. apply (proj2 (C54_command false)). now split. Qed.
Example C54_simplified_makes_no_deep_search : forall size, ~ arb_command (F := default_features) true size (GVal deep_search).
Proof. intros size H. apply (proj1 (C54_command true)) in H as [_ R]. discriminate R. Qed.
Example C54_makes_thread : may_make (arb_response (F := default_features) false)
  (RData (DThread [TMembers [1%N] (Some [TMembers [2%N] None; TMembers [2%N] None])])).
Proof.
  apply (proj2 (C54_response false)). split; [reflexivity |]. repeat constructor.
Qed.
Example C54_makes_status : may_make (arb_response (F := default_features) false)
  (RStatus (StTagged (bs "A1") (mkStatusBody SKNo (Some (CdUidNext 7)) (bs "no")))).
Proof. apply (proj2 (C54_response false)). now split. Qed.
