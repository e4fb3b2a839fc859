(** The fragments of an operation list, for RoundTripProps.v. *)

From Verif Require Import Bytes BytesFacts Dec Features Nom Types EncodeCtx Encode EncodeFacts RtFacts RoundTripSpec.
Open Scope nat_scope.

(** What [run_ops] produces, by recursion on the operations *)
Fixpoint frags (acc : bytes) (l : list op) : list fragment :=
  match l with
  | [] => match acc with [] => [] | _ => [FrLine acc] end
  | B b :: l' => frags (acc ++ [b]) l'
  | Lit is8 m d :: l' =>
    FrLine (acc ++ lit_header is8 m (lenN d)) :: FrLiteral d m :: frags [] l'
  end.
Lemma run_ops_frags l : forall acc items,
  into_items (run_ops (mkCtx acc items) l) = items ++ frags acc l.
Proof.
  induction l as [| o l IH]; intros acc items.
  - cbn. unfold into_items. cbn. destruct acc; [now rewrite app_nil_r | reflexivity].
  - destruct o as [b | is8 m d]; cbn [run_ops fold_left run_op frags].
    + unfold write. cbn [c_acc c_items]. apply IH.
    + unfold push_literal, push_line, write. cbn [c_acc c_items app].
      change (fold_left run_op l ?c) with (run_ops c l). rewrite IH, <- !app_assoc. reflexivity.
Qed.
Lemma fragments_frags l : fragments l = frags [] l.
Proof. unfold fragments, ctx_new. now rewrite run_ops_frags. Qed.

Lemma dump_frags l : forall acc, dump_fragments (frags acc l) = acc ++ dump l.
Proof.
  induction l as [| [b | is8 m d] l IH]; intros acc; cbn [frags].
  - destruct acc; cbn; now rewrite ?app_nil_r.
  - rewrite IH, <- app_assoc. reflexivity.
  - unfold dump_fragments in *. cbn [flat_map fragment_data]. rewrite IH. cbn [app dump flat_map dump_op].
    now rewrite <- !app_assoc.
Qed.
Lemma dump_fragments_eq l : dump_fragments (fragments l) = dump l.
Proof. now rewrite fragments_frags, dump_frags. Qed.

(** A literal fragment comes from a literal. *)
Lemma frags_cut l : forall acc before d m after,
  frags acc l = before ++ FrLiteral d m :: after ->
  exists pre is8 post, l = pre ++ Lit is8 m d :: post /\
    dump_fragments before = acc ++ dump pre ++ lit_header is8 m (lenN d).
Proof.
  induction l as [| [b | is8 m' d'] l IH]; intros acc before d m after E; cbn [frags] in E.
  - exfalso. destruct acc; destruct before as [| f [| g before]]; discriminate.
  - destruct (IH _ _ _ _ _ E) as (pre & is8 & post & -> & ->).
    exists (B b :: pre), is8, post. split; [reflexivity |]. now rewrite <- app_assoc.
  - destruct before as [| f [| g before]]; [discriminate | |].
    + injection E as <- -> -> _. exists [], is8, l. split; [reflexivity |].
      cbn. now rewrite app_nil_r.
    + injection E as <- <- E. destruct (IH _ _ _ _ _ E) as (pre & is8' & post & -> & K).
      exists (Lit is8 m' d' :: pre), is8', post. split; [reflexivity |].
      unfold dump_fragments in *. cbn [flat_map fragment_data]. rewrite K.
      cbn [app dump flat_map dump_op]. now rewrite <- !app_assoc.
Qed.
Lemma fragments_cut l before d m after : fragments l = before ++ FrLiteral d m :: after ->
  exists pre is8 post, l = pre ++ Lit is8 m d :: post /\ dump_fragments before = upto_lit pre is8 m d.
Proof.
  rewrite fragments_frags. intros E. destruct (frags_cut _ _ _ _ _ _ E) as (pre & is8 & post & -> & K).
  exists pre, is8, post. split; [reflexivity | exact K].
Qed.

Lemma header_announces acc is8 m n : announces (acc ++ lit_header is8 m n) n m.
Proof.
  exists (acc ++ if is8 then bs "~" else []), (dec n). split; [| split; [apply dec_nonempty | split]].
  - unfold lit_header. destruct is8; cbn [app]; rewrite <- ?app_assoc; cbn [app bs];
      rewrite ?app_nil_r; destruct m; reflexivity.
  - apply dec_digits.
  - apply dval_dec.
Qed.
Lemma frags_framed l : forall acc, framed (frags acc (l ++ W [bCR; bLF])).
Proof.
  induction l as [| [b | is8 m d] l IH]; intros acc.
  - cbn. rewrite <- app_assoc. destruct (acc ++ [bCR] ++ [bLF]) eqn:E.
    + destruct acc; discriminate.
    + rewrite <- E. constructor.
  - cbn [app frags]. apply IH.
  - cbn [app frags]. constructor; [apply header_announces | apply IH].
Qed.
Lemma fragments_framed l : framed (fragments (l ++ W [bCR; bLF])).
Proof. rewrite fragments_frags. apply frags_framed. Qed.
