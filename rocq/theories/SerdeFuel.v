(** The fuel of the readers of types that contain themselves is enough: more of it changes
    nothing. *)

From Verif Require Import Bytes Features Types Utf8 Conv Valid Serde SerdeTypes SerdeFacts.
From Coq Require Import Lia.
Open Scope nat_scope.

Create HintDb agree.
#[export] Hint Resolve agree_vec agree_vec_n agree_refl : agree.
Ltac agree_leaf := solve [eauto 6 with agree].
Ltac agree_all :=
  first
    [ apply agree_c_newtype; agree_leaf
    | apply agree_c_pair; agree_leaf
    | apply agree_c_struct;
      repeat first [ apply agree_req; [agree_leaf | intros ?]
                   | apply agree_opt_field; [agree_leaf | intros ?] ];
      apply agree_fin
    | intros ? _; reflexivity ].
Ltac agree_enum_all :=
  repeat (apply Forall2_cons; [cbn [fst snd]; split; [reflexivity | agree_all] |]);
  try apply Forall2_nil.

Section SerdeFuel.
Context {F : features}.

Lemma body_extension_fuel n : forall m t, height t <= n -> height t <= m ->
  de_body_extension_n n t = de_body_extension_n m t.
Proof.
  induction n as [|n IH]; intros m t Hn Hm; [pose proof (height_pos t); lia|].
  destruct m as [|m]; [pose proof (height_pos t); lia|]. cbn [de_body_extension_n].
  apply agree_enum with (height t); [|lia].
  assert (H : agree (height t) (de_body_extension_n n) (de_body_extension_n m)).
  { intros u Hu. apply IH; lia. }
  agree_enum_all.
Qed.
Lemma thread_fuel n : forall m t, height t <= n -> height t <= m ->
  de_thread_n n t = de_thread_n m t.
Proof.
  induction n as [|n IH]; intros m t Hn Hm; [pose proof (height_pos t); lia|].
  destruct m as [|m]; [pose proof (height_pos t); lia|]. cbn [de_thread_n].
  apply agree_enum with (height t); [|lia].
  assert (H : agree (height t) (de_thread_n n) (de_thread_n m)).
  { intros u Hu. apply IH; lia. }
  agree_enum_all.
Qed.
Lemma search_key_fuel n : forall m t, height t <= n -> height t <= m ->
  de_search_key_n n t = de_search_key_n m t.
Proof.
  induction n as [|n IH]; intros m t Hn Hm; [pose proof (height_pos t); lia|].
  destruct m as [|m]; [pose proof (height_pos t); lia|]. cbn [de_search_key_n].
  apply agree_enum with (height t); [|lia].
  assert (H : agree (height t) (de_search_key_n n) (de_search_key_n m)).
  { intros u Hu. apply IH; lia. }
  agree_enum_all.
Qed.
Lemma agree_specific h d e : agree h d e ->
  agree h (de_specific_fields d) (de_specific_fields e).
Proof.
  intros H t Ht. unfold de_specific_fields. apply agree_enum with h; [|lia]. agree_enum_all.
Qed.
Lemma body_structure_fuel n : forall m t, height t <= n -> height t <= m ->
  de_body_structure_n n t = de_body_structure_n m t.
Proof.
  induction n as [|n IH]; intros m t Hn Hm; [pose proof (height_pos t); lia|].
  destruct m as [|m]; [pose proof (height_pos t); lia|]. cbn [de_body_structure_n].
  apply agree_enum with (height t); [|lia].
  assert (H : agree (height t) (de_body_structure_n n) (de_body_structure_n m)).
  { intros u Hu. apply IH; lia. }
  pose proof (agree_specific _ _ _ H) as H'.
  assert (H'' : agree (height t)
    (de_struct [bs "basic"; bs "specific"] (x <== req de_basic_fields ;;
       y <== req (de_specific_fields (de_body_structure_n n)) ;; fin (x, y)))
    (de_struct [bs "basic"; bs "specific"] (x <== req de_basic_fields ;;
       y <== req (de_specific_fields (de_body_structure_n m)) ;; fin (x, y)))).
  { intros u Hu. apply agree_struct with (height t); [|lia].
    apply agree_req; [agree_leaf | intros ?]. apply agree_req; [agree_leaf | intros ?].
    apply agree_fin. }
  agree_enum_all.
Qed.

End SerdeFuel.
