(** Applying the rules of CostFacts.v by the form of a parser. *)

From Verif Require Import Bytes Features Nom CostNom CostCore CostFacts.

Existing Class cst.
#[export] Hint Mode cst ! ! - - : typeclass_instances.

Ltac named_lin q := let H := constr:(ltac:(typeclasses eauto) : cst q _ _) in exact (c_lin H).
Ltac named_grd q := let H := constr:(ltac:(typeclasses eauto) : cst q _ _) in exact (c_grd H).

Ltac is_leaf := intros ?; repeat match goal with |- context [match ?x with _ => _ end] => destruct x end;
  cbn; (split; [auto|reflexivity || exact I]).
Ltac ckd := vm_compute; reflexivity.

Ltac grd_step :=
  cbv beta;
  lazymatch goal with
  | |- grd (alt (_ :: _ :: _)) _ _ => cbn [alt]
  | |- grd (alt _) _ _ => cbn [alt]
  | |- grd (orp _ _) _ _ => eapply grd_orp
  | |- grd (bind (tag_no_case _) _) _ _ => eapply grd_kw_bind; intros ?
  | |- grd (bind (tag _) _) _ _ => eapply grd_tag_bind; intros ?
  | |- grd (bind (char _) _) _ _ => eapply grd_char_bind; intros ?
  | |- grd (bind sp _) _ _ => eapply grd_char_bind; intros ?
  | |- grd (bind dquote _) _ _ => eapply grd_char_bind; intros ?
  | |- grd (bind (if _ then _ else _) _) _ _ => eapply grd_bind
  | |- grd (bind _ _) _ _ => eapply grd_bind
  | |- grd (pmap _ _) _ _ => eapply grd_pmap
  | |- grd (map_res _ _) _ _ => eapply grd_map_res
  | |- grd (expect _ _) _ _ => eapply grd_expect
  | |- grd (validated _ _) _ _ => eapply grd_expect
  | |- grd (value _ _) _ _ => eapply grd_value
  | |- grd (recognize _) _ _ => eapply grd_recognize
  | |- grd (gate _ _) _ _ => eapply grd_gate
  | |- grd (vec1 _) _ _ => eapply grd_vecn
  | |- grd (vec2 _) _ _ => eapply grd_vecn
  | |- grd (vecn _ _) _ _ => eapply grd_vecn
  | |- grd (many1 _) _ _ => eapply grd_many1
  | |- grd (many_m (S _) _) _ _ => eapply grd_many_m
  | |- grd (sep_list1 _ _) _ _ => eapply grd_sep_list1
  | |- grd (delimited _ _ _) _ _ => unfold delimited
  | |- grd (terminated _ _) _ _ => unfold terminated
  | |- grd (tag _) _ _ => apply grd_tag
  | |- grd (tag_no_case _) _ _ => apply grd_kw
  | |- grd (char _) _ _ => apply grd_char
  | |- grd sp _ _ => apply grd_char
  | |- grd dquote _ _ => apply grd_char
  | |- grd (sat _) _ _ => apply grd_sat
  | |- grd (take_while1 _) _ _ => apply grd_take_while1
  | |- grd (take_while_m_n _ _ _) _ _ => apply grd_take_while_m_n; lia
  | |- grd perr _ _ => apply grd_perr
  | |- grd pfail _ _ => apply grd_pfail
  | |- grd panic _ _ => apply grd_panic
  | |- grd (if _ then _ else _) _ _ => eapply grd_if
  | |- grd (match ?x with (_, _) => _ end) _ _ => destruct x
  | |- grd ?q _ _ => first [named_grd q | apply grd_any]
  end.
Ltac gr := repeat grd_step.

Ltac ff_step :=
  cbv beta;
  lazymatch goal with
  | |- ff (alt _) _ => cbn [alt]
  | |- ff (orp _ _) _ => eapply ff_orp
  | |- ff (pmap _ _) _ => eapply ff_pmap
  | |- ff (value _ _) _ => eapply ff_value
  | |- ff (gate _ _) _ => eapply ff_gate
  | |- ff (tag_no_case _) _ => apply ff_kw
  | |- ff (tag _) _ => apply ff_tag
  | |- ff (char _) _ => apply ff_sat
  | |- ff sp _ => apply ff_sat
  | |- ff dquote _ => apply ff_sat
  | |- ff (sat _) _ => apply ff_sat
  end.

Ltac dead_tac :=
  cbv beta;
  first
  [ lazymatch goal with |- dead _ [] _ => apply dead_nil end
  | lazymatch goal with |- dead (match ?x with (_, _) => _ end) _ _ => destruct x; dead_tac end
  | eapply dead_grd; [solve [gr] | ckd]
  | lazymatch goal with
    | |- dead (bind _ _) _ _ =>
      first [ eapply dead_bind2; [solve [idle_tac] | intros ?; solve [dead_tac]]
            | eapply dead_bind1; solve [dead_tac] ]
    | |- dead (pmap _ _) _ _ => eapply dead_pmap; solve [dead_tac]
    | |- dead (delimited _ _ _) _ _ => unfold delimited; dead_tac
    | |- dead (terminated _ _) _ _ => unfold terminated; dead_tac
    | |- dead (if _ then _ else _) _ _ => eapply dead_if; solve [dead_tac]
    end ]
with idle_tac :=
  cbv beta;
  first
  [ lazymatch goal with |- idle _ [] _ => apply idle_nil end
  | lazymatch goal with |- idle (match ?x with (_, _) => _ end) _ _ => destruct x; idle_tac end
  | eapply idle_grd; [solve [gr] | ckd]
  | eapply idle_leaf; solve [is_leaf]
  | lazymatch goal with
    | |- idle (bind _ _) _ _ => eapply idle_bind; [solve [idle_tac] | intros ?; solve [idle_tac]]
    | |- idle (opt _) _ _ => eapply idle_opt; solve [dead_tac]
    | |- idle (many0 _) _ _ => eapply idle_many0; solve [dead_tac]
    | |- idle (pmap _ _) _ _ => eapply idle_pmap; solve [idle_tac]
    | |- idle (map_res _ _) _ _ => eapply idle_map_res; solve [idle_tac]
    | |- idle (expect _ _) _ _ => eapply idle_expect; solve [idle_tac]
    | |- idle (value _ _) _ _ => unfold value; idle_tac
    | |- idle (delimited _ _ _) _ _ => unfold delimited; idle_tac
    | |- idle (terminated _ _) _ _ => unfold terminated; idle_tac
    | |- idle (vec1 _) _ _ => eapply idle_vecn; solve [idle_tac]
    | |- idle (vec2 _) _ _ => eapply idle_vecn; solve [idle_tac]
    | |- idle (if _ then _ else _) _ _ => eapply idle_if; solve [idle_tac]
    end ].

Ltac after_tac :=
  cbv beta;
  lazymatch goal with
  | |- after (alt _) _ _ => cbn [alt]; after_tac
  | |- after (orp _ _) _ _ => eapply after_orp; [solve [after_tac] | solve [after_tac]]
  | |- after _ _ _ =>
    first [ eapply after_disj; [solve [gr] | ckd]
          | apply after_value_kw
          | eapply after_gate; solve [after_tac] ]
  end.

Ltac sep_tac :=
  lazymatch goal with
  | |- issep sp _ => apply issep_char
  | |- issep dquote _ => apply issep_char
  | |- issep (char _) _ => apply issep_char
  | |- issep (tag _) _ => apply issep_tag
  end.

Ltac ln :=
  cbv beta;
  lazymatch goal with
  | |- lin (alt _) _ _ _ => cbn [alt]; ln
  | |- lin (orp ?p ?q) _ _ _ =>
    let H1 := fresh "H1" in let H2 := fresh "H2" in
    eassert (H1 : lin p _ _ _) by solve [ln]; eassert (H2 : lin q _ _ _) by solve [ln];
    first [ eapply lin_orp; [exact H1 | solve [gr] | exact H2 | solve [gr] | ckd]
          | eapply lin_orp_ff; [exact H1 | solve [repeat ff_step] | exact H2]
          | eapply lin_orp_after; [exact H1 | solve [gr] | exact H2 | solve [after_tac]]
          | eapply lin_orp_all; [exact H1 | exact H2] ]
  | |- lin (bind ?p ?f) _ _ _ => ln_bind
  | |- lin (pmap _ _) _ _ _ => eapply lin_pmap; ln
  | |- lin (map_res _ _) _ _ _ => eapply lin_map_res; ln
  | |- lin (expect _ _) _ _ _ => eapply lin_expect; ln
  | |- lin (validated _ _) _ _ _ => eapply lin_expect; ln
  | |- lin (value _ _) _ _ _ => eapply lin_value; ln
  | |- lin (recognize _) _ _ _ => eapply lin_recognize; ln
  | |- lin (peek _) _ _ _ => eapply lin_peek; ln
  | |- lin (gate _ _) _ _ _ => eapply lin_gate; ln
  | |- lin (vec1 _) _ _ _ => eapply lin_vecn; ln
  | |- lin (vec2 _) _ _ _ => eapply lin_vecn; ln
  | |- lin (vecn _ _) _ _ _ => eapply lin_vecn; ln
  | |- lin (opt _) _ _ _ =>
    first [ eapply lin_opt_ff; [solve [ln] | solve [repeat ff_step]]
          | eapply lin_opt; [solve [ln] | solve [gr]] ]
  | |- lin (many0 _) _ _ _ => eapply lin_many0; [solve [ln] | solve [gr]]
  | |- lin (many1 _) _ _ _ => eapply lin_many1; [solve [ln] | solve [gr]]
  | |- lin (many_m _ _) _ _ _ => eapply lin_many_m; [solve [ln] | solve [gr]]
  | |- lin (sep_list1 _ _) _ _ _ =>
    eapply lin_sep_list1; [solve [sep_tac] | solve [ln] | solve [gr] | ckd]
  | |- lin (sep_list0 _ _) _ _ _ =>
    eapply lin_sep_list0; [solve [sep_tac] | solve [ln] | solve [gr] | ckd]
  | |- lin (delimited _ _ _) _ _ _ => unfold delimited; ln
  | |- lin (terminated _ _) _ _ _ => unfold terminated; ln
  | |- lin (tag _) _ _ _ => apply lin_tag
  | |- lin (tag_no_case _) _ _ _ => apply lin_kw
  | |- lin (char _) _ _ _ => apply lin_char
  | |- lin sp _ _ _ => apply lin_char
  | |- lin dquote _ _ _ => apply lin_char
  | |- lin (sat _) _ _ _ => apply lin_sat
  | |- lin (take_while _) _ _ _ => apply lin_take_while
  | |- lin (take_while1 _) _ _ _ => apply lin_take_while1
  | |- lin (take_while_m_n _ _ _) _ _ _ => apply lin_take_while_m_n
  | |- lin (take _) _ _ _ => apply lin_take
  | |- lin (take_until2 _ _) _ _ _ => apply lin_take_until2
  | |- lin (ret _) _ _ _ => apply lin_ret
  | |- lin perr _ _ _ => apply lin_perr
  | |- lin pfail _ _ _ => apply lin_pfail
  | |- lin panic _ _ _ => apply lin_panic
  | |- lin (if _ then _ else _) _ _ _ =>
    first [apply lin_leaf; solve [is_leaf] | eapply lin_if; [solve [ln] | solve [ln]]]
  | |- lin (match ?x with (_, _) => _ end) _ _ _ => destruct x; ln
  | |- lin (match _ with _ => _ end) _ _ _ => apply lin_leaf; is_leaf
  | |- lin ?q _ _ _ => named_lin q
  end
with ln_bind :=
  lazymatch goal with
  | |- lin (bind ?p ?f) _ _ _ =>
    let H1 := fresh "H1" in let H2 := fresh "H2" in
    eassert (H1 : lin p _ _ _) by solve [ln];
    eassert (H2 : forall x, lin (f x) _ _ _) by (intros ?; solve [ln]);
    first [ eapply lin_bind_dead; [exact H1 | intros ?; solve [dead_tac] | exact H2]
          | eapply lin_bind_idle; [exact H1 | intros ?; solve [idle_tac] | exact H2]
          | eapply lin_bind_all; [exact H1 | exact H2] ]
  end.

(** a named parser [q] with the stated rests and starts *)
Tactic Notation "named" reference(q) := unfold q; eapply mkC;
  [ eapply lin_S; [solve [ln] | ckd]
  | eapply grd_weak; [solve [gr] | ckd | apply Nat.le_refl] ].
