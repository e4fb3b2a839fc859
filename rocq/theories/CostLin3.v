(** Linear bounds for the parsers of fetch.rs (except message data) and search.rs. *)

From Verif Require Import Bytes BytesFacts Dec Features Nom Types Utf8 Conv ParseCore ParseBody CostNom
  CostCore CostBody CostFacts CostTac CostLin CostLin2.
From Coq Require Import Lia.

Local Open Scope nat_scope.

#[export] Instance L_header_list {F : features} : cst q_header_list [] [[["("%byte]]].
Proof. named q_header_list. Qed.
#[export] Instance L_section_part : cst q_section_part [[["."%byte]; bd]] [[bd]].
Proof. named q_section_part. Qed.
#[export] Typeclasses Opaque q_header_list q_section_part.
Definition letters : list byte := those (fun b => is_alpha b).
#[export] Instance L_section_msgtext {F : features} :
  cst q_section_msgtext [[["."%byte]]] [[["H"%byte; "h"%byte; "T"%byte; "t"%byte]]].
Proof. named q_section_msgtext. Qed.
#[export] Typeclasses Opaque q_section_msgtext.
#[export] Instance L_section_text {F : features} :
  cst q_section_text [[["."%byte]]] [[letters]].
Proof. named q_section_text. Qed.
#[export] Typeclasses Opaque q_section_text.
#[export] Instance L_section_spec {F : features} :
  cst q_section_spec [[["."%byte]]] [[letters ++ bd]].
Proof. named q_section_spec. Qed.
#[export] Typeclasses Opaque q_section_spec.
#[export] Instance L_section {F : features} : cst q_section [] [[["["%byte]]].
Proof. named q_section. Qed.
#[export] Instance L_section_binary : cst q_section_binary [] [[["["%byte]]].
Proof. named q_section_binary. Qed.
#[export] Instance L_partial : cst q_partial [] [[["<"%byte]]].
Proof. named q_partial. Qed.
#[export] Typeclasses Opaque q_section q_section_binary q_partial.
#[export] Instance L_fetch_att {F : features} :
  cst q_fetch_att [[["."%byte; "["%byte; "<"%byte]]] [[letters]].
Proof. named q_fetch_att. Qed.
#[export] Typeclasses Opaque q_fetch_att.

#[export] Instance L_search_key {F : features} n :
  cst (q_search_key n) [[":"%byte :: ","%byte :: bd]] [["*"%byte :: "("%byte :: bd ++ letters]].
Proof.
  induction n as [|n IH]; cbn [q_search_key].
  - eapply mkC; [eapply lin_S; [apply lin_pfail|ckd]|].
    eapply grd_weak; [apply grd_pfail|ckd|apply Nat.le_refl].
  - eapply mkC; [eapply lin_S; [solve [ln]|ckd]|].
    eapply grd_weak; [solve [gr]|ckd|apply Nat.le_refl].
Qed.
#[export] Typeclasses Opaque q_search_key.
#[export] Instance L_search_keys {F : features} : cst q_search_keys [[]] [[]].
Proof. named q_search_keys. Qed.
#[export] Typeclasses Opaque q_search_keys.
#[export] Instance L_search {F : features} : cst q_search [[]] [[]].
Proof. named q_search. Qed.
#[export] Instance L_search_criteria {F : features} : cst q_search_criteria [[]] [[]].
Proof. named q_search_criteria. Qed.
#[export] Typeclasses Opaque q_search q_search_criteria.
