(** Linear bounds for the parsers of CostBody.v. *)

From Verif Require Import Bytes BytesFacts Dec Features Nom Types Utf8 Conv ParseCore ParseBody CostNom
  CostCore CostBody CostFacts CostTac CostLin.
From Coq Require Import Lia.

Local Open Scope nat_scope.

(** ** envelope.rs *)
Definition nstr_first : list pat := [[[bDQ; "{"%byte; "N"%byte; "n"%byte]]].
Lemma lin_spaces {F : features} :
  lin (if quirk_spaces_between_addresses then many0 sp ;;; ret tt else ret tt) [[[bSP]]] 2 10.
Proof.
  destruct quirk_spaces_between_addresses.
  - eapply lin_weak; [solve [ln]|ckd|cbn; lia..].
  - eapply lin_weak; [solve [ln]|ckd|cbn; lia..].
Qed.
#[export] Instance L_address {F : features} : cst q_address [] [[[bSP; "("%byte]]].
Proof.
  unfold q_address. eapply mkC.
  - eapply lin_bind_dead; [apply lin_spaces|intros ?; solve [dead_tac]|intros ?; solve [ln]].
  - eapply grd_weak with (G := [[[bSP; "("%byte]]]) (b := 10); [|ckd|apply Nat.le_refl]. intros i Hi.
    assert (X : match i with x :: _ => beq x bSP = false /\ beq x "("%byte = false | [] => True end).
    { destruct i as [|x i]; [exact I|]. cbn in Hi. destruct (beq x bSP); [discriminate|].
      destruct (beq x "("%byte); [discriminate|]. auto. }
    destruct quirk_spaces_between_addresses; unfold bind, many0; destruct i as [|x i];
      cbn [many0_f sp char sat ret tag length bs]; try (cbn; split; [reflexivity|lia]);
      destruct X as [X1 X2]; unfold sp, char; cbn [sat]; rewrite ?X1; cbn; rewrite ?X2;
      (split; [reflexivity|cbn; lia]).
Qed.
#[export] Typeclasses Opaque q_address.
#[export] Instance L_addresses {F : features} : cst q_addresses [] [[["("%byte; "N"%byte; "n"%byte]]].
Proof. named q_addresses. Qed.
#[export] Typeclasses Opaque q_addresses.
#[export] Instance L_envelope {F : features} : cst q_envelope [] [[["("%byte]]].
Proof. named q_envelope. Qed.
#[export] Typeclasses Opaque q_envelope.

(** ** body.rs *)
#[export] Instance L_pair {F : features} : cst q_pair [] [[[bDQ; "{"%byte]]].
Proof. named q_pair. Qed.
#[export] Typeclasses Opaque q_pair.
#[export] Instance L_body_fld_param {F : features} : cst q_body_fld_param [] [[["("%byte; "N"%byte; "n"%byte]]].
Proof. named q_body_fld_param. Qed.
#[export] Instance L_body_fld_enc {F : features} : cst q_body_fld_enc [] nstr_first.
Proof. named q_body_fld_enc. Qed.
#[export] Instance L_body_fld_octets {F : features} : cst q_body_fld_octets [] [["-"%byte :: bd]].
Proof. named q_body_fld_octets. Qed.
#[export] Typeclasses Opaque q_body_fld_param q_body_fld_enc q_body_fld_octets.
#[export] Instance L_body_fields {F : features} : cst q_body_fields [] [[["("%byte; "N"%byte; "n"%byte]]].
Proof. named q_body_fields. Qed.
#[export] Typeclasses Opaque q_body_fields.
Definition ext_first : list pat := [[bDQ :: "{"%byte :: "N"%byte :: "n"%byte :: "("%byte :: bd]].
#[export] Instance L_body_extension {F : features} n : cst (q_body_extension n) [] ext_first.
Proof.
  induction n as [|n IH]; cbn [q_body_extension].
  - eapply mkC; [apply lin_pfail|]. eapply grd_weak; [apply grd_pfail|ckd|apply Nat.le_refl].
  - eapply mkC; [eapply lin_S; [solve [ln]|ckd]|].
    eapply grd_weak; [solve [gr]|ckd|apply Nat.le_refl].
Qed.
#[export] Typeclasses Opaque q_body_extension.
#[export] Instance L_body_fld_dsp {F : features} : cst q_body_fld_dsp [] [[["("%byte; "N"%byte; "n"%byte]]].
Proof. named q_body_fld_dsp. Qed.
#[export] Instance L_body_fld_lang {F : features} : cst q_body_fld_lang [] ext_first.
Proof. named q_body_fld_lang. Qed.
#[export] Typeclasses Opaque q_body_fld_dsp q_body_fld_lang.
#[export] Instance L_location {F : features} : cst q_location [[[bSP]]] [[[bSP]]].
Proof. named q_location. Qed.
#[export] Typeclasses Opaque q_location.
#[export] Instance L_language {F : features} : cst q_language [[[bSP]]] [[[bSP]]].
Proof. named q_language. Qed.
#[export] Typeclasses Opaque q_language.
#[export] Instance L_disposition {F : features} : cst q_disposition [[[bSP]]] [[[bSP]]].
Proof. named q_disposition. Qed.
#[export] Typeclasses Opaque q_disposition.
#[export] Instance L_body_ext_1part {F : features} : cst q_body_ext_1part [[[bSP]]] nstr_first.
Proof. named q_body_ext_1part. Qed.
#[export] Instance L_body_ext_mpart {F : features} : cst q_body_ext_mpart [[[bSP]]] [[["("%byte; "N"%byte; "n"%byte]]].
Proof. named q_body_ext_mpart. Qed.
#[export] Typeclasses Opaque q_body_ext_1part q_body_ext_mpart.
