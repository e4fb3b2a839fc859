(** Linear bounds for the parsers of CostCore.v. *)

From Verif Require Import Bytes BytesFacts Dec Features Nom Types Utf8 Conv ParseCore CostNom CostCore
  CostFacts CostTac.
From Coq Require Import Lia.

Local Open Scope nat_scope.

(** ** [escaped], byte by byte *)

Fixpoint esc (f : byte -> bool) (i : bytes) : option bytes :=
  match i with
  | [] => None
  | x :: i' =>
    if f x then esc f i'
    else if beq x bBS then
      match i' with
      | [] => None
      | y :: i'' => if is_quoted_specials y then esc f i'' else None
      end
    else Some i
  end.
(** the bytes looked at *)
Fixpoint escn (f : byte -> bool) (i : bytes) : nat :=
  match i with
  | [] => 1
  | x :: i' =>
    if f x then S (escn f i')
    else if beq x bBS then
      match i' with
      | [] => 1
      | y :: i'' => if is_quoted_specials y then 2 + escn f i'' else 2
      end
    else 1
  end.
Lemma esc_ind (P : bytes -> Prop) :
  P [] -> (forall x, P [x]) -> (forall x y i, P i -> P (y :: i) -> P (x :: y :: i)) ->
  forall i, P i.
Proof.
  intros H0 H1 H2. assert (X : forall i, P i /\ forall x, P (x :: i)).
  { induction i as [|y i [IH1 IH2]]; [auto|]. split; [apply IH2|]. intros x. now apply H2. }
  intros i. apply X.
Qed.
Lemma esc_le f i : forall r, esc f i = Some r -> length r <= length i.
Proof.
  induction i as [|x|x y i IH1 IH2] using esc_ind; intros r H; cbn [esc] in H.
  - discriminate.
  - destruct (f x); [discriminate|]. destruct (beq x bBS); [discriminate|]. injection H as <-. auto.
  - destruct (f x); [specialize (IH2 r H); cbn in *; lia|]. destruct (beq x bBS).
    + destruct (is_quoted_specials y); [|discriminate]. specialize (IH1 r H). cbn. lia.
    + injection H as <-. auto.
Qed.
(** fewer normal bytes, fewer looked at *)
Lemma escn_esc f g i : (forall x, f x = true -> g x = true) -> g bBS = false ->
  forall r, esc g i = Some r -> escn f i + length r <= length i + 2.
Proof.
  intros Hfg Hg. induction i as [|x|x y i IH1 IH2] using esc_ind; intros r H.
  - discriminate.
  - pose proof (esc_le _ _ _ H). cbn [escn]. cbn in *. destruct (f x), (beq x bBS); cbn; lia.
  - pose proof (esc_le _ _ _ H) as L. remember (y :: i) as j eqn:Ej. cbn [escn]. cbn [esc] in H.
    destruct (f x) eqn:E.
    + rewrite (Hfg _ E) in H. specialize (IH2 r H). cbn [length] in *. lia.
    + destruct (beq x bBS) eqn:B; [|cbn [length] in *; lia]. apply beq_eq in B. subst x j.
      rewrite Hg in H. destruct (is_quoted_specials y); [|discriminate].
      specialize (IH1 r H). cbn [length]. lia.
Qed.
Lemma escn_le f i : escn f i <= length i + 1.
Proof.
  induction i as [|x|x y i IH1 IH2] using esc_ind; [cbn; lia| |].
  - cbn. destruct (f x), (beq x bBS); lia.
  - remember (y :: i) as j eqn:Ej. cbn [escn]. destruct (f x); [cbn [length]; lia|].
    destruct (beq x bBS); [|lia]. subst j. destruct (is_quoted_specials y); cbn [length]; lia.
Qed.
Lemma esc_run f a r : forallb f a = true -> esc f (a ++ r) = esc f r.
Proof.
  induction a as [|x a IH]; [reflexivity|]. cbn. intros H. apply andb_true_iff in H as [H1 H2].
  now rewrite H1, IH.
Qed.
Lemma escn_run f a r : forallb f a = true -> escn f (a ++ r) = length a + escn f r.
Proof.
  induction a as [|x a IH]; [reflexivity|]. cbn. intros H. apply andb_true_iff in H as [H1 H2].
  now rewrite H1, IH.
Qed.
Lemma span_stop f i a x r : span f i = Some (a, x :: r) -> f x = false.
Proof.
  revert a; induction i as [|y i IH]; intros a H; [discriminate|]. cbn in H.
  destruct (f y) eqn:E.
  - destruct (span f i) as [[a' r']|]; [|discriminate]. injection H as <- ->. now apply (IH a').
  - injection H as <- <- <-. exact E.
Qed.
Lemma span_rest f i a : span f i = Some (a, []) -> False.
Proof.
  revert a; induction i as [|y i IH]; intros a H; [discriminate|]. cbn in H.
  destruct (f y); [|discriminate].
  destruct (span f i) as [[a' r']|]; [|discriminate]. injection H as <- ->. now apply (IH a').
Qed.
Lemma escaped_f_esc f n : forall i,
  snd (escaped_f n f bBS is_quoted_specials i) <= 8 * escn f i + 8 /\
  match fst (escaped_f n f bBS is_quoted_specials i) with
  | ROk r s => esc f i = Some r /\ length s + length r = length i
  | _ => True
  end.
Proof.
  induction n as [|n IH]; intros i; [cbn; split; [lia|exact I]|].
  destruct i as [|x i]; [cbn; split; [lia|exact I]|]. cbn [escaped_f].
  unfold take_while1, span_cost. destruct (span f (x :: i)) as [[a r]|] eqn:E.
  - pose proof (span_split _ _ _ _ E) as Es. pose proof (span_all _ _ _ _ E) as Ea.
    destruct a as [|y a].
    + (* an escape or the end *)
      cbn in Es. subst r. pose proof (span_stop _ _ _ _ _ E) as Ef. cbn [length].
      cbn [esc escn]. rewrite Ef. destruct (beq x bBS); [|cbn; repeat split; auto; lia].
      destruct i as [|y i]; [cbn; split; [lia|exact I]|].
      destruct (is_quoted_specials y); [|cbn; split; [lia|exact I]].
      destruct i as [|z i]; [cbn; split; [lia|exact I]|]. specialize (IH (z :: i)).
      destruct (escaped_f n f bBS is_quoted_specials (z :: i)) as [[r s| | | |] d];
        cbn [fst snd] in *; destruct IH as [I1 I2]; (split; [lia|]); auto.
      destruct I2 as [I2 I3]. split; [exact I2|]. cbn [length] in *. lia.
    + destruct r as [|z r]; [now apply span_rest in E|]. rewrite Es.
      rewrite (esc_run f (y :: a)), (escn_run f (y :: a)) by exact Ea. specialize (IH (z :: r)).
      destruct (escaped_f n f bBS is_quoted_specials (z :: r)) as [[r' s| | | |] d];
        cbn [fst snd] in *; destruct IH as [I1 I2]; cbn [length] in *; (split; [lia|]); auto.
      destruct I2 as [I2 I3]. split; [exact I2|]. rewrite !app_length. cbn [length] in *. lia.
  - pose proof (span_none _ _ E) as Ea. cbn [fst snd]. split; [|exact I].
    rewrite <- (app_nil_r (x :: i)) at 2. rewrite escn_run by exact Ea. cbn. lia.
Qed.
Lemma escn_ge f i : forall r, esc f i = Some r -> length i <= escn f i + length r.
Proof.
  induction i as [|x|x y i IH1 IH2] using esc_ind; intros r H.
  - discriminate.
  - cbn in *. destruct (f x); [discriminate|]. destruct (beq x bBS); [discriminate|]. lia.
  - remember (y :: i) as j eqn:Ej. cbn [escn]. cbn [esc] in H. destruct (f x).
    + specialize (IH2 r H). cbn [length]. lia.
    + destruct (beq x bBS); [|injection H as <-; lia]. subst j.
      destruct (is_quoted_specials y); [|discriminate]. specialize (IH1 r H). cbn [length]. lia.
Qed.
Lemma escaped_esc f i :
  snd (escaped f bBS is_quoted_specials i) <= 8 * escn f i + 8 /\
  match fst (escaped f bBS is_quoted_specials i) with
  | ROk r s => esc f i = Some r /\ length s + length r = length i
  | _ => True
  end.
Proof. apply escaped_f_esc. Qed.

(** bytes allowed unescaped in [quoted] and in [quoted_utf8] *)
Definition nq : byte -> bool := is_any_text_char_except_quoted_specials.
Definition nu : byte -> bool := fun b => negb (is_quoted_specials b).
Lemma nq_nu x : nq x = true -> nu x = true.
Proof.
  assert (K : forall x, implb (nq x) (nu x) = true)
    by (apply (byte_forall (fun x => implb (nq x) (nu x))); vm_compute; reflexivity).
  specialize (K x). destruct (nq x), (nu x); auto; discriminate.
Qed.
Lemma quoted_cost i :
  snd (q_quoted (bDQ :: i)) <= 10 * escn nq i + 20 /\
  match fst (q_quoted (bDQ :: i)) with
  | ROk r s => esc nq i = Some (bDQ :: r)
  | _ => True
  end.
Proof.
  unfold q_quoted, bind, dquote, char. cbn [sat]. rewrite beq_refl. unfold expect, conv.
  pose proof (escaped_esc nq i) as [E1 E2]. unfold nq in *.
  destruct (escaped is_any_text_char_except_quoted_specials bBS is_quoted_specials i)
    as [[r s| | | |] c]; cbn [fst snd] in *; try (split; [lia|exact I]).
  destruct E2 as [E2 E3]. pose proof (escn_ge _ _ _ E2) as E4.
  destruct (utf8_ok s); [|cbn; split; [lia|exact I]].
  destruct r as [|x r]; [cbn in *; split; [lia|exact I]|]. cbn [sat].
  destruct (beq x bDQ) eqn:X; [|cbn [fst snd length] in *; split; [lia|exact I]].
  apply beq_eq in X. subst x. cbn [ret work]. rewrite Nat.sub_diag.
  destruct (quoted_ok (unescape_quoted s)); cbn [fst snd length] in *; (split; [lia|]); auto.
Qed.
Lemma quoted_utf8_cost i :
  snd (q_quoted_utf8 (bDQ :: i)) <= 10 * escn nu i + 20 /\
  match fst (q_quoted_utf8 (bDQ :: i)) with
  | ROk r s => esc nu i = Some (bDQ :: r)
  | _ => True
  end.
Proof.
  unfold q_quoted_utf8, bind, dquote, char. cbn [sat]. rewrite beq_refl. unfold map_res, conv.
  pose proof (escaped_esc nu i) as [E1 E2]. unfold nu in *.
  destruct (escaped (fun b => negb (is_quoted_specials b)) bBS is_quoted_specials i)
    as [[r s| | | |] c]; cbn [fst snd] in *; try (split; [lia|exact I]).
  destruct E2 as [E2 E3]. pose proof (escn_ge _ _ _ E2) as E4.
  destruct (utf8_ok s); [|cbn; split; [lia|exact I]].
  destruct r as [|x r]; [cbn in *; split; [lia|exact I]|]. cbn [sat].
  destruct (beq x bDQ) eqn:X; [|cbn [fst snd length] in *; split; [lia|exact I]].
  apply beq_eq in X. subst x. cbn [ret work]. cbn [fst snd length] in *. split; [lia|]. exact E2.
Qed.
Lemma quoted_other x i : beq x bDQ = false -> q_quoted (x :: i) = (RErr, 2).
Proof. intros H. unfold q_quoted, bind, dquote, char. cbn [sat]. now rewrite H. Qed.
Lemma quoted_utf8_other x i : beq x bDQ = false -> q_quoted_utf8 (x :: i) = (RErr, 2).
Proof. intros H. unfold q_quoted_utf8, bind, dquote, char. cbn [sat]. now rewrite H. Qed.

Lemma lin_quoted : lin q_quoted [] 10 30.
Proof.
  intros [|x i]; [cbn; lia|]. destruct (beq x bDQ) eqn:E; [|rewrite quoted_other by exact E; lia].
  apply beq_eq in E. subst x. pose proof (quoted_cost i) as [H1 H2]. pose proof (escn_le nq i) as H3.
  destruct (q_quoted (bDQ :: i)) as [[r s| | | |] c]; cbn [fst snd length] in *; try lia.
  pose proof (escn_esc nq nq i (fun x h => h) eq_refl _ H2) as H4.
  pose proof (esc_le _ _ _ H2) as H5. cbn [length] in *.
  split; [lia|]. split; [lia|]. intros _. lia.
Qed.
#[export] Instance L_quoted : cst q_quoted [] [[[bDQ]]].
Proof.
  apply (mkC _ _ 2 lin_quoted). intros [|x i] H; [cbn; split; [reflexivity|lia]|]. cbn in H.
  destruct (beq x bDQ) eqn:E; [discriminate|]. rewrite quoted_other by exact E. split; [reflexivity|cbn; lia].
Qed.

Lemma lin_lit_found n m : lin (q_lit_found n m) [] 0 1.
Proof. intros [|x i]; cbn; lia. Qed.
#[export] Instance L_digits max : cst (q_digits max) [] [[those is_digit]].
Proof. named q_digits. Qed.
#[export] Typeclasses Opaque q_quoted q_digits.

Lemma lin_crlf {F : features} : lin crlf [] 0 8.
Proof.
  unfold crlf. destruct quirk_crlf_relaxed.
  - eapply lin_ab; [eapply lin_S; [solve [ln]|ckd]|cbn; lia..].
  - eapply lin_ab; [apply lin_tag|cbn; lia..].
Qed.
Lemma grd_crlf {F : features} : grd crlf [[[bCR; bLF]]] 8.
Proof.
  unfold crlf. intros [|x i] H; [destruct quirk_crlf_relaxed; cbn; (split; [reflexivity|lia])|].
  destruct (beq x bCR) eqn:H1; [cbn in H; rewrite H1 in H; discriminate|].
  destruct (beq x bLF) eqn:H2; [cbn in H; rewrite H1, H2 in H; discriminate|].
  destruct quirk_crlf_relaxed; unfold bind, opt, char; cbn [sat tag]; rewrite ?H1, ?H2; cbn [sat];
    rewrite ?H2; (split; [reflexivity|cbn; lia]).
Qed.
#[export] Instance L_crlf {F : features} : cst crlf [] [[[bCR; bLF]]].
Proof. exact (mkC _ _ _ lin_crlf grd_crlf). Qed.

#[export] Instance L_number : cst q_number [] [[those is_digit]].
Proof. named q_number. Qed.
#[export] Instance L_number64 : cst q_number64 [] [[those is_digit]].
Proof. named q_number64. Qed.
#[export] Instance L_nz_number : cst q_nz_number [] [[those is_digit]].
Proof. named q_nz_number. Qed.
#[export] Instance L_lit_mode {F : features} : cst q_lit_mode [] [[]].
Proof. named q_lit_mode. Qed.
#[export] Instance L_lit_header_1 {F : features} : cst (q_lit_header (bs "{")) [] [[["{"%byte]]].
Proof. named q_lit_header. Qed.
#[export] Instance L_lit_header_2 {F : features} : cst (q_lit_header (bs "~{")) [] [[["~"%byte]]].
Proof. named q_lit_header. Qed.
#[export] Typeclasses Opaque crlf q_number q_number64 q_nz_number q_lit_mode q_lit_header.

Lemma lin_take_work {A} n (g : bytes -> parser A) : (forall d, leaf (g d)) ->
  lin (d <- take n ;; work (length d) ;;; g d) [] 1 4.
Proof.
  intros Hg i. unfold bind, take. destruct (N.leb n (lenN i)) eqn:E; [|lia]. cbn [work].
  destruct (Hg (firstn (N.to_nat n) i) (skipn (N.to_nat n) i)) as [G1 G2].
  destruct (g _ _) as [[r x| | | |] c]; cbn in G1, G2; rewrite ?firstn_length, ?skipn_length; try lia.
  subst r. rewrite skipn_length. lia.
Qed.
#[export] Instance L_literal {F : features} : cst q_literal [] [[["{"%byte]]].
Proof.
  unfold q_literal. eapply mkC.
  - eapply lin_bind_dead; [solve [ln]|intros ?; solve [dead_tac]|]. intros [n m].
    eapply lin_bind_dead; [apply lin_lit_found|intros ?; apply dead_nil|]. intros _.
    apply lin_take_work. intros d. is_leaf.
  - eapply grd_weak; [solve [gr]|ckd|apply Nat.le_refl].
Qed.
#[export] Instance L_literal8 {F : features} : cst q_literal8 [] [[["~"%byte]]].
Proof.
  unfold q_literal8. eapply mkC.
  - eapply lin_bind_dead; [solve [ln]|intros ?; solve [dead_tac]|]. intros [n m].
    eapply lin_bind_dead; [apply lin_lit_found|intros ?; apply dead_nil|]. intros _. solve [ln].
  - eapply grd_weak; [solve [gr]|ckd|apply Nat.le_refl].
Qed.
#[export] Typeclasses Opaque q_literal q_literal8.

Lemma lin_string {F : features} :
  lin q_string [] (ca L_literal + 42) (cb L_literal + cg L_literal + 100).
Proof.
  destruct L_literal as [la lb lg Ll Lg]. cbn [ca cb cg]. intros i.
  unfold q_string. cbn [alt].
  assert (H0 : beq match i with x :: _ => x | [] => "a"%byte end bDQ = false ->
    match orp (pmap IQuoted q_quoted)
      (orp (gate ext_utf8 (pmap IQuotedUtf8 q_quoted_utf8)) (pmap ILiteral q_literal)) i with
    | (ROk r _, c) => length r <= length i /\ c + (la + 42) * length r <= (la + 42) * length i + (lb + 100)
    | (_, c) => c <= (la + 42) * length i + (lb + 100)
    end).
  { intros H. pose proof (lin_pmap ILiteral _ _ _ _ Ll i) as K.
    unfold orp at 1. destruct i as [|x i]; [cbn; lia|].
    unfold pmap at 1, conv at 1. rewrite quoted_other by exact H.
    unfold orp.
    assert (G : gate ext_utf8 (pmap IQuotedUtf8 q_quoted_utf8) (x :: i) = (RErr, 3) \/
                gate ext_utf8 (pmap IQuotedUtf8 q_quoted_utf8) (x :: i) = (RErr, 1)).
    { destruct ext_utf8; cbn [gate]; [left|now right]. unfold pmap, conv.
      now rewrite quoted_utf8_other by exact H. }
    cbn [length] in *.
    destruct G as [-> | ->];
      (destruct (pmap ILiteral q_literal (x :: i)) as [[r y| | | |] c]; cbn [sus existsb] in K;
       [destruct K as (K1 & K2 & K3); specialize (K3 eq_refl); split; [lia|nia]|nia..]). }
  destruct i as [|x i]; [cbn; lia|]. destruct (beq x bDQ) eqn:X.
  2: { specialize (H0 eq_refl).
       destruct (orp _ _ (x :: i)) as [[r y| | | |] c]; try lia. }
  clear H0. apply beq_eq in X. subst x.
  pose proof (quoted_cost i) as [Q1 Q2]. pose proof (quoted_utf8_cost i) as [U1 U2].
  pose proof (escn_le nq i) as N1. pose proof (escn_le nu i) as N2.
  assert (L1 : snd (pmap ILiteral q_literal (bDQ :: i)) <= lg + 1 /\
               isok (fst (pmap ILiteral q_literal (bDQ :: i))) = false).
  { destruct (grd_pmap ILiteral _ _ _ Lg (bDQ :: i) eq_refl). split; assumption. }
  destruct L1 as [L1 L2].
  unfold orp. unfold pmap at 1, conv at 1.
  destruct (q_quoted (bDQ :: i)) as [[r s| | | |] c] eqn:Eq; cbn [fst snd length] in *; try nia.
  - pose proof (escn_esc nq nq i (fun x h => h) eq_refl _ Q2) as H4.
    pose proof (esc_le _ _ _ Q2) as H5. cbn [length] in *. split; [lia|]. split; [nia|]. intros _. nia.
  - destruct ext_utf8; cbn [gate perr].
    + unfold pmap at 1, conv at 1.
      destruct (q_quoted_utf8 (bDQ :: i)) as [[r s| | | |] d] eqn:Eu; cbn [fst snd length] in *;
        [|nia| |nia..].
      * pose proof (escn_esc nu nu i (fun x h => h) eq_refl _ U2) as H4.
        pose proof (escn_esc nq nu i nq_nu eq_refl _ U2) as H4'.
        pose proof (esc_le _ _ _ U2) as H5. cbn [length] in *.
        split; [lia|]. split; [nia|]. intros _. nia.
      * destruct (pmap ILiteral q_literal (bDQ :: i)) as [[r s| | | |] e]; cbn [fst snd isok] in *;
          try discriminate; nia.
    + destruct (pmap ILiteral q_literal (bDQ :: i)) as [[r s| | | |] e]; cbn [fst snd isok] in *;
        try discriminate; nia.
Qed.

#[export] Instance L_string {F : features} : cst q_string [] [[[bDQ; "{"%byte]]].
Proof.
  eapply mkC; [apply lin_string|].
  eapply grd_weak; [unfold q_string, q_quoted_utf8; solve [gr]|ckd|apply Nat.le_refl].
Qed.
#[export] Typeclasses Opaque q_string.

Definition bd : list byte := those is_digit.

#[export] Instance L_quoted_char : cst q_quoted_char [[those nq]; [[bDQ; bBS]]] [[those nq]; [[bBS]]].
Proof. named q_quoted_char. Qed.
#[export] Instance L_astring {F : features} :
  cst q_astring [] [[those is_astring_char]; [[bDQ; "{"%byte]]].
Proof. named q_astring. Qed.
#[export] Instance L_atom : cst q_atom [] [[those is_atom_char]].
Proof. named q_atom. Qed.
#[export] Instance L_nil : cst q_nil [] [pat_ci (bs "NIL")].
Proof. named q_nil. Qed.
#[export] Instance L_nstring {F : features} : cst q_nstring [] [[[bDQ; "{"%byte]]; pat_ci (bs "NIL")].
Proof. named q_nstring. Qed.
#[export] Instance L_text {F : features} : cst q_text [] [[]].
Proof. named q_text. Qed.
#[export] Instance L_base64 : cst q_base64 [] [[]].
Proof. named q_base64. Qed.
#[export] Instance L_charset {F : features} : cst q_charset [] [[those is_atom_char]; [[bDQ]]].
Proof. named q_charset. Qed.
#[export] Instance L_tag_imap : cst q_tag_imap [] [[]].
Proof. named q_tag_imap. Qed.
#[export] Instance L_seq_number : cst q_seq_number [] [[bd]; [["*"%byte]]].
Proof. named q_seq_number. Qed.
#[export] Typeclasses Opaque q_quoted_char q_astring q_atom q_nil q_nstring q_text q_base64 q_charset
  q_tag_imap q_seq_number.

Definition seq_rest : list pat := [[[":"%byte]]; [[","%byte]]].
Definition seq_first : list pat := [["*"%byte :: bd]].
Definition L_seq : cst (alt [q_seq_range; pmap SSingle q_seq_number]) [[[":"%byte]]] seq_first.
Proof.
  eapply mkC.
  - eapply lin_S; [unfold q_seq_range; cbn [alt]; eapply lin_orp_redo;
      [solve [ln]|intros ?; solve [ln]|intros ?; solve [gr]|ckd]|ckd].
  - eapply grd_weak; [unfold q_seq_range; solve [gr]|ckd|apply Nat.le_refl].
Qed.
#[export] Instance L_sequence_set : cst q_sequence_set seq_rest seq_first.
Proof.
  unfold q_sequence_set. eapply mkC.
  - eapply lin_S; [eapply lin_vecn, lin_sep_list1;
      [sep_tac|exact (c_lin L_seq)|exact (c_grd L_seq)|ckd]|ckd].
  - eapply grd_vecn, grd_sep_list1. exact (c_grd L_seq).
Qed.
#[export] Typeclasses Opaque q_sequence_set.

(** ** mailbox.rs, flag.rs *)
#[export] Instance L_list_mailbox {F : features} : cst q_list_mailbox [] [[]].
Proof. named q_list_mailbox. Qed.
#[export] Instance L_mailbox {F : features} :
  cst q_mailbox [] [[those is_astring_char]; [[bDQ; "{"%byte]]].
Proof. named q_mailbox. Qed.
Definition flag_first : list pat := [[bBS :: those is_atom_char]].
#[export] Instance L_flag : cst q_flag [] flag_first.
Proof. named q_flag. Qed.
#[export] Typeclasses Opaque q_list_mailbox q_mailbox q_flag.
#[export] Instance L_flag_list : cst q_flag_list [] [[["("%byte]]].
Proof. named q_flag_list. Qed.
#[export] Instance L_flag_perm : cst q_flag_perm [] flag_first.
Proof. named q_flag_perm. Qed.
#[export] Instance L_mbx_list_flags : cst q_mbx_list_flags [[[bSP]]] [[[bBS]]].
Proof. named q_mbx_list_flags. Qed.
#[export] Typeclasses Opaque q_flag_list q_flag_perm q_mbx_list_flags.

Lemma cst_system : cst (char bBS ;;; q_atom) [] [[[bBS]]].
Proof.
  eapply mkC; [solve [ln]|eapply grd_weak; [solve [gr]|ckd|apply Nat.le_refl]].
Qed.
#[export] Instance L_flag_fetch : cst q_flag_fetch [] flag_first.
Proof.
  destruct cst_system as [a b g H Hg], L_atom as [a' b' g' K Kg], L_flag as [_ _ gf _ Fg].
  apply (mkC (2 * a + a' + 9) (2 * b + b' + 2 * g + g' + 20) (b + g + gf + 20)).
  - intros i. specialize (H i). specialize (Hg i). specialize (K i). specialize (Kg i).
    unfold q_flag_fetch, recognize, q_flag. cbn [alt]. unfold pmap, conv, orp.
    set (R := (char bBS ;;; q_atom) i) in *.
    destruct R as [[r x| | | |] c]; try nia.
    + destruct H as (H1 & H2 & H3). specialize (H3 eq_refl).
      assert (L : length (firstn (length i - length r) i) <= length i - length r)
        by (rewrite firstn_length; lia).
      destruct (eqi (firstn (length i - length r) i) (bs "\recent"));
        (split; [lia|]; split; [nia|]; intros _; nia).
    + destruct (sus [[[bBS]]] i) eqn:E.
      * assert (X : sus [[those is_atom_char]] i = false) by (revert E; apply disj_sus; ckd).
        destruct (Kg X) as [X1 X2]. destruct (q_atom i) as [[r x| | | |] d]; cbn [fst snd isok] in *;
          [discriminate|nia..].
      * destruct (Hg eq_refl) as [X1 X2]. cbn [fst snd isok] in *.
        destruct (q_atom i) as [[r x| | | |] d]; [|nia..]. destruct K as (K1 & K2 & K3).
        specialize (K3 eq_refl). split; [lia|]. split; [nia|]. intros _. nia.
  - intros i Hi. specialize (Fg i Hi). destruct Fg as [F1 F2].
    assert (X : sus [[[bBS]]] i = false).
    { destruct (sus [[[bBS]]] i) eqn:E; [|reflexivity].
      assert (Y : sus flag_first i = true) by (revert E; apply covers_sus; ckd). congruence. }
    destruct (Hg i X) as [X1 X2]. unfold q_flag_fetch, recognize, pmap, conv.
    destruct ((char bBS ;;; q_atom) i) as [[r x| | | |] c]; cbn [fst snd isok] in *; try discriminate;
      try (destruct (q_flag i) as [[r' x'| | | |] d]; cbn [fst snd isok] in *; try discriminate;
           (split; [reflexivity|lia])).
Qed.
#[export] Typeclasses Opaque q_flag_fetch.

(** ** datetime.rs *)
#[export] Instance L_digit_m_n m n max : 1 <= m -> m <= n -> cst (q_digit_m_n m n max) [[bd]] [[bd]].
Proof. intros Hm Hn. named q_digit_m_n. Qed.
#[export] Instance L_digit_1_2 : cst q_digit_1_2 [[bd]] [[bd]].
Proof. apply L_digit_m_n; lia. Qed.
#[export] Instance L_digit_2 : cst q_digit_2 [[bd]] [[bd]].
Proof. apply L_digit_m_n; lia. Qed.
#[export] Instance L_digit_4 : cst q_digit_4 [[bd]] [[bd]].
Proof. apply L_digit_m_n; lia. Qed.
#[export] Typeclasses Opaque q_digit_1_2 q_digit_2 q_digit_4.
#[export] Instance L_date_month : cst q_date_month [] [[]].
Proof. named q_date_month. Qed.
#[export] Typeclasses Opaque q_date_month.
#[export] Instance L_date_text : cst q_date_text [[bd]] [[bd]].
Proof. named q_date_text. Qed.
#[export] Typeclasses Opaque q_date_text.
#[export] Instance L_date_opt : cst q_date_opt [[bd]] [[bDQ :: bd]].
Proof. named q_date_opt. Qed.
#[export] Typeclasses Opaque q_date_opt.
#[export] Instance L_date : cst q_date [[bd]] [[bDQ :: bd]].
Proof. named q_date. Qed.
#[export] Instance L_time : cst q_time [[bd]] [[bd]].
Proof. named q_time. Qed.
#[export] Instance L_date_day_fixed : cst q_date_day_fixed [[bd]] [[bSP :: bd]].
Proof. named q_date_day_fixed. Qed.
(** two digits and two digits again: the first search for the end of the run of digits passes
    over all of it *)
Lemma digit_2_cost i :
  snd (q_digit_2 i) <= span_cost is_digit i + 8 /\
  match fst (q_digit_2 i) with
  | ROk r _ => exists x y, i = x :: y :: r /\ is_digit x = true /\ is_digit y = true
  | _ => True
  end.
Proof.
  unfold q_digit_2, q_digit_m_n, map_res, expect, conv, take_while_m_n.
  assert (L : length i - length (skipn 2 i) <= 2) by (rewrite skipn_length; lia).
  destruct (span is_digit i) as [[a r]|] eqn:E.
  - pose proof (span_split _ _ _ _ E) as Es. pose proof (span_all _ _ _ _ E) as Ea.
    destruct (Nat.leb 2 (length a)) eqn:L2; [|cbn [fst snd]; split; [lia|exact I]].
    assert (Y : exists x y a', a = x :: y :: a' /\ is_digit x = true /\ is_digit y = true).
    { destruct a as [|x [|y a]]; try discriminate. exists x, y, a. cbn in Ea.
      apply andb_true_iff in Ea as [E1 Ea]. apply andb_true_iff in Ea as [E2 _]. auto. }
    destruct Y as (x & y & a' & -> & Hx & Hy). cbn [app] in Es.
    destruct (Nat.leb (length (x :: y :: a')) 2) eqn:L3.
    + destruct a'; [|discriminate]. rewrite Es. cbn [length skipn].
      destruct (utf8_ok _); [|cbn [fst snd]; split; [lia|exact I]].
      destruct (parse_max _ _); cbn [fst snd]; (split; [lia|]); [|exact I].
      exists x, y. auto.
    + rewrite Es. cbn [skipn length].
      destruct (utf8_ok _); [|cbn [fst snd length] in *; split; [lia|exact I]].
      destruct (parse_max _ _); cbn [fst snd length] in *; (split; [lia|]); [|exact I].
      exists x, y. auto.
  - pose proof (span_none _ _ E) as Ea.
    destruct (Nat.leb 2 (length i)) eqn:L2; [|cbn [fst snd]; split; [lia|exact I]].
    destruct i as [|x [|y i]]; try discriminate. cbn in Ea.
    apply andb_true_iff in Ea as [E1 Ea]. apply andb_true_iff in Ea as [E2 _].
    cbn [skipn length]. destruct (utf8_ok _); [|cbn [fst snd length] in *; split; [lia|exact I]].
    destruct (parse_max _ _); cbn [fst snd length] in *; (split; [lia|]); [|exact I].
    exists x, y. auto.
Qed.
Lemma span_cost_le f i : span_cost f i <= length i + 1.
Proof.
  unfold span_cost. destruct (span f i) as [[a r]|] eqn:E; [|lia].
  rewrite (span_split _ _ _ _ E), app_length. lia.
Qed.
Lemma span_cost_cons f x i : f x = true -> span_cost f (x :: i) = S (span_cost f i).
Proof.
  intros H. unfold span_cost. cbn [span]. rewrite H. destruct (span f i) as [[a r]|]; reflexivity.
Qed.
Lemma span_cost_stop i : sus [[bd]] i = false -> span_cost is_digit i <= 1.
Proof.
  destruct i as [|x i]; [cbn; lia|]. unfold sus, pm. cbn [existsb]. intros H.
  unfold span_cost. cbn [span]. destruct (is_digit x) eqn:E; [|cbn; lia].
  unfold bd in H. now rewrite (those_mem _ _ E) in H.
Qed.
Lemma lin_digit_2_2 {A} (g : N -> N -> A) :
  lin (hh <- q_digit_2 ;; mm <- q_digit_2 ;; ret (g hh mm)) [[bd]] 2 40.
Proof.
  intros i. unfold bind. pose proof (digit_2_cost i) as [H1 H2]. pose proof (span_cost_le is_digit i) as L.
  destruct (q_digit_2 i) as [[r h| | | |] c]; cbn [fst snd] in *; try lia.
  destruct H2 as (x & y & -> & Hx & Hy). rewrite !span_cost_cons in * by assumption.
  pose proof (digit_2_cost r) as [H3 H4]. pose proof (span_cost_le is_digit r) as L'.
  destruct (q_digit_2 r) as [[r' m| | | |] d]; cbn [fst snd length ret] in *; try lia.
  destruct H4 as (z & w & -> & Hz & Hw). rewrite !span_cost_cons in * by assumption.
  cbn [length] in *. split; [lia|]. split; [lia|]. intros HS. apply span_cost_stop in HS. lia.
Qed.
#[export] Instance L_zone : cst q_zone [[bd]] [[["+"%byte; "-"%byte]]].
Proof.
  unfold q_zone. eapply mkC.
  - eapply lin_bind_dead; [solve [ln]|intros ?; apply dead_nil|]. intros s. cbv zeta.
    apply (lin_digit_2_2 (fun hh mm => if beq s "+"%byte
      then offset_opt (3600 * Z.of_N hh + 60 * Z.of_N mm)
      else offset_opt (- (3600 * Z.of_N hh + 60 * Z.of_N mm)))).
  - eapply grd_weak; [solve [gr]|ckd|apply Nat.le_refl].
Qed.
#[export] Typeclasses Opaque q_date q_time q_date_day_fixed q_zone.
#[export] Instance L_date_time : cst q_date_time [] [[[bDQ]]].
Proof. named q_date_time. Qed.

(** ** extensions/condstore_qresync.rs *)
#[export] Instance L_mod_sequence_valzer : cst q_mod_sequence_valzer [] [[bd]].
Proof. named q_mod_sequence_valzer. Qed.
#[export] Instance L_mod_sequence_value : cst q_mod_sequence_value [] [[bd]].
Proof. named q_mod_sequence_value. Qed.
#[export] Typeclasses Opaque q_date_time q_mod_sequence_valzer q_mod_sequence_value.
#[export] Instance L_search_sort_mod_seq : cst q_search_sort_mod_seq [] [[["("%byte]]].
Proof. named q_search_sort_mod_seq. Qed.
#[export] Instance L_attr_flag : cst q_attr_flag [] flag_first.
Proof. named q_attr_flag. Qed.
#[export] Typeclasses Opaque q_search_sort_mod_seq q_attr_flag.
#[export] Instance L_entry_flag_name : cst q_entry_flag_name [] [[[bDQ]]].
Proof. named q_entry_flag_name. Qed.
#[export] Instance L_entry_type_req : cst q_entry_type_req [] [[]].
Proof. named q_entry_type_req. Qed.
#[export] Typeclasses Opaque q_entry_flag_name q_entry_type_req.
#[export] Instance L_search_modseq_ext : cst q_search_modseq_ext [] [[[bSP]; [bDQ]]].
Proof. named q_search_modseq_ext. Qed.
#[export] Typeclasses Opaque q_search_modseq_ext.
#[export] Instance L_search_modsequence : cst q_search_modsequence [] [pat_ci (bs "MODSEQ")].
Proof. named q_search_modsequence. Qed.
#[export] Typeclasses Opaque q_search_modsequence.

(** ** status.rs *)
#[export] Instance L_status_att {F : features} : cst q_status_att [] [[]].
Proof. named q_status_att. Qed.
#[export] Instance L_status_att_val {F : features} : cst q_status_att_val [] [[]].
Proof. named q_status_att_val. Qed.
#[export] Typeclasses Opaque q_status_att q_status_att_val.
#[export] Instance L_status_att_list {F : features} : cst q_status_att_list [[[bSP]]] [[]].
Proof. named q_status_att_list. Qed.
#[export] Typeclasses Opaque q_status_att_list.
