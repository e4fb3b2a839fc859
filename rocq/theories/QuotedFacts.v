(** Escaping of quoted strings: [escape_quoted]/[unescape_quoted] and [escaped]. *)

From Verif Require Import Bytes BytesFacts Features Nom Utf8 Conv ParserFacts.

(** One character at a time *)
Definition esc_char (b : byte) : bytes := if is_quoted_specials b then [bBS; b] else [b].

Lemma escape_quoted_flat s : escape_quoted s = flat_map esc_char s.
Proof.
  unfold escape_quoted. induction s as [| b s IH]; [reflexivity |].
  cbn [replace1 flat_map]. unfold esc_char at 1, is_quoted_specials.
  destruct (beq_spec b bBS) as [-> |]; cbn.
  - now rewrite IH.
  - destruct (beq_spec b bDQ) as [-> |]; cbn; now rewrite IH.
Qed.

Definition esc_dq (b : byte) : bytes := if beq b bDQ then [bBS; b] else [b].
Lemma replace2_nomatch c1 c2 to x s : x <> c1 ->
  replace2 c1 c2 to (x :: s) = x :: replace2 c1 c2 to s.
Proof.
  intros N. cbn [replace2]. destruct s as [| y s]; [reflexivity |].
  apply beq_neq in N. now rewrite N.
Qed.
Lemma replace2_nomatch2 c1 c2 to x y s : y <> c2 ->
  replace2 c1 c2 to (x :: y :: s) = x :: replace2 c1 c2 to (y :: s).
Proof. intros N. cbn [replace2]. apply beq_neq in N. now rewrite N, andb_false_r. Qed.
Lemma replace2_match c1 c2 to s :
  replace2 c1 c2 to (c1 :: c2 :: s) = to ++ replace2 c1 c2 to s.
Proof. cbn [replace2]. now rewrite !beq_refl. Qed.

Lemma unescape1 s : replace2 bBS bBS [bBS] (flat_map esc_char s) = flat_map esc_dq s.
Proof.
  induction s as [| b s IH]; [reflexivity |]. cbn [flat_map].
  unfold esc_char at 1, esc_dq at 1, is_quoted_specials.
  destruct (beq_spec b bBS) as [-> | N1].
  - rewrite orb_true_r. cbn [app]. rewrite replace2_match, IH. reflexivity.
  - rewrite orb_false_r. destruct (beq_spec b bDQ) as [-> | N2]; cbn [app].
    + rewrite replace2_nomatch2, replace2_nomatch, IH by discriminate. reflexivity.
    + rewrite replace2_nomatch, IH by assumption. reflexivity.
Qed.
Lemma unescape2 s : replace2 bBS bDQ [bDQ] (flat_map esc_dq s) = s.
Proof.
  induction s as [| b s IH]; [reflexivity |]. cbn [flat_map]. unfold esc_dq at 1.
  destruct (beq_spec b bDQ) as [-> | N].
  - cbn [app]. rewrite replace2_match, IH. reflexivity.
  - cbn [app]. destruct (beq_spec b bBS) as [-> | N1].
    2:{ rewrite replace2_nomatch, IH by assumption. reflexivity. }
    destruct s as [| c s]; [reflexivity |].
    assert (E : exists x t, flat_map esc_dq (c :: s) = x :: t /\ x <> bDQ).
    { cbn [flat_map]. unfold esc_dq at 1. destruct (beq_spec c bDQ) as [-> | Nc].
      - do 2 eexists. split; [reflexivity | discriminate].
      - do 2 eexists. split; [reflexivity | assumption]. }
    destruct E as (x & t & E & Nx). rewrite E in IH |- *.
    rewrite replace2_nomatch2 by assumption. now rewrite IH.
Qed.
Lemma unescape_escape s : unescape_quoted (escape_quoted s) = s.
Proof. unfold unescape_quoted. now rewrite escape_quoted_flat, unescape1, unescape2. Qed.

(** What [escaped] reads are exactly the escaped forms. *)
Section Esc.
Variable normal : byte -> bool.
Hypothesis normal_not_special : forall b, normal b = true -> is_quoted_specials b = false.
Definition esc_ok (b : byte) : bool := normal b || is_quoted_specials b.
Notation esc := (esc1 normal is_quoted_specials bBS).

Lemma esc1_read u r : forallb esc_ok u = true ->
  esc (escape_quoted u ++ bDQ :: r) = ROk (bDQ :: r) (escape_quoted u).
Proof.
  rewrite escape_quoted_flat. intros H. induction u as [| b u IH].
  - cbn. destruct (normal bDQ) eqn:E; [| reflexivity].
    apply normal_not_special in E. discriminate E.
  - cbn [forallb] in H. apply andb_true_iff in H as [Hb Hu]. specialize (IH Hu).
    cbn [flat_map]. unfold esc_char at 1 3. unfold esc_ok in Hb.
    destruct (is_quoted_specials b) eqn:Sb.
    + cbn [app]. cbn [esc1]. assert (normal bBS = false) as ->.
      { destruct (normal bBS) eqn:E; [| reflexivity].
        apply normal_not_special in E. discriminate E. }
      rewrite beq_refl, Sb. rewrite IH. reflexivity.
    + cbn [app esc1]. rewrite orb_false_r in Hb. rewrite Hb, IH. reflexivity.
Qed.

Lemma esc1_ok i r s : esc i = ROk r s -> exists u,
  s = escape_quoted u /\ forallb esc_ok u = true /\ i = s ++ r.
Proof.
  remember (length i) as n eqn:En. revert i r s En.
  induction n as [n IH] using lt_wf_ind. intros [| x i] r s ->; [discriminate |].
  cbn [esc1]. destruct (normal x) eqn:Nx.
  - destruct (esc i) as [r' s' | | | |] eqn:E; try discriminate. intros [= <- <-].
    destruct (IH (length i) ltac:(cbn; lia) i _ _ eq_refl E) as (u & -> & Hu & ->).
    exists (x :: u). rewrite !escape_quoted_flat. cbn [flat_map]. unfold esc_char at 2, esc_ok.
    rewrite (normal_not_special _ Nx). cbn [forallb app].
    unfold esc_ok in Hu. rewrite Nx, Hu. auto.
  - destruct (beq_spec x bBS) as [-> |].
    + destruct i as [| y i]; [discriminate |]. destruct (is_quoted_specials y) eqn:Sy; [| discriminate].
      destruct (esc i) as [r' s' | | | |] eqn:E; try discriminate. intros [= <- <-].
      destruct (IH (length i) ltac:(cbn; lia) i _ _ eq_refl E) as (u & -> & Hu & ->).
      exists (y :: u). rewrite !escape_quoted_flat. cbn [flat_map]. unfold esc_char at 2.
      rewrite Sy. cbn [forallb app]. rewrite Hu. unfold esc_ok. rewrite Sy, orb_true_r. auto.
    + intros [= <- <-]. exists []. auto.
Qed.
End Esc.

Lemma esc_ok_text b :
  esc_ok is_any_text_char_except_quoted_specials b = is_text_char b.
Proof. revert b. apply byte_eqb. vm_compute. reflexivity. Qed.
Lemma esc_ok_any b : esc_ok (fun b => negb (is_quoted_specials b)) b = true.
Proof. unfold esc_ok. now destruct (is_quoted_specials b). Qed.
Lemma normal_text b : is_any_text_char_except_quoted_specials b = true -> is_quoted_specials b = false.
Proof.
  unfold is_any_text_char_except_quoted_specials. intros H. apply andb_true_iff in H as [_ H].
  now apply negb_true_iff.
Qed.
Lemma normal_any b : negb (is_quoted_specials b) = true -> is_quoted_specials b = false.
Proof. apply negb_true_iff. Qed.

(** UTF-8 validity does not change: the inserted backslashes are ASCII. *)
Lemma special_ascii b : is_quoted_specials b = true -> inb 0x00 0x7f b = true.
Proof. intros H. apply orb_true_iff in H as [H | H]; apply beq_eq in H; subst; reflexivity. Qed.
Lemma cont_class b : inb 0x00 0x7f b = true \/
  inb 0x00 0x7f b = false /\ is_quoted_specials b = false.
Proof.
  destruct (inb 0x00 0x7f b) eqn:E; [now left | right]. split; [reflexivity |].
  destruct (is_quoted_specials b) eqn:S; [| reflexivity].
  rewrite (special_ascii _ S) in E. discriminate.
Qed.
Lemma esc_char_hd b : exists h t, esc_char b = h :: t /\ (inb 0x00 0x7f b = true -> inb 0x00 0x7f h = true)
  /\ (inb 0x00 0x7f b = false -> h = b /\ t = []).
Proof.
  unfold esc_char. destruct (is_quoted_specials b) eqn:S.
  - exists bBS, [b]. repeat split; auto; rewrite (special_ascii _ S) in H; discriminate.
  - exists b, []. auto.
Qed.
Lemma ascii_not_cont b lo hi : (0x80 <= lo)%N -> inb 0x00 0x7f b = true -> inb lo hi b = false.
Proof.
  unfold inb. intros L H. apply andb_true_iff in H as [_ H]. apply N.leb_le in H.
  destruct (N.leb_spec lo (bN b)); [lia | reflexivity].
Qed.

Lemma utf8_escape s : utf8_ok (escape_quoted s) = utf8_ok s.
Proof.
  rewrite escape_quoted_flat.
  remember (length s) as n eqn:En. revert s En. induction n as [n IH] using lt_wf_ind.
  intros s ->. destruct s as [| a s]; [reflexivity |].
  assert (IH1 := IH (length s) ltac:(cbn; lia) s eq_refl).
  cbn [flat_map]. destruct (cont_class a) as [A | [A S]].
  { cbn [utf8_ok]. rewrite A. unfold esc_char at 1. destruct (is_quoted_specials a).
    - cbn [app utf8_ok]. rewrite A. cbn. exact IH1.
    - cbn [app utf8_ok]. now rewrite A. }
  unfold esc_char at 1. rewrite S. cbn [app utf8_ok]. rewrite A.
  destruct s as [| b s]; [reflexivity |].
  assert (IH2 := IH (length s) ltac:(cbn; lia) s eq_refl).
  cbn [flat_map]. destruct (cont_class b) as [B | [B Sb]].
  { destruct (esc_char_hd b) as (h & t & E & Hh & _). rewrite E. specialize (Hh B).
    cbn [app]. unfold cont.
    repeat match goal with |- context [inb ?lo ?hi ?x] =>
      lazymatch x with
      | b => rewrite (ascii_not_cont b lo hi) by (try lia; assumption)
      | h => rewrite (ascii_not_cont h lo hi) by (try lia; assumption)
      end end. cbn [andb].
    destruct (t ++ flat_map esc_char s) as [| ? [| ? ?]]; destruct s as [| ? [| ? ?]];
      repeat match goal with |- context [if ?c then _ else _] => destruct c end; reflexivity. }
  unfold esc_char at 1. rewrite Sb. cbn [app].
  destruct s as [| c s]; [reflexivity |].
  assert (IH3 := IH (length s) ltac:(cbn; lia) s eq_refl).
  destruct (inb 194 223 a); [now rewrite IH2 |].
  cbn [flat_map]. destruct (cont_class c) as [C | [C Sc]].
  { destruct (esc_char_hd c) as (h & t & E & Hh & _). rewrite E. specialize (Hh C).
    cbn [app]. unfold cont. rewrite !(ascii_not_cont h 128 191), !(ascii_not_cont c 128 191)
      by (try lia; assumption). rewrite !andb_false_r. cbn [andb].
    destruct (t ++ flat_map esc_char s); destruct s;
      repeat match goal with |- context [if ?c then _ else _] => destruct c end; reflexivity. }
  unfold esc_char at 1. rewrite Sc. cbn [app].
  destruct s as [| d s]; [reflexivity |].
  assert (IH4 := IH (length s) ltac:(cbn; lia) s eq_refl).
  rewrite IH3. cbn [flat_map]. destruct (cont_class d) as [D | [D Sd]].
  { destruct (esc_char_hd d) as (h & t & E & Hh & _). rewrite E. specialize (Hh D).
    cbn [app]. unfold cont. rewrite !(ascii_not_cont h 128 191), !(ascii_not_cont d 128 191)
      by (try lia; assumption). rewrite !andb_false_r. reflexivity. }
  unfold esc_char at 1. rewrite Sd. cbn [app]. now rewrite IH4.
Qed.
