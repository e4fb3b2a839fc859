(** Facts about bytes, byte strings, decimal numbers and generic lists. *)

From Verif Require Import Bytes Dec.
From Coq Require Decimal DecimalFacts DecimalN DecimalPos.

Lemma beq_refl b : beq b b = true.
Proof. destruct b; reflexivity. Qed.

Lemma beq_eq a b : beq a b = true <-> a = b.
Proof. unfold beq; split; [apply Byte.byte_dec_bl | intros ->; apply beq_refl]. Qed.

Lemma beq_neq a b : beq a b = false <-> a <> b.
Proof.
  split; intros H.
  - intros ->. rewrite beq_refl in H. discriminate.
  - destruct (beq a b) eqn:E; [apply beq_eq in E; contradiction | reflexivity].
Qed.

Lemma beq_spec a b : reflect (a = b) (beq a b).
Proof. destruct (beq a b) eqn:E; constructor; [apply beq_eq | apply beq_neq]; assumption. Qed.

Lemma beq_sym a b : beq a b = beq b a.
Proof. destruct (beq_spec a b), (beq_spec b a); congruence. Qed.

Lemma beqs_refl s : beqs s s = true.
Proof. induction s as [|x s IH]; cbn; [reflexivity | now rewrite beq_refl, IH]. Qed.

Lemma beqs_eq a b : beqs a b = true <-> a = b.
Proof.
  split; [|intros ->; apply beqs_refl].
  revert b; induction a as [|x a IH]; intros [|y b]; cbn; try discriminate; [reflexivity|].
  intros H; apply andb_true_iff in H as [H1 H2].
  apply beq_eq in H1. now rewrite H1, (IH b H2).
Qed.

Lemma beqs_spec a b : reflect (a = b) (beqs a b).
Proof.
  destruct (beqs a b) eqn:E; constructor; [now apply beqs_eq|].
  intros ->. rewrite beqs_refl in E. discriminate.
Qed.

(** Exhaustive check over the 256 bytes. *)
Definition all_bytes : list byte :=
  flat_map (fun n => match Byte.of_N (N.of_nat n) with Some b => [b] | None => [] end) (seq 0 256).

Lemma all_bytes_in b : In b all_bytes.
Proof.
  assert (H : existsb (Byte.eqb b) all_bytes = true) by (destruct b; vm_compute; reflexivity).
  apply existsb_exists in H as (c & Hc & E). apply Byte.byte_dec_bl in E. now subst.
Qed.

Lemma byte_forall (P : byte -> bool) : forallb P all_bytes = true -> forall b, P b = true.
Proof. intros H b. rewrite forallb_forall in H. apply H, all_bytes_in. Qed.

(** Prove [f b = true -> g b = true]-like facts by enumeration: state as [implb]. *)
Lemma byte_impl (f g : byte -> bool) :
  forallb (fun b => implb (f b) (g b)) all_bytes = true -> forall b, f b = true -> g b = true.
Proof.
  intros H b Hf. pose proof (byte_forall _ H b) as E. cbn in E. now rewrite Hf in E.
Qed.

Lemma byte_eqb (f g : byte -> bool) :
  forallb (fun b => Bool.eqb (f b) (g b)) all_bytes = true -> forall b, f b = g b.
Proof. intros H b. apply eqb_prop. exact (byte_forall _ H b). Qed.

Lemma bN_lt b : (bN b < 256)%N.
Proof. destruct b; reflexivity. Qed.

Lemma bN_inj a b : bN a = bN b -> a = b.
Proof.
  unfold bN. intros H. apply (f_equal Byte.of_N) in H. rewrite !Byte.of_to_N in H. congruence.
Qed.

Lemma lower_idem b : lower (lower b) = lower b.
Proof. apply beq_eq. revert b. apply byte_forall. vm_compute. reflexivity. Qed.
Lemma lower_upper b : lower (upper b) = lower b.
Proof. apply beq_eq. revert b. apply byte_forall. vm_compute. reflexivity. Qed.
Lemma upper_lower b : upper (lower b) = upper b.
Proof. apply beq_eq. revert b. apply byte_forall. vm_compute. reflexivity. Qed.
Lemma lowers_idem s : lowers (lowers s) = lowers s.
Proof. unfold lowers. rewrite map_map. apply map_ext, lower_idem. Qed.
Lemma lowers_uppers s : lowers (uppers s) = lowers s.
Proof. unfold lowers, uppers. rewrite map_map. apply map_ext, lower_upper. Qed.

Lemma eqi_spec a b : eqi a b = true <-> lowers a = lowers b.
Proof. unfold eqi. apply beqs_eq. Qed.

(** ** Lists *)

Lemma lenN_app {A} (a b : list A) : lenN (a ++ b) = (lenN a + lenN b)%N.
Proof. unfold lenN. rewrite app_length. lia. Qed.
Lemma lenN_cons {A} (a : A) l : lenN (a :: l) = (1 + lenN l)%N.
Proof. unfold lenN. cbn [length]. lia. Qed.
Lemma lenN_to_nat {A} (l : list A) : N.to_nat (lenN l) = length l.
Proof. unfold lenN. apply Nat2N.id. Qed.

Lemma forallb_app {A} (f : A -> bool) a b : forallb f (a ++ b) = forallb f a && forallb f b.
Proof. induction a; cbn; [reflexivity|]. now rewrite IHa, andb_assoc. Qed.

Lemma forallb_impl {A} (f g : A -> bool) l :
  (forall x, f x = true -> g x = true) -> forallb f l = true -> forallb g l = true.
Proof. intros H. rewrite !forallb_forall. auto. Qed.

Lemma firstn_app_le {A} n (a b : list A) : n <= length a -> firstn n (a ++ b) = firstn n a.
Proof.
  intros H. rewrite firstn_app. replace (n - length a) with 0 by lia. cbn. apply app_nil_r.
Qed.
Lemma skipn_app_le {A} n (a b : list A) : n <= length a -> skipn n (a ++ b) = skipn n a ++ b.
Proof.
  intros H. rewrite skipn_app. replace (n - length a) with 0 by lia. reflexivity.
Qed.
Lemma firstn_app_ge {A} n (a b : list A) :
  length a <= n -> firstn n (a ++ b) = a ++ firstn (n - length a) b.
Proof. intros H. rewrite firstn_app. now rewrite (firstn_all2 a) by lia. Qed.
Lemma firstn_app_exact {A} (a b : list A) : firstn (length a) (a ++ b) = a.
Proof. rewrite firstn_app, Nat.sub_diag, firstn_all. cbn. apply app_nil_r. Qed.
Lemma skipn_app_exact {A} (a b : list A) : skipn (length a) (a ++ b) = b.
Proof. rewrite skipn_app, Nat.sub_diag, skipn_all. reflexivity. Qed.

(** ** Decimal numbers *)

Import Decimal.

Definition digit_val (b : byte) : N := (bN b - 48)%N.
(** Value of a digit string, most significant digit first. *)
Definition dval (s : bytes) : N := fold_left (fun n b => (10 * n + digit_val b)%N) s 0%N.

Fixpoint uval (n : N) (u : uint) : N :=
  match u with
  | Nil => n
  | D0 u => uval (10 * n)%N u
  | D1 u => uval (10 * n + 1)%N u
  | D2 u => uval (10 * n + 2)%N u
  | D3 u => uval (10 * n + 3)%N u
  | D4 u => uval (10 * n + 4)%N u
  | D5 u => uval (10 * n + 5)%N u
  | D6 u => uval (10 * n + 6)%N u
  | D7 u => uval (10 * n + 7)%N u
  | D8 u => uval (10 * n + 8)%N u
  | D9 u => uval (10 * n + 9)%N u
  end.

Lemma of_uint_acc u : forall p, N.pos (Pos.of_uint_acc u p) = uval (N.pos p) u.
Proof.
  induction u; intros p; cbn [Pos.of_uint_acc uval]; [reflexivity|..];
  rewrite IHu; f_equal; lia.
Qed.

Lemma of_uint_uval u : N.of_uint u = uval 0 u.
Proof.
  unfold N.of_uint.
  induction u; cbn [Pos.of_uint]; [reflexivity| |..]; try (rewrite of_uint_acc; reflexivity).
  exact IHu.
Qed.

Lemma bytes_uint_digits s : forallb is_digit s = true ->
  exists u, bytes_uint s = Some u /\
    forall n, fold_left (fun n b => (10 * n + digit_val b)%N) s n = uval n u.
Proof.
  induction s as [|c s IH]; intros H; cbn in *; [exists Nil; split; reflexivity|].
  apply andb_true_iff in H as [Hc Hs]. destruct (IH Hs) as (u & -> & Hu).
  destruct c; try discriminate Hc; eexists; (split; [reflexivity|]);
  intros n; cbn [uval]; rewrite Hu; f_equal; unfold digit_val; cbn; lia.
Qed.

Lemma bytes_uint_some s u : bytes_uint s = Some u -> forallb is_digit s = true.
Proof.
  revert u; induction s as [|c s IH]; intros u H; cbn in *; [reflexivity|].
  destruct (bytes_uint s) as [v|] eqn:E; [|discriminate].
  rewrite (IH v eq_refl), andb_true_r. destruct c; try discriminate H; reflexivity.
Qed.

Lemma undec_digits s : s <> [] -> forallb is_digit s = true -> undec s = Some (dval s).
Proof.
  intros Hn H. destruct (bytes_uint_digits s H) as (u & Hu & Hv).
  unfold undec. destruct s as [|c s]; [contradiction|].
  rewrite Hu. cbn [option_map]. rewrite of_uint_uval, <- Hv. reflexivity.
Qed.

Lemma undec_some s n : undec s = Some n -> s <> [] /\ forallb is_digit s = true /\ n = dval s.
Proof.
  intros H. assert (s <> []) by (destruct s; [discriminate|congruence]).
  assert (D : forallb is_digit s = true).
  { destruct s as [|c s]; [discriminate|]. unfold undec in H.
    destruct (bytes_uint (c :: s)) eqn:E; [|discriminate]. eapply bytes_uint_some, E. }
  split; [assumption|]. split; [exact D|]. rewrite undec_digits in H by assumption. congruence.
Qed.

Lemma uint_bytes_uint u : bytes_uint (uint_bytes u) = Some u.
Proof. induction u; cbn; rewrite ?IHu; reflexivity. Qed.

Lemma dec_nonempty n : dec n <> [].
Proof.
  unfold dec. intros H. destruct (N.to_uint n) eqn:E; try discriminate.
  pose proof (DecimalN.Unsigned.of_to n) as K. rewrite E in K. cbn in K. subst n. discriminate.
Qed.

Lemma undec_dec n : undec (dec n) = Some n.
Proof.
  unfold undec. destruct (dec n) eqn:E; [exfalso; now apply (dec_nonempty n)|].
  rewrite <- E. unfold dec. rewrite uint_bytes_uint. cbn.
  now rewrite DecimalN.Unsigned.of_to.
Qed.

Lemma dec_digits n : forallb is_digit (dec n) = true.
Proof. eapply undec_some, undec_dec. Qed.

Lemma dval_dec n : dval (dec n) = n.
Proof. pose proof (undec_some _ _ (undec_dec n)) as (_ & _ & H). congruence. Qed.

Lemma dec_inj n m : dec n = dec m -> n = m.
Proof. intros H. apply (f_equal undec) in H. rewrite !undec_dec in H. congruence. Qed.

Lemma parse_max_dec max n : (n <= max)%N -> parse_max max (dec n) = Some n.
Proof. intros H. unfold parse_max. rewrite undec_dec. apply N.leb_le in H. now rewrite H. Qed.

Lemma parse_max_some max s n : parse_max max s = Some n ->
  s <> [] /\ forallb is_digit s = true /\ n = dval s /\ (n <= max)%N.
Proof.
  unfold parse_max. destruct (undec s) as [k|] eqn:E; [|discriminate].
  destruct (N.leb k max) eqn:L; [|discriminate]. intros [= <-].
  apply undec_some in E as (? & ? & ->). apply N.leb_le in L. auto.
Qed.

Lemma dval_snoc s b : dval (s ++ [b]) = (10 * dval s + digit_val b)%N.
Proof. unfold dval. rewrite fold_left_app. reflexivity. Qed.
