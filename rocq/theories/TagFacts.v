(** Facts about [TagGenerator]: the state after any execution. *)

From Verif Require Import Bytes BytesFacts Dec Types Utf8 Conv Ctors ValueSpec ValueFacts.
Open Scope N_scope.

(** The text of a tag determines generator and counter. *)
Lemma dot_split x x' y y' : forallb is_digit x = true -> forallb is_digit x' = true ->
  x ++ "."%byte :: y = x' ++ "."%byte :: y' -> x = x' /\ y = y'.
Proof.
  revert x'. induction x as [| a x IH]; intros [| a' x'] H H' E; cbn in *.
  - injection E as ->. auto.
  - injection E as <- E. discriminate H'.
  - injection E as -> E. discriminate H.
  - injection E as <- E. apply andb_true_iff in H as [_ H]. apply andb_true_iff in H' as [_ H'].
    destruct (IH x' H H' E) as [-> ->]. auto.
Qed.
Lemma tag_text_inj debug g t g' t' : tag_text debug g t = tag_text debug g' t' -> g = g'.
Proof.
  unfold tag_text. destruct g as [g c], g' as [g' c']. cbn [tg_global tg_counter].
  destruct debug; intros E.
  - apply dot_split in E as [E1 E2]; try apply dec_digits. apply dec_inj in E1, E2. congruence.
  - apply dot_split in E as [E1 E]; try apply dec_digits.
    apply dot_split in E as [E2 E]; try apply dec_digits.
    apply dec_inj in E1, E2. congruence.
Qed.
Lemma tag_char_digit b : is_digit b = true -> TAG_CHAR b.
Proof.
  intros H. apply is_tag_char_spec. revert b H. apply byte_impl. vm_compute. reflexivity.
Qed.
Lemma tag_char_alnum b : ALNUM b -> TAG_CHAR b.
Proof.
  intros H. apply is_tag_char_spec.
  assert (A : inb 0x30 0x39 b || inb 0x41 0x5a b || inb 0x61 0x7a b = true).
  { rewrite !orb_true_iff, !inb_spec. unfold ALNUM in H. tauto. }
  clear H. revert b A. apply byte_impl. vm_compute. reflexivity.
Qed.
Lemma tag_char_dec n : Forall TAG_CHAR (dec n).
Proof.
  pose proof (dec_digits n) as H. rewrite forallb_forall in H. apply Forall_forall.
  intros b I. now apply tag_char_digit, H.
Qed.
Lemma tag_text_valid debug g t : debug = true \/ Forall ALNUM t ->
  some_of TAG_CHAR (tag_text debug g t).
Proof.
  intros H. assert (D : TAG_CHAR "."%byte) by now apply is_tag_char_spec.
  unfold tag_text, some_of. destruct debug; split;
    try (intros E; apply app_eq_nil in E as [_ E]; discriminate E).
  - apply Forall_app; split; [apply tag_char_dec |]. cbn. constructor; [assumption | apply tag_char_dec].
  - destruct H as [H | H]; [discriminate |].
    apply Forall_app; split; [apply tag_char_dec |]. cbn. constructor; [assumption |].
    apply Forall_app; split; [apply tag_char_dec |]. cbn. constructor; [assumption |].
    eapply Forall_impl; [apply tag_char_alnum | exact H].
Qed.

(** The state after [n] creations and [c i] uses of the [i]-th generator. *)
Definition wrap (n : N) : N := n mod 2 ^ 64.
Lemma wrap_succ n : wrapping_succ (wrap n) = wrap (n + 1).
Proof.
  unfold wrapping_succ, wrap, u64_max.
  assert (M := N.mod_lt n (2 ^ 64) ltac:(discriminate)).
  rewrite <- (N.add_mod_idemp_l n) by discriminate.
  destruct (N.ltb_spec (n mod 2 ^ 64) 18446744073709551615) as [L | L].
  - rewrite (N.mod_small (_ + 1)); [reflexivity |]. change (2 ^ 64) with 18446744073709551616 in *. lia.
  - change (2 ^ 64) with 18446744073709551616 in *.
    assert (n mod 18446744073709551616 = 18446744073709551615) as -> by lia. reflexivity.
Qed.
Record Inv (debug : bool) (n : nat) (c : nat -> N) (w : tag_world) : Prop := {
  i_count : tw_count w = wrap (N.of_nat n);
  i_len : length (tw_gens w) = n;
  i_gens : forall i, (i < n)%nat -> nth_error (tw_gens w) i = Some (mkGen (wrap (N.of_nat i)) (wrap (c i)));
  i_tags : forall t, In t (tw_tags w) -> some_of TAG_CHAR t /\ exists i k tok,
             (i < n)%nat /\ k < c i /\ t = tag_text debug (mkGen (wrap (N.of_nat i)) (wrap k)) tok;
  i_fresh : forall i, (n <= i)%nat -> c i = 0;
  i_nodup : NoDup (tw_tags w) }.

Lemma replace_length {A} (l : list A) i x : length (replace_nth l i x) = length l.
Proof. revert i. induction l as [| y l IH]; intros [| i]; cbn; auto. Qed.
Lemma replace_same {A} (l : list A) i x : (i < length l)%nat -> nth_error (replace_nth l i x) i = Some x.
Proof. revert i. induction l as [| y l IH]; intros [| i] H; cbn in *; try lia; auto. apply IH. lia. Qed.
Lemma replace_other {A} (l : list A) i j x : i <> j -> nth_error (replace_nth l i x) j = nth_error l j.
Proof.
  revert i j. induction l as [| y l IH]; intros [| i] [| j] H; cbn; try easy. apply IH. congruence.
Qed.
Lemma nodup_snoc {A} (l : list A) x : NoDup l -> ~ In x l -> NoDup (l ++ [x]).
Proof.
  intros H N. induction H as [| y l Hy _ IH]; cbn; [constructor; [easy | constructor] |].
  constructor.
  - rewrite in_app_iff. cbn. intros [I | [-> | []]]; [contradiction | apply N; now left].
  - apply IH. intros I. apply N. now right.
Qed.

Lemma inv_new debug n c w : Inv debug n c w ->
  exists w', tag_step debug w TNew = Some w' /\ Inv debug (S n) c w'.
Proof.
  intros [Hc Hl Hg Ht Hf Hn]. eexists. split; [reflexivity |]. constructor; cbn.
  - rewrite Hc, wrap_succ. f_equal. lia.
  - rewrite app_length, Hl. cbn. lia.
  - intros i Hi. destruct (Nat.eq_dec i n) as [-> | Ni].
    + rewrite nth_error_app2 by lia. rewrite Hl, Nat.sub_diag. cbn. rewrite Hc, Hf by lia. reflexivity.
    + rewrite nth_error_app1 by lia. apply Hg. lia.
  - intros t I. destruct (Ht t I) as (V & i & k & tok & Hi & Hk & E).
    split; [assumption |]. exists i, k, tok. repeat split; auto.
  - intros i Hi. apply Hf. lia.
  - assumption.
Qed.
Definition bump (c : nat -> N) (i : nat) : nat -> N := fun j => if Nat.eqb j i then c j + 1 else c j.
Lemma wrap_inj a b : a < 2 ^ 64 -> b < 2 ^ 64 -> wrap a = wrap b -> a = b.
Proof. unfold wrap. intros A B. now rewrite !N.mod_small by assumption. Qed.
Lemma inv_gen debug n c w i tok : Inv debug n c w -> (i < n)%nat ->
  debug = true \/ Forall ALNUM tok -> N.of_nat n <= 2 ^ 64 -> (forall j, bump c i j <= 2 ^ 64) ->
  exists w', tag_step debug w (TGenerate i tok) = Some w' /\ Inv debug n (bump c i) w'.
Proof.
  intros [Hc Hl Hg Ht Hf Hn] Hi Htok Bn Bc. unfold tag_step. rewrite (Hg i Hi).
  set (g := mkGen (wrap (N.of_nat i)) (wrap (c i))).
  pose proof (tag_text_valid debug g tok Htok) as V.
  rewrite (proj2 (tag_ok_spec _) V). rewrite andb_false_r.
  eexists. split; [reflexivity |]. constructor; cbn; auto.
  - now rewrite replace_length.
  - intros j Hj. unfold bump. destruct (Nat.eqb_spec j i) as [-> | N].
    + rewrite replace_same by lia. now rewrite wrap_succ.
    + rewrite replace_other by congruence. apply Hg. lia.
  - intros t I. apply in_app_iff in I as [I | [<- | []]].
    + destruct (Ht t I) as (V' & j & k & tok' & Hj & Hk & E). split; [assumption |].
      exists j, k, tok'. repeat split; auto. unfold bump. destruct (Nat.eqb j i); lia.
    + split; [assumption |]. exists i, (c i), tok. repeat split; auto. unfold bump.
      rewrite Nat.eqb_refl. lia.
  - intros j Hj. unfold bump. destruct (Nat.eqb_spec j i); [lia |]. now apply Hf.
  - apply nodup_snoc; [assumption |]. intros I.
    destruct (Ht _ I) as (_ & j & k & tok' & Hj & Hk & E).
    apply tag_text_inj in E. unfold g in E. injection E as E1 E2.
    assert (Bi := Bc i). unfold bump in Bi. rewrite Nat.eqb_refl in Bi.
    apply wrap_inj in E1; [| lia | lia]. apply Nat2N.inj in E1. subst j.
    apply wrap_inj in E2; lia.
Qed.
Definition after (c : nat -> N) (l : list tag_event) : nat -> N := fun i => c i + count_events (uses i) l.
Lemma inv_run debug l : forall n c w, Inv debug n c w -> only_existing n l ->
  (debug = true \/ tokens_alnum l) ->
  N.of_nat n + count_events creates l <= 2 ^ 64 ->
  (forall i, c i + count_events (uses i) l <= 2 ^ 64) ->
  exists w' n' c', tag_run debug w l = Some w' /\ Inv debug n' c' w'.
Proof.
  induction l as [| [| i tok] l IH]; intros n c w HI He Ht Bn Bc; cbn [tag_run].
  - eauto.
  - destruct (inv_new _ _ _ _ HI) as (w' & -> & HI').
    apply (IH (S n) c); auto. cbn [count_events creates] in Bn. lia.
  - destruct He as [Hi He].
    assert (Ht1 : debug = true \/ Forall ALNUM tok) by (destruct Ht as [| []]; auto).
    assert (Ht2 : debug = true \/ tokens_alnum l) by (destruct Ht as [| []]; auto).
    cbn [count_events creates] in Bn.
    destruct (inv_gen debug n c w i tok) as (w' & -> & HI'); auto.
    + lia.
    + intros j. specialize (Bc j). cbn [count_events uses] in Bc. unfold bump.
      destruct (Nat.eqb j i); lia.
    + apply (IH n (bump c i)); auto. intros j. specialize (Bc j). cbn [count_events uses] in Bc.
      unfold bump. destruct (Nat.eqb j i); lia.
Qed.
Lemma inv_start debug : Inv debug 0 (fun _ => 0) tag_start.
Proof. constructor; cbn; try easy; try constructor. Qed.

(** The number of tags is the number of [generate] calls. *)
Definition generates (e : tag_event) : bool := negb (creates e).
Lemma run_length debug l : forall w w', tag_run debug w l = Some w' ->
  N.of_nat (length (tw_tags w')) = N.of_nat (length (tw_tags w)) + count_events generates l.
Proof.
  induction l as [| [| i tok] l IH]; intros w w'; cbn [tag_run count_events generates creates negb].
  - intros [= ->]. lia.
  - cbn [tag_step]. intros H. apply IH in H. rewrite H. reflexivity.
  - cbn [tag_step]. destruct (nth_error _ i); [| discriminate].
    destruct (debug && _); [discriminate |]. intros H. apply IH in H. rewrite H.
    cbn [tw_tags]. rewrite app_length. cbn [length generates creates negb]. lia.
Qed.
