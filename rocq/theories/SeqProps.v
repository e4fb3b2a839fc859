(** Sequence sets: properties C28, C29, C30 and C40. *)

From Verif Require Import Bytes BytesFacts Dec Features Nom Types SeqSet EncodeCtx Encode Valid
  SeqSpec SeqFacts SeqText.
From Coq Require Import Sorted Permutation.
Open Scope N_scope.

(** [NonZeroU32] values, and the values of the Rust type [SequenceSet] *)
Definition nonzero_u32 (n : N) : Prop := 1 <= n <= u32_max.
Definition a_sequence_set (s : sequence_set) : Prop :=
  s <> [] /\ forall v, has_value s v -> nonzero_u32 v.
Lemma a_sequence_set_vset s : a_sequence_set s -> vset s.
Proof.
  intros [_ H]. unfold vset. apply Forall_forall. intros q Hq.
  assert (K : forall a, In a (bounds q) -> v_seq_or_uid a = true).
  { intros [v |] Ha; [| reflexivity]. cbn. unfold v_nz32.
    assert (nonzero_u32 v) as [H1 H2] by (apply H; exists q; auto).
    apply andb_true_iff. split; [| now apply N.leb_le].
    apply negb_true_iff, N.eqb_neq. lia. }
  destruct q as [a | a b]; cbn [v_sequence bounds] in *.
  - apply K. now left.
  - rewrite !K; cbn; auto.
Qed.

(** The running example: "1:5,10:3,10,20:*" *)
Definition set1 : sequence_set :=
  [SRange (SValue 1) (SValue 5); SRange (SValue 10) (SValue 3); SSingle (SValue 10);
   SRange (SValue 20) SAsterisk].
Lemma set1_is : a_sequence_set set1.
Proof.
  split; [discriminate |]. intros v (q & Hq & Hb). unfold nonzero_u32.
  cbn in Hq. destruct Hq as [<- | [<- | [<- | [<- | []]]]]; cbn in Hb;
    repeat (destruct Hb as [Hb | Hb]; [try discriminate Hb; injection Hb as <-; vm_compute; split; discriminate |]);
    destruct Hb.
Qed.

(** ** C28: iteration *)

(** [iter] does not panic, and yields, in increasing order and once each, exactly the
    numbers of the set. *)
Theorem C28_iter : forall s largest,
  a_sequence_set s -> nonzero_u32 largest ->
  exists st l, iter s largest = Some st /\ yields st l /\ StronglySorted N.lt l /\
    forall n, In n l <-> in_set largest s n.
Proof.
  intros s largest V L. apply iter_spec; [now apply a_sequence_set_vset | apply V | exact L].
Qed.
Print Assumptions C28_iter.
Fixpoint collect (fuel : nat) (st : iter_state) : list N :=
  match fuel with
  | O => []
  | S k => match iter_next st with ItSome n st' => n :: collect k st' | _ => [] end
  end.
Example C28_iter_case : a_sequence_set set1 /\ nonzero_u32 22 /\
  option_map (collect 20) (iter set1 22) = Some [1; 2; 3; 4; 5; 6; 7; 8; 9; 10; 20; 21; 22].
Proof. split; [exact set1_is |]. split; [vm_compute; split; discriminate | reflexivity]. Qed.

(** [iter_naive] yields the numbers of each sequence in turn, from its first bound to its
    second, keeping duplicates; so again exactly the numbers of the set. *)
Theorem C28_iter_naive : forall s largest,
  a_sequence_set s -> nonzero_u32 largest ->
  yields (iter_naive s largest) (flat_map (walk_sequence largest) s) /\
  forall n, In n (flat_map (walk_sequence largest) s) <-> in_set largest s n.
Proof.
  intros s largest V L. split; [| intros n; apply in_walk].
  apply iter_naive_spec; [now apply a_sequence_set_vset | apply L].
Qed.
Print Assumptions C28_iter_naive.
Example C28_iter_naive_case :
  collect 30 (iter_naive set1 18) =
  [1; 2; 3; 4; 5; 10; 9; 8; 7; 6; 5; 4; 3; 10; 20; 19; 18] /\
  flat_map (walk_sequence 18) set1 = collect 30 (iter_naive set1 18).
Proof. split; reflexivity. Qed.
(** The list an iterator yields is unique. *)
Theorem C28_yields_unique : forall st l l', yields st l -> yields st l' -> l = l'.
Proof. intros st l l' H H'. exact (yields_unique st l H l' H'). Qed.
Print Assumptions C28_yields_unique.

(** ** C29: normalisation *)

(** Neither the iteration order of the hash set nor the unstable sort matters. *)
Lemma singles_of_in s x :
  In x (singles_of s) <-> exists a, x = to_u32 a /\ (In (SSingle a) s \/ In (SRange a a) s).
Proof.
  induction s as [| q s IH]; cbn [singles_of].
  - split; [intros [] | intros (a & _ & [[] | []])].
  - assert (K : forall i, In x (if existsb (N.eqb (to_u32 i)) (singles_of s) then singles_of s
      else to_u32 i :: singles_of s) <-> x = to_u32 i \/ In x (singles_of s)).
    { intros i. destruct (existsb _ _) eqn:E; cbn [In]; [| intuition].
      split; [auto |]. intros [-> | H]; [| exact H].
      apply existsb_exists in E as (y & Hy & E). apply N.eqb_eq in E. now rewrite E. }
    destruct q as [a | a b]; cbn [sequence_normalize].
    + rewrite K, IH. split.
      * intros [-> | (c & -> & [H | H])]; eexists; (split; [reflexivity |]); cbn; eauto.
      * intros (c & -> & [[H | H] | [H | H]]).
        -- injection H as <-. now left.
        -- right. eauto.
        -- discriminate.
        -- right. eauto.
    + destruct (seq_or_uid_cmp a b) eqn:E.
      * assert (a = b) as <-.
        { destruct a as [a |], b as [b |]; cbn in E; try discriminate; [| reflexivity].
          apply N.compare_eq_iff in E. now subst. }
        rewrite K, IH. split.
        -- intros [-> | (c & -> & [H | H])]; eexists; (split; [reflexivity |]); cbn; eauto.
        -- intros (c & -> & [[H | H] | [H | H]]); [discriminate | right; eauto | | right; eauto].
           injection H as <-. now left.
      * rewrite IH. split.
        -- intros (c & -> & [H | H]); eexists; (split; [reflexivity |]); cbn; eauto.
        -- intros (c & -> & [[H | H] | [H | H]]); [discriminate | eauto | | eauto].
           injection H as <- <-. destruct b; cbn in E; [rewrite N.compare_refl in E |]; discriminate.
      * rewrite IH. split.
        -- intros (c & -> & [H | H]); eexists; (split; [reflexivity |]); cbn; eauto.
        -- intros (c & -> & [[H | H] | [H | H]]); [discriminate | eauto | | eauto].
           injection H as <- <-. destruct b; cbn in E; [rewrite N.compare_refl in E |]; discriminate.
Qed.
Lemma singles_of_nodup s : NoDup (singles_of s).
Proof.
  induction s as [| q s IH]; cbn [singles_of]; [constructor |].
  destruct (sequence_normalize q) as [i |]; [| assumption].
  destruct (existsb (N.eqb (to_u32 i)) (singles_of s)) eqn:E; [assumption |].
  constructor; [| assumption]. intros H.
  assert (existsb (N.eqb (to_u32 i)) (singles_of s) = true); [| congruence].
  apply existsb_exists. exists (to_u32 i). split; [exact H | apply N.eqb_refl].
Qed.
Lemma hash_order_some s order : hash_order s order -> some_order order (singles_of s).
Proof.
  intros [Nd H]. apply NoDup_Permutation; [exact Nd | apply singles_of_nodup |].
  intros x. rewrite H. symmetry. apply singles_of_in.
Qed.
Theorem C29_normalize_deterministic : forall s order sorter,
  a_sequence_set s -> hash_order s order -> some_sort sorter ->
  normalize_with order sorter s = normalize s.
Proof.
  intros s order sorter V O S. apply a_sequence_set_vset in V.
  apply normalize_with_unique;
    [assumption | now apply hash_order_some | apply Permutation_refl | assumption | apply sort_by_some_sort].
Qed.
Print Assumptions C29_normalize_deterministic.
(** The result is a sequence set, in order, with no overlapping or adjacent sequences,
    and normalising it again changes nothing. *)
Theorem C29_normalize_tidy : forall s, a_sequence_set s ->
  a_sequence_set (normalize s) /\ tidy (normalize s) /\ normalize (normalize s) = normalize s.
Proof.
  intros s V. pose proof (a_sequence_set_vset s V) as V'. split; [| split].
  - split; [apply normalize_nonempty; [apply V | exact V'] |].
    pose proof (normalize_valid s V') as W. unfold vset in W. rewrite Forall_forall in W.
    intros v (q & Hq & Hb). specialize (W q Hq). unfold nonzero_u32.
    assert (K : v_seq_or_uid (SValue v) = true).
    { destruct q as [a | a b]; cbn [bounds v_sequence] in *.
      - destruct Hb as [-> | []]. exact W.
      - apply andb_true_iff in W as [Wa Wb]. destruct Hb as [-> | [-> | []]]; assumption. }
    apply v_to_u32 in K. exact K.
  - now apply normalize_tidy.
  - now apply normalize_idem.
Qed.
Print Assumptions C29_normalize_tidy.
Example C29_normalize_case : a_sequence_set set1 /\ hash_order set1 (singles_of set1) /\ some_sort (sort_by fst) /\
  normalize set1 = [SRange (SValue 1) (SValue 10); SRange (SValue 20) SAsterisk].
Proof.
  split; [exact set1_is |]. split; [| split; [apply sort_by_some_sort | reflexivity]].
  split; [apply singles_of_nodup | apply singles_of_in].
Qed.

(** The full claim is that the meaning never changes: *)
Definition C29_meaning : Prop := forall s largest n,
  a_sequence_set s -> nonzero_u32 largest ->
  in_set largest (normalize s) n <-> in_set largest s n.
(** It holds when no number written in the set is greater than [largest] or one of the two
    largest numbers of the type. Missing: the other sets, for which it is false. *)
Theorem C29_meaning_partial : forall s largest n,
  a_sequence_set s -> nonzero_u32 largest ->
  (forall v, has_value s v -> v <= largest /\ v + 1 < u32_max) ->
  in_set largest (normalize s) n <-> in_set largest s n.
Proof.
  intros s largest n V L H. apply normalize_meaning; [now apply a_sequence_set_vset | apply L | exact H].
Qed.
Print Assumptions C29_meaning_partial.
Example C29_meaning_case :
  forall v, has_value set1 v -> v <= 22 /\ v + 1 < u32_max.
Proof.
  intros v (q & Hq & Hb). cbn in Hq. destruct Hq as [<- | [<- | [<- | [<- | []]]]]; cbn in Hb;
    repeat (destruct Hb as [Hb | Hb];
      [try discriminate Hb; injection Hb as <-; (split; [vm_compute; discriminate | reflexivity]) |]);
    destruct Hb.
Qed.
Lemma single_set_is l : l <> [] -> Forall (fun a => match a with SValue v => nonzero_u32 v | _ => True end) l ->
  a_sequence_set (map SSingle l).
Proof.
  intros Ne H. split; [destruct l; [easy | discriminate] |]. intros v (q & Hq & Hb).
  apply in_map_iff in Hq as (a & <- & Ha). cbn in Hb. destruct Hb as [-> | []].
  rewrite Forall_forall in H. exact (H _ Ha).
Qed.
(** "4294967294,*": normalising drops "*". *)
Theorem C29_asterisk_lost_refuted : exists s largest,
  a_sequence_set s /\ nonzero_u32 largest /\
  in_set largest s largest /\ ~ in_set largest (normalize s) largest.
Proof.
  exists [SSingle (SValue 4294967294); SSingle SAsterisk], 7. split; [| split; [| split]].
  - apply (single_set_is [SValue 4294967294; SAsterisk]); [discriminate |].
    repeat constructor; vm_compute; discriminate.
  - split; vm_compute; discriminate.
  - exists (SSingle SAsterisk). cbn. auto.
  - intros (q & Hq & H). vm_compute in Hq. destruct Hq as [<- | []]. vm_compute in H. discriminate.
Qed.
Print Assumptions C29_asterisk_lost_refuted.
(** "5:4294967294" becomes "5:*", which denotes far fewer numbers. *)
Theorem C29_large_bound_refuted : exists s largest n,
  a_sequence_set s /\ nonzero_u32 largest /\ in_set largest s n /\ ~ in_set largest (normalize s) n.
Proof.
  exists [SRange (SValue 5) (SValue 4294967294)], 7, 8. split; [| split; [| split]].
  - split; [discriminate |]. intros v (q & [<- | []] & Hb). unfold nonzero_u32.
    cbn in Hb. destruct Hb as [Hb | [Hb | []]]; injection Hb as <-; split; vm_compute; discriminate.
  - split; vm_compute; discriminate.
  - exists (SRange (SValue 5) (SValue 4294967294)). split; [now left |]. left.
    split; vm_compute; discriminate.
  - intros (q & Hq & H). vm_compute in Hq. destruct Hq as [<- | []]. cbn in H.
    destruct H as [[_ H] | [_ H]]; vm_compute in H; now apply H.
Qed.
Print Assumptions C29_large_bound_refuted.
(** "5:*,10" becomes "5:*", which misses 10 when the mailbox has only 7 messages. *)
Theorem C29_above_largest_refuted : exists s largest n,
  a_sequence_set s /\ nonzero_u32 largest /\ in_set largest s n /\ ~ in_set largest (normalize s) n.
Proof.
  exists [SRange (SValue 5) SAsterisk; SSingle (SValue 10)], 7, 10. split; [| split; [| split]].
  - split; [discriminate |]. intros v (q & [<- | [<- | []]] & Hb); unfold nonzero_u32; cbn in Hb;
      repeat (destruct Hb as [Hb | Hb];
        [try discriminate Hb; injection Hb as <-; split; vm_compute; discriminate |]); destruct Hb.
  - split; vm_compute; discriminate.
  - exists (SSingle (SValue 10)). cbn. auto.
  - intros (q & Hq & H). vm_compute in Hq. destruct Hq as [<- | []]. cbn in H.
    destruct H as [[_ H] | [_ H]]; vm_compute in H; now apply H.
Qed.
Print Assumptions C29_above_largest_refuted.
Theorem C29_meaning_refuted : ~ C29_meaning.
Proof.
  intros H. destruct C29_above_largest_refuted as (s & largest & n & V & L & I & J).
  apply J. now apply H.
Qed.
Print Assumptions C29_meaning_refuted.

(** ** C30: conversions *)

(** From text: exactly the grammar, for strings without "+". *)
Theorem C30_from_str : forall s x, ~ In "+"%byte s ->
  sequence_set_from_str s = Some x <-> sequence_set_text s x.
Proof. exact sequence_set_from_str_iff. Qed.
Print Assumptions C30_from_str.
Example C30_from_str_case :
  ~ In "+"%byte (bs "1:5,10:3,10,20:*") /\
  sequence_set_from_str (bs "1:5,10:3,10,20:*") = Some set1 /\
  sequence_set_from_str (bs "1:5,010") = None /\ sequence_set_from_str (bs "1,,2") = None.
Proof.
  split; [| repeat split; reflexivity]. cbn. intros K. repeat (destruct K as [K | K]; [discriminate K |]). destruct K.
Qed.
(** With "+" the text of the grammar is still accepted, but more is: "+5" is not a number of
    the grammar and is accepted. *)
Theorem C30_from_str_accepts : forall s x,
  sequence_set_text s x -> sequence_set_from_str s = Some x.
Proof.
  intros s x T. apply sequence_set_from_str_iff; [| exact T]. now apply sequence_set_plus in T.
Qed.
Print Assumptions C30_from_str_accepts.
Theorem C30_from_str_plus_refuted : exists s x,
  sequence_set_from_str s = Some x /\ ~ sequence_set_text s x.
Proof.
  exists (bs "+5"), [SSingle (SValue 5)]. split; [reflexivity |]. cbn. intros [D _]. discriminate D.
Qed.
Print Assumptions C30_from_str_plus_refuted.

(** Printing then reading gives the set back (its normal form when printing normalises). *)
Theorem C30_print_then_from_str : forall {F : features} s, a_sequence_set s ->
  sequence_set_from_str (dump (e_sequence_set s)) =
  Some (if quirk_always_normalize_sequence_sets then normalize s else s).
Proof. intros F s V. apply from_str_printed; [now apply a_sequence_set_vset | apply V]. Qed.
Print Assumptions C30_print_then_from_str.

(** From ranges of any integer type with minimum [tmin]; [start < stop]. *)
Definition denotes_between (q : sequence) (start stop : Z) : Prop :=
  forall largest n, in_sequence largest q n <-> (start <= Z.of_N n < stop)%Z.
Ltac num := unfold seq_or_uid_from_num, dec1 in *;
  repeat match goal with |- context [Z.leb ?a ?b] => destruct (Z.leb_spec a b) end;
  cbn [andb opt2 option_map]; try lia.
Theorem C30_range : forall tmin start stop, (tmin <= start < stop)%Z -> (tmin <= 0)%Z ->
  match seq_from_range tmin start stop with
  | Some q => denotes_between q start stop
  | None => (start < 1 \/ Z.of_N u32_max + 1 < stop)%Z
  end.
Proof.
  intros tmin start stop H H0. unfold seq_from_range. num. intros largest n. cbn [in_sequence number]. lia.
Qed.
Print Assumptions C30_range.
Theorem C30_range_inclusive : forall start stop, (start <= stop)%Z ->
  match seq_from_range_incl start stop with
  | Some q => denotes_between q start (stop + 1)
  | None => (start < 1 \/ Z.of_N u32_max < stop)%Z
  end.
Proof.
  intros start stop H. unfold seq_from_range_incl. num. intros largest n. cbn [in_sequence number]. lia.
Qed.
Print Assumptions C30_range_inclusive.
Theorem C30_range_to : forall tmin stop, (tmin <= 0)%Z ->
  match seq_from_range_to tmin stop with
  | Some q => denotes_between q 1 stop
  | None => (stop <= 1 \/ Z.of_N u32_max + 1 < stop)%Z
  end.
Proof.
  intros tmin stop H. unfold seq_from_range_to. num. intros largest n. cbn [in_sequence].
  change (number largest (seq_or_uid_from 1)) with 1. cbn [number]. lia.
Qed.
Print Assumptions C30_range_to.
Theorem C30_range_to_inclusive : forall stop,
  match seq_from_range_to_incl stop with
  | Some q => denotes_between q 1 (stop + 1)
  | None => (stop < 1 \/ Z.of_N u32_max < stop)%Z
  end.
Proof.
  intros stop. unfold seq_from_range_to_incl. num. intros largest n. cbn [in_sequence].
  change (number largest (seq_or_uid_from 1)) with 1. cbn [number]. lia.
Qed.
Print Assumptions C30_range_to_inclusive.
Theorem C30_range_from : forall start,
  match seq_from_range_from start with
  | Some q => forall largest n, (start <= Z.of_N largest)%Z ->
      in_sequence largest q n <-> (start <= Z.of_N n <= Z.of_N largest)%Z
  | None => (start < 1 \/ Z.of_N u32_max < start)%Z
  end.
Proof.
  intros start. unfold seq_from_range_from. num. intros largest n L. cbn [in_sequence number]. lia.
Qed.
Print Assumptions C30_range_from.
Example C30_ranges_case :
  seq_from_range 0 5 10 = Some (SRange (SValue 5) (SValue 9)) /\
  seq_from_range_incl 5 10 = Some (SRange (SValue 5) (SValue 10)) /\
  seq_from_range_to (-128) 10 = Some (SRange (SValue 1) (SValue 9)) /\
  seq_from_range_to_incl 10 = Some (SRange (SValue 1) (SValue 10)) /\
  seq_from_range_from 5 = Some (SRange (SValue 5) SAsterisk) /\
  seq_from_range 0 0 10 = None.
Proof. repeat split; reflexivity. Qed.
(** An empty Rust range is not rejected: 10..5 gives 10:4, seven numbers. *)
Theorem C30_empty_range_refuted : exists start stop q largest n,
  (stop < start)%Z /\ seq_from_range 0 start stop = Some q /\ in_sequence largest q n.
Proof.
  exists 10%Z, 5%Z, (SRange (SValue 10) (SValue 4)), 10, 7. split; [reflexivity |].
  split; [reflexivity |]. right. split; vm_compute; discriminate.
Qed.
Print Assumptions C30_empty_range_refuted.

(** From ranges of [NonZeroU32] that do not use [NonZeroU32::MAX] (which means [*]). *)
Definition plain (n : N) : Prop := 1 <= n < u32_max.
Lemma plain_from n largest : plain n -> number largest (seq_or_uid_from n) = n.
Proof.
  intros [_ H]. unfold seq_or_uid_from. destruct (N.eqb_spec n u32_max); [lia | reflexivity].
Qed.
Theorem C30_nonzero_range_inclusive : forall start stop, plain start -> plain stop -> start <= stop ->
  denotes_between (seq_from_nz_range_incl start stop) (Z.of_N start) (Z.of_N stop + 1).
Proof.
  intros start stop H1 H2 H largest n. unfold seq_from_nz_range_incl. cbn [in_sequence].
  rewrite !plain_from by assumption. lia.
Qed.
Print Assumptions C30_nonzero_range_inclusive.
Theorem C30_nonzero_range_to_inclusive : forall stop, plain stop ->
  denotes_between (seq_from_nz_range_to_incl stop) 1 (Z.of_N stop + 1).
Proof.
  intros stop H. apply (C30_nonzero_range_inclusive 1 stop); [split; vm_compute; congruence | exact H |].
  destruct H. lia.
Qed.
Print Assumptions C30_nonzero_range_to_inclusive.
Theorem C30_nonzero_range_to : forall stop, nonzero_u32 stop ->
  match seq_from_nz_range_to stop with
  | Some q => denotes_between q 1 (Z.of_N stop)
  | None => stop = 1
  end.
Proof.
  intros stop H. unfold nonzero_u32 in H. unfold seq_from_nz_range_to, seq_from_nz_range. num.
  intros largest n. cbn [in_sequence].
  change (number largest (seq_or_uid_from 1)) with 1. cbn [number]. lia.
Qed.
Print Assumptions C30_nonzero_range_to.
Theorem C30_nonzero_range_from : forall start largest n, plain start -> start <= largest ->
  in_sequence largest (seq_from_nz_range_from start) n <-> start <= n <= largest.
Proof.
  intros start largest n H L. unfold seq_from_nz_range_from. cbn [in_sequence].
  rewrite plain_from by assumption. cbn [number]. lia.
Qed.
Print Assumptions C30_nonzero_range_from.
Theorem C30_range_full : forall largest n, 1 <= largest ->
  in_sequence largest seq_from_range_full n <-> 1 <= n <= largest.
Proof.
  intros largest n L. apply C30_nonzero_range_from; [split; vm_compute; congruence | exact L].
Qed.
Print Assumptions C30_range_full.
(** The start of a half-open [NonZeroU32] range is ignored: 5..10 gives 1:9. *)
Theorem C30_nonzero_range_refuted : exists start stop q largest n,
  plain start /\ start < stop /\ plain stop /\ seq_from_nz_range start stop = Some q /\
  in_sequence largest q n /\ n < start.
Proof.
  exists 5, 10, (SRange (SValue 1) (SValue 9)), 100, 3.
  split; [split; vm_compute; congruence |]. split; [reflexivity |].
  split; [split; vm_compute; congruence |]. split; [reflexivity |].
  split; [left; split; vm_compute; discriminate | reflexivity].
Qed.
Print Assumptions C30_nonzero_range_refuted.
(** From a list of numbers *)
Theorem C30_list : forall l largest n, l <> [] -> Forall plain l ->
  exists s, sequence_set_from_nz_list l = Some s /\ (in_set largest s n <-> In n l).
Proof.
  intros l largest n Ne H. unfold sequence_set_from_nz_list. destruct l as [| x l]; [easy |].
  eexists. split; [reflexivity |]. unfold in_set. split.
  - intros (q & Hq & D). apply in_map_iff in Hq as (y & <- & Hy). cbn [in_sequence] in D.
    rewrite Forall_forall in H. rewrite plain_from in D by auto. now subst.
  - intros Hn. exists (SSingle (seq_or_uid_from n)).
    split; [apply (in_map (fun n => SSingle (seq_or_uid_from n))); exact Hn |].
    cbn [in_sequence]. rewrite Forall_forall in H. now rewrite plain_from by auto.
Qed.
Print Assumptions C30_list.

(** ** C40: comparing sequences *)
Definition before (largest : N) (q r : sequence) : Prop :=
  forall m n, in_sequence largest q m -> in_sequence largest r n -> m < n.
Definition lo largest q := match q with SSingle a => number largest a
  | SRange a b => N.min (number largest a) (number largest b) end.
Definition hi largest q := match q with SSingle a => number largest a
  | SRange a b => N.max (number largest a) (number largest b) end.
Lemma before_iff largest q r : before largest q r <-> hi largest q < lo largest r.
Proof.
  assert (K : forall q n, in_sequence largest q n <-> lo largest q <= n <= hi largest q).
  { intros [a | a b] n; cbn [in_sequence lo hi]; lia. }
  assert (K' : forall q, lo largest q <= hi largest q) by (intros [a | a b]; cbn [lo hi]; lia).
  unfold before. split.
  - intros H. apply H; apply K; pose proof (K' q); pose proof (K' r); lia.
  - intros H m n Hm%K Hn%K. lia.
Qed.
Definition known (largest : N) (a : seq_or_uid) : Prop :=
  match a with SValue v => v < largest | SAsterisk => True end.
Lemma sou_cmp_number largest a b : known largest a -> known largest b ->
  seq_or_uid_cmp a b = N.compare (number largest a) (number largest b).
Proof.
  destruct a as [a |], b as [b |]; cbn [known seq_or_uid_cmp number]; intros Ha Hb; symmetry;
    [reflexivity | now apply N.compare_lt_iff | now apply N.compare_gt_iff | apply N.compare_refl].
Qed.
Lemma sou_ltb_number largest a b : known largest a -> known largest b ->
  sou_ltb a b = N.ltb (number largest a) (number largest b).
Proof. intros Ha Hb. unfold sou_ltb. rewrite (sou_cmp_number largest) by assumption. reflexivity. Qed.
Lemma sou_min_number largest a b : known largest a -> known largest b ->
  known largest (sou_min a b) /\
  number largest (sou_min a b) = N.min (number largest a) (number largest b).
Proof.
  intros Ha Hb. unfold sou_min. rewrite (sou_ltb_number largest) by assumption.
  destruct (N.ltb_spec (number largest b) (number largest a)); split; try assumption; lia.
Qed.
Lemma sou_max_number largest a b : known largest a -> known largest b ->
  known largest (sou_max a b) /\
  number largest (sou_max a b) = N.max (number largest a) (number largest b).
Proof.
  intros Ha Hb. unfold sou_max. rewrite (sou_ltb_number largest) by assumption.
  destruct (N.ltb_spec (number largest b) (number largest a)); split; try assumption; lia.
Qed.
(** When [*] is greater than every number written, [partial_cmp] says "less" exactly if every
    number of the first is less than every number of the second, and symmetrically. *)
Theorem C40_partial_cmp : forall q r largest,
  (forall v, In (SValue v) (bounds q ++ bounds r) -> v < largest) ->
  (sequence_partial_cmp q r = Some Lt <-> before largest q r) /\
  (sequence_partial_cmp q r = Some Gt <-> before largest r q) /\
  (sequence_partial_cmp q r = Some Eq <-> exists a, q = SSingle a /\ r = SSingle a).
Proof.
  intros q r largest H. rewrite !before_iff.
  assert (K : forall a, In a (bounds q ++ bounds r) -> known largest a) by (intros [v |] Hv; [now apply H | exact I]).
  clear H. destruct q as [a | a b], r as [c | c d]; cbn [bounds app lo hi sequence_partial_cmp] in *.
  - assert (Ka : known largest a) by (apply K; cbn; auto).
    assert (Kc : known largest c) by (apply K; cbn; auto).
    rewrite (sou_cmp_number largest) by assumption.
    split; [| split].
    + destruct (N.compare_spec (number largest a) (number largest c)); split; try discriminate; try reflexivity; lia.
    + destruct (N.compare_spec (number largest a) (number largest c)); split; try discriminate; try reflexivity; lia.
    + rewrite <- (sou_cmp_number largest) by assumption. split.
      * intros E. exists a. split; [reflexivity |]. f_equal.
        destruct a as [a |], c as [c |]; cbn in E; try discriminate; [| reflexivity].
        injection E as E. apply N.compare_eq_iff in E. now subst.
      * intros (x & [= ->] & [= ->]). f_equal. destruct x; cbn; [apply N.compare_refl | reflexivity].
  - assert (Ka : known largest a) by (apply K; cbn; auto).
    assert (Kc : known largest c) by (apply K; cbn; auto).
    assert (Kd : known largest d) by (apply K; cbn; auto).
    destruct (sou_min_number largest c d Kc Kd) as [Km Em].
    destruct (sou_max_number largest c d Kc Kd) as [Kx Ex].
    rewrite !(sou_ltb_number largest), Em, Ex by assumption.
    destruct (N.ltb_spec (number largest a) (N.min (number largest c) (number largest d)));
      [| destruct (N.ltb_spec (N.max (number largest c) (number largest d)) (number largest a))];
      (split; [| split; [| split; [discriminate | intros (? & ? & ?); discriminate]]]);
      split; try discriminate; try reflexivity; lia.
  - assert (Ka : known largest a) by (apply K; cbn; auto).
    assert (Kb : known largest b) by (apply K; cbn; auto).
    assert (Kc : known largest c) by (apply K; cbn; auto).
    destruct (sou_min_number largest a b Ka Kb) as [Km Em].
    destruct (sou_max_number largest a b Ka Kb) as [Kx Ex].
    rewrite !(sou_ltb_number largest), Em, Ex by assumption.
    destruct (N.ltb_spec (number largest c) (N.min (number largest a) (number largest b)));
      [| destruct (N.ltb_spec (N.max (number largest a) (number largest b)) (number largest c))];
      (split; [| split; [| split; [discriminate | intros (? & ? & ?); discriminate]]]);
      split; try discriminate; try reflexivity; lia.
  - assert (Ka : known largest a) by (apply K; cbn; auto).
    assert (Kb : known largest b) by (apply K; cbn; auto).
    assert (Kc : known largest c) by (apply K; cbn; auto 6).
    assert (Kd : known largest d) by (apply K; cbn; auto 6).
    destruct (sou_min_number largest a b Ka Kb) as [Km Em].
    destruct (sou_max_number largest a b Ka Kb) as [Kx Ex].
    rewrite !(sou_ltb_number largest), Em, Ex by assumption.
    repeat match goal with |- context [N.ltb ?x ?y] => destruct (N.ltb_spec x y) end; cbn [andb];
      (split; [| split; [| split; [discriminate | intros (? & ? & ?); discriminate]]]);
      split; try discriminate; try reflexivity; lia.
Qed.
Print Assumptions C40_partial_cmp.
Example C40_case :
  sequence_partial_cmp (SRange (SValue 5) (SValue 1)) (SRange (SValue 6) SAsterisk) = Some Lt /\
  sequence_partial_cmp (SRange SAsterisk (SValue 6)) (SSingle (SValue 3)) = Some Gt /\
  sequence_partial_cmp (SRange (SValue 1) (SValue 5)) (SSingle (SValue 3)) = None.
Proof. repeat split; reflexivity. Qed.
(** Two sequences that cannot be compared, or are equal, have a number in common. *)
Theorem C40_incomparable_overlap : forall q r largest,
  (forall v, In (SValue v) (bounds q ++ bounds r) -> v < largest) ->
  sequence_partial_cmp q r <> Some Lt -> sequence_partial_cmp q r <> Some Gt ->
  exists n, in_sequence largest q n /\ in_sequence largest r n.
Proof.
  intros q r largest H Nl Ng. destruct (C40_partial_cmp q r largest H) as (E1 & E2 & _).
  rewrite E1, before_iff in Nl. rewrite E2, before_iff in Ng.
  assert (K : forall q n, in_sequence largest q n <-> lo largest q <= n <= hi largest q).
  { intros [a | a b] n; cbn [in_sequence lo hi]; lia. }
  assert (K' : forall q, lo largest q <= hi largest q) by (intros [a | a b]; cbn [lo hi]; lia).
  exists (N.max (lo largest q) (lo largest r)).
  pose proof (K' q). pose proof (K' r). rewrite !K. lia.
Qed.
Print Assumptions C40_incomparable_overlap.
