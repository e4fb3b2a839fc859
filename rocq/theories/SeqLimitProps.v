(** C29: what [SequenceSet::normalize] does to the meaning of every set.

    [C29_meaning_partial] (SeqProps.v) leaves out sets with numbers above the largest message
    or near 2^32, for which the meaning changes. Here, for all sets: reading "*" as the
    greatest number of the type, normalising keeps every other number, and it is said exactly
    when it keeps that one; and the meaning of a set without "*" is kept for every largest
    message, also for numbers above it. *)

From Verif Require Import Bytes BytesFacts Dec Features Nom Types SeqSet EncodeCtx Encode Valid
  SeqSpec SeqFacts SeqText SeqProps.
Open Scope N_scope.

Lemma max_val : u32_max = 4294967295.
Proof. reflexivity. Qed.

Lemma range_of_half q n : v_sequence q = true -> n < u32_max ->
  in_sequence u32_max q n <-> 2 * fst (range_of q) <= 2 * n + 1 <= 2 * snd (range_of q).
Proof.
  intros V Hn. destruct q as [a | a b]; cbn [v_sequence] in V.
  - apply v_to_u32 in V. unfold range_of. cbn [sequence_normalize in_sequence fst snd].
    unfold sat_succ. destruct a as [v |]; cbn [to_u32 number] in *.
    + destruct (N.ltb_spec v u32_max); lia.
    + rewrite N.ltb_irrefl. lia.
  - apply andb_true_iff in V as [Va Vb]. apply v_to_u32 in Va, Vb. unfold range_of. cbn [sequence_normalize].
    destruct a as [a |], b as [b |]; cbn [seq_or_uid_cmp to_u32 number in_sequence] in *;
      try (destruct (N.compare_spec a b)); cbn [to_u32 fst snd]; unfold sat_succ;
      try match goal with |- context [N.ltb ?x ?y] => destruct (N.ltb_spec x y) end; lia.
Qed.
Lemma range_of_top q : v_sequence q = true ->
  in_sequence u32_max q u32_max <-> exists a, In a (bounds q) /\ to_u32 a = u32_max.
Proof.
  intros V. destruct q as [a | a b]; cbn [v_sequence in_sequence bounds] in *.
  - apply v_to_u32 in V. destruct a as [v |]; cbn [number to_u32] in *; split.
    + intros E. exists (SValue v). split; [now left | now symmetry].
    + intros (x & [<- | []] & E). now symmetry.
    + intros _. exists SAsterisk. split; [now left | reflexivity].
    + reflexivity.
  - apply andb_true_iff in V as [Va Vb]. apply v_to_u32 in Va, Vb.
    assert (Na : number u32_max a = to_u32 a) by now destruct a.
    assert (Nb : number u32_max b = to_u32 b) by now destruct b. rewrite Na, Nb. split.
    + intros [H | H]; [exists b | exists a]; (split; [cbn; auto | lia]).
    + intros (x & [<- | [<- | []]] & E); lia.
Qed.
Lemma sequence_of_range_half r n : proper r -> n < u32_max ->
  in_sequence u32_max (sequence_of_range r) n <-> 2 * fst r <= 2 * n + 1 <= 2 * snd r.
Proof.
  destruct r as [a b]. unfold proper. cbn [fst snd]. intros (H1 & H2 & H3) Hn. pose proof max_big.
  assert (X : forall k, number u32_max (seq_or_uid_from k) = k).
  { intros k. unfold seq_or_uid_from. destruct (N.eqb_spec k u32_max); [now subst | reflexivity]. }
  unfold sequence_of_range. destruct (N.eqb_spec a b); cbn [orb].
  - cbn [in_sequence]. rewrite X. lia.
  - destruct (N.eqb_spec (sat_succ a) b) as [E | E].
    + cbn [in_sequence]. rewrite X. unfold sat_succ in E. destruct (N.ltb_spec a u32_max); lia.
    + destruct (N.eqb_spec b u32_max); cbn [in_sequence]; rewrite ?X; cbn [number]; lia.
Qed.
Lemma sequence_of_range_top r : proper r ->
  in_sequence u32_max (sequence_of_range r) u32_max <-> fst r = u32_max \/ snd r = u32_max /\ fst r + 1 < u32_max.
Proof.
  destruct r as [a b]. unfold proper. cbn [fst snd]. intros (H1 & H2 & H3). pose proof max_big.
  assert (X : forall k, number u32_max (seq_or_uid_from k) = k).
  { intros k. unfold seq_or_uid_from. destruct (N.eqb_spec k u32_max); [now subst | reflexivity]. }
  unfold sequence_of_range. destruct (N.eqb_spec a b); cbn [orb].
  - cbn [in_sequence]. rewrite X. lia.
  - destruct (N.eqb_spec (sat_succ a) b) as [E | E]; unfold sat_succ in E;
      (destruct (N.ltb_spec a u32_max); [| lia]).
    + cbn [in_sequence]. rewrite X. lia.
    + destruct (N.eqb_spec b u32_max); cbn [in_sequence]; rewrite ?X; cbn [number]; lia.
Qed.
Lemma range_of_end q : v_sequence q = true -> in_sequence u32_max q u32_max -> 2 * fst (range_of q) <= 2 * u32_max <= 2 * snd (range_of q).
Proof.
  intros V H. pose proof (range_of_proper q V) as P. unfold proper in P. apply range_of_top in H; [| exact V].
  destruct H as (x & Hx & E). destruct q as [a | a b]; cbn [v_sequence bounds] in *; unfold range_of in *; cbn [sequence_normalize] in *.
  - destruct Hx as [<- | []]. cbn [fst snd] in *. rewrite E. unfold sat_succ. rewrite N.ltb_irrefl. lia.
  - apply andb_true_iff in V as [Va Vb]. pose proof (v_to_u32 a Va). pose proof (v_to_u32 b Vb).
    destruct (seq_or_uid_cmp a b) eqn:C; cbn [fst snd] in *.
    + assert (a = b) as <-.
      { destruct a, b; try discriminate C; [cbn in C; apply N.compare_eq in C; now subst | reflexivity]. }
      destruct Hx as [<- | [<- | []]]; rewrite E; unfold sat_succ; rewrite N.ltb_irrefl; lia.
    + apply cmp_lt in C; try assumption. assert (to_u32 b = u32_max) as -> by (destruct Hx as [<- | [<- | []]]; lia).
      unfold sat_succ. rewrite N.ltb_irrefl. lia.
    + apply cmp_gt in C; try assumption. assert (to_u32 a = u32_max) as -> by (destruct Hx as [<- | [<- | []]]; lia).
      unfold sat_succ. rewrite N.ltb_irrefl. lia.
Qed.
Lemma range_of_last q : v_sequence q = true -> fst (range_of q) = u32_max -> in_sequence u32_max q u32_max.
Proof.
  intros V H. pose proof (range_of_proper q V) as P. unfold proper in P. apply range_of_top; [exact V |].
  destruct q as [a | a b]; unfold range_of in H; cbn [sequence_normalize] in H; cbn [bounds].
  - exists a. split; [now left | exact H].
  - destruct (seq_or_uid_cmp a b); cbn [fst] in H; [exists a | exists a | exists b]; cbn; auto.
Qed.

(** Read with "*" as the greatest number: *)
Theorem C29_meaning_exact : forall s n, a_sequence_set s ->
  in_set u32_max (normalize s) n <->
  (n <> u32_max /\ in_set u32_max s n \/
   n = u32_max /\ (in_set u32_max s (n - 1) /\ in_set u32_max s (n - 2) \/
                   in_set u32_max s n /\ ~ in_set u32_max s (n - 1))).
Proof.
  intros s n A. pose proof (a_sequence_set_vset s A) as V. destruct (normalize_spec s V) as (m & E & C & X).
  pose proof (ranges_proper s V) as Pr. pose proof (canon_proper _ _ C X Pr) as P. pose proof max_big as B.
  assert (V' := V). unfold vset in V'. rewrite Forall_forall in V', P.
  assert (Half : forall k, k < u32_max -> in_set u32_max s k <-> cov m (2 * k + 1)).
  { intros k Hk. rewrite X. split.
    - intros (q & Hq & D). exists (range_of q). split; [now apply in_map |]. apply range_of_half; auto.
    - intros (r & Hr & D). apply in_map_iff in Hr as (q & <- & Hq). exists q. split; [exact Hq |]. apply range_of_half; auto. }
  destruct (N.eq_dec n u32_max) as [-> | Nn].
  - rewrite (Half (u32_max - 1)), (Half (u32_max - 2)) by lia. rewrite E. split.
    + intros (q & Hq & D). apply in_map_iff in Hq as (r & <- & Hr). specialize (P r Hr).
      apply sequence_of_range_top in D; [| exact P]. unfold proper in P. right. split; [reflexivity |].
      destruct D as [D | [D1 D2]].
      * right. split.
        -- assert (K : cov m (2 * u32_max)) by (exists r; split; [exact Hr | lia]). apply X in K as (r' & Hr' & K).
           destruct (N.eq_dec (fst r') u32_max) as [Q | Q].
           ++ apply in_map_iff in Hr' as (q & <- & Hq). exists q. split; [exact Hq |]. apply range_of_last; auto.
           ++ exfalso. rewrite Forall_forall in Pr. specialize (Pr r' Hr'). unfold proper in Pr.
              assert (K' : cov m (2 * u32_max - 1)) by (apply X; exists r'; split; [exact Hr' | lia]).
              apply (canon_first m r C Hr); [lia |]. now rewrite D.
        -- intros K. apply (canon_first m r C Hr); [lia |]. rewrite D. replace (2 * u32_max - 1) with (2 * (u32_max - 1) + 1) by lia. exact K.
      * left. split; exists r; (split; [exact Hr | lia]).
    + intros [[K _] | [_ [[H1 H2] | [H1 H2]]]]; [now contradiction K | |].
      * destruct H1 as (r & Hr & H1). destruct H2 as (r2 & Hr2 & H2).
        pose proof (P r Hr) as P1. pose proof (P r2 Hr2) as P2. unfold proper in *.
        exists (sequence_of_range r). split; [now apply in_map |]. apply sequence_of_range_top; [now apply P |].
        right. split; [lia |].
        destruct (N.eq_dec (fst r) (u32_max - 1)) as [Q | Q]; [| lia]. exfalso.
        (* the range below reaches the same point *)
        assert (L : 2 * (u32_max - 1) <= 2 * snd r2) by lia.
        apply (canon_first m r C Hr); [lia |]. exists r2. split; [exact Hr2 | lia].
      * destruct H1 as (q & Hq & D).
        assert (K : cov m (2 * u32_max)).
        { apply X. exists (range_of q). split; [now apply in_map |]. apply range_of_end; auto. }
        destruct K as (r & Hr & K). pose proof (P r Hr) as P1. unfold proper in P1.
        exists (sequence_of_range r). split; [now apply in_map |]. apply sequence_of_range_top; [now apply P |]. left.
        destruct (N.eq_dec (fst r) u32_max) as [| Q]; [assumption |]. exfalso. apply H2. exists r. split; [exact Hr | lia].
  - split.
    + intros H. left. split; [exact Nn |].
      assert (L : n < u32_max).
      { destruct H as (q & Hq & D). rewrite E in Hq. apply in_map_iff in Hq as (r & <- & Hr).
        pose proof (sequence_of_range_valid r (P r Hr)) as W. revert D W. generalize (sequence_of_range r). clear -Nn.
        intros [a | a b] D W; cbn [in_sequence v_sequence] in *.
        - apply v_to_u32 in W. assert (number u32_max a = to_u32 a) by now destruct a. lia.
        - apply andb_true_iff in W as [Wa Wb]. apply v_to_u32 in Wa, Wb.
          assert (number u32_max a = to_u32 a) by now destruct a. assert (number u32_max b = to_u32 b) by now destruct b. lia. }
      apply Half; [exact L |]. destruct H as (q & Hq & D). rewrite E in Hq. apply in_map_iff in Hq as (r & <- & Hr).
      exists r. split; [exact Hr |]. apply sequence_of_range_half; auto.
    + intros [[_ H] | [K _]]; [| contradiction].
      assert (L : n < u32_max).
      { destruct H as (q & Hq & D). pose proof (V' q Hq) as W. clear -Nn D W. destruct q as [a | a b]; cbn [in_sequence v_sequence] in *.
        - apply v_to_u32 in W. assert (number u32_max a = to_u32 a) by now destruct a. lia.
        - apply andb_true_iff in W as [Wa Wb]. apply v_to_u32 in Wa, Wb.
          assert (number u32_max a = to_u32 a) by now destruct a. assert (number u32_max b = to_u32 b) by now destruct b. lia. }
      apply Half in H as (r & Hr & D); [| exact L]. rewrite E. exists (sequence_of_range r). split; [now apply in_map |].
      apply sequence_of_range_half; auto.
Qed.
Print Assumptions C29_meaning_exact.

(** Sets without "*" *)
Definition no_asterisk (s : sequence_set) : Prop := forall q, In q s -> ~ In SAsterisk (bounds q).
Lemma no_asterisk_any s l l' n : no_asterisk s -> in_set l s n <-> in_set l' s n.
Proof.
  assert (K : forall l l', no_asterisk s -> in_set l s n -> in_set l' s n).
  { clear. intros l l' N (q & Hq & D). exists q. split; [exact Hq |]. specialize (N q Hq).
    destruct q as [[a |] | [a |] [b |]]; cbn [bounds in_sequence number] in *; auto; exfalso; apply N; cbn; auto. }
  intros N. split; now apply K.
Qed.
Theorem C29_meaning_without_asterisk : forall s largest n, a_sequence_set s -> no_asterisk s ->
  (forall v, has_value s v -> v + 1 < u32_max) ->
  no_asterisk (normalize s) /\ (in_set largest (normalize s) n <-> in_set largest s n).
Proof.
  intros s largest n A N B. pose proof (a_sequence_set_vset s A) as V. destruct (normalize_spec s V) as (m & E & C & X).
  pose proof (ranges_proper s V) as Pr. pose proof (canon_proper _ _ C X Pr) as P. pose proof max_big as M.
  assert (V' := V). unfold vset in V'. rewrite Forall_forall in V', P.
  assert (S : forall q, In q s -> snd (range_of q) < u32_max).
  { intros q Hq. specialize (N q Hq).
    assert (K : forall v, In (SValue v) (bounds q) -> v + 1 < u32_max) by (intros v Hv; apply B; exists q; auto).
    destruct q as [a | a b]; unfold range_of; cbn [sequence_normalize bounds] in *.
    - destruct a as [a |]; [| exfalso; apply N; cbn; auto]. specialize (K a (or_introl eq_refl)).
      cbn [snd to_u32]. unfold sat_succ. destruct (N.ltb_spec a u32_max); lia.
    - destruct a as [a |]; [| exfalso; apply N; cbn; auto]. destruct b as [b |]; [| exfalso; apply N; cbn; auto].
      pose proof (K a (or_introl eq_refl)). pose proof (K b (or_intror (or_introl eq_refl))). cbn [seq_or_uid_cmp].
      destruct (N.compare a b); cbn [snd to_u32]; unfold sat_succ;
        match goal with |- context [N.ltb ?x ?y] => destruct (N.ltb_spec x y) end; lia. }
  assert (Nn : no_asterisk (normalize s)).
  { rewrite E. intros q Hq. apply in_map_iff in Hq as (r & <- & Hr). destruct (ends m _ r C X Pr Hr) as (_ & (b & Hb & Eb)).
    apply in_map_iff in Hb as (q & <- & Hq). specialize (S q Hq). rewrite Eb in S. specialize (P r Hr). unfold proper in P.
    destruct r as [x y]. cbn [fst snd] in *. unfold sequence_of_range, seq_or_uid_from.
    destruct (N.eqb_spec x y); cbn [orb]; [lia |]. destruct (N.eqb_spec (sat_succ x) y); [| destruct (N.eqb_spec y u32_max); [lia |]].
    - destruct (N.eqb_spec x u32_max); [lia |]. cbn. intros [K | []]. discriminate.
    - destruct (N.eqb_spec x u32_max); [lia |]. destruct (N.eqb_spec (N.max y 2 - 1) u32_max); [lia |].
      cbn. intros [K | [K | []]]; discriminate. }
  split; [exact Nn |].
  assert (U : ~ in_set u32_max s u32_max /\ ~ in_set u32_max s (u32_max - 1)).
  { split; intros (q & Hq & D); specialize (V' q Hq); specialize (S q Hq).
    - apply range_of_end in D; [lia | exact V'].
    - apply range_of_half in D; [lia | exact V' | lia]. }
  rewrite (no_asterisk_any (normalize s) largest u32_max n Nn), (no_asterisk_any s largest u32_max n N).
  rewrite (C29_meaning_exact s n A). split.
  - intros [[_ H] | [-> [[H _] | [H _]]]]; [exact H | |]; exfalso; now apply U.
  - intros H. left. split; [| exact H]. intros ->. now apply U.
Qed.
Print Assumptions C29_meaning_without_asterisk.

(** "9,3:5,4:7" on a mailbox with 5 messages *)
Definition above_set : sequence_set := [SSingle (SValue 9); SRange (SValue 3) (SValue 5); SRange (SValue 4) (SValue 7)].
Example C29_without_asterisk_case : a_sequence_set above_set /\ no_asterisk above_set /\
  (forall v, has_value above_set v -> v + 1 < u32_max) /\
  normalize above_set = [SRange (SValue 3) (SValue 7); SSingle (SValue 9)].
Proof.
  assert (K : forall v, has_value above_set v -> 1 <= v <= 9).
  { intros v (q & Hq & Hb). cbn in Hq. destruct Hq as [<- | [<- | [<- | []]]]; cbn in Hb;
      repeat (destruct Hb as [Hb | Hb]; [injection Hb as <-; vm_compute; split; discriminate |]); destruct Hb. }
  pose proof max_val. split; [| split; [| split; [| reflexivity]]].
  - split; [discriminate |]. intros v Hv. apply K in Hv. unfold nonzero_u32. lia.
  - intros q Hq. cbn in Hq. destruct Hq as [<- | [<- | [<- | []]]]; cbn; intuition discriminate.
  - intros v Hv. apply K in Hv. lia.
Qed.
