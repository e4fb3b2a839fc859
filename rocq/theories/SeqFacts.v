(** Facts about sequence sets, for SeqProps.v. *)

From Verif Require Import Bytes BytesFacts Dec Nom Types SeqSet SeqSpec Valid.
From Coq Require Import Sorted Permutation.
Open Scope N_scope.

Lemma max_big : 4 < u32_max.
Proof. reflexivity. Qed.
Ltac mx := pose proof max_big; cbn [u32_max] in *; lia.

(** ** Ranges as closed intervals of half numbers *)
Definition cov (rs : list range) (x : N) : Prop :=
  exists r, In r rs /\ 2 * fst r <= x <= 2 * snd r.
Definition fine (r : range) : Prop := fst r <= snd r.

Inductive canon : list range -> Prop :=
| canon_nil : canon []
| canon_cons r l : fine r -> canon l -> Forall (fun s => snd r < fst s) l -> canon (r :: l).

Lemma cov_cons r l x : cov (r :: l) x <-> 2 * fst r <= x <= 2 * snd r \/ cov l x.
Proof.
  unfold cov. split.
  - intros (s & [-> | H] & E); eauto.
  - intros [E | (s & H & E)]; [exists r | exists s]; cbn; auto.
Qed.
Lemma cov_app a b x : cov (a ++ b) x <-> cov a x \/ cov b x.
Proof.
  unfold cov. split.
  - intros (s & H & E). apply in_app_or in H as [H | H]; eauto.
  - intros [(s & H & E) | (s & H & E)]; exists s; rewrite in_app_iff; auto.
Qed.
Lemma cov_perm a b x : Permutation a b -> cov a x -> cov b x.
Proof. intros P (r & H & E). exists r. split; [eapply Permutation_in; eassumption | exact E]. Qed.
Lemma cov_above l k x : Forall (fun s => k < fst s) l -> cov l x -> 2 * k + 2 <= x.
Proof.
  intros H (r & Hr & E). rewrite Forall_forall in H. specialize (H r Hr). cbn in H. lia.
Qed.

Lemma canon_unique a : forall b, canon a -> canon b -> (forall x, cov a x <-> cov b x) -> a = b.
Proof.
  induction a as [| r a IH]; intros b Ha Hb E.
  - destruct b as [| s b]; [reflexivity |]. exfalso. inversion Hb; subst.
    destruct (E (2 * fst s)) as [_ K]. destruct K as (? & [] & _). apply cov_cons. left. unfold fine in *. lia.
  - destruct b as [| s b].
    { exfalso. inversion Ha; subst. destruct (E (2 * fst r)) as [K _].
      destruct K as (? & [] & _). apply cov_cons. left. unfold fine in *. lia. }
    inversion Ha as [| r' a' Fr Ca Ga]; subst. inversion Hb as [| s' b' Fs Cb Gb]; subst.
    unfold fine in *.
    assert (Ef : fst r = fst s).
    { destruct (E (2 * fst r)) as [K _]. destruct (E (2 * fst s)) as [_ L].
      rewrite !cov_cons in K, L.
      destruct K as [K | K]; [left; lia | |].
      - destruct L as [L | L]; [left; lia | lia |]. apply (cov_above _ _ _ Ga) in L. lia.
      - apply (cov_above _ _ _ Gb) in K.
        destruct L as [L | L]; [left; lia | lia |]. apply (cov_above _ _ _ Ga) in L. lia. }
    assert (Es : snd r = snd s).
    { destruct (N.lt_total (snd r) (snd s)) as [H | [H | H]]; [| exact H |]; exfalso.
      - destruct (E (2 * snd r + 1)) as [_ K]. rewrite !cov_cons in K.
        destruct K as [K | K]; [left; lia | lia |]. apply (cov_above _ _ _ Ga) in K. lia.
      - destruct (E (2 * snd s + 1)) as [K _]. rewrite !cov_cons in K.
        destruct K as [K | K]; [left; lia | lia |]. apply (cov_above _ _ _ Gb) in K. lia. }
    assert (r = s) by (destruct r, s; cbn in *; congruence). subst s. f_equal.
    apply IH; try assumption. intros x. specialize (E x). rewrite !cov_cons in E. split; intros K.
    + pose proof (cov_above _ _ _ Ga K). destruct E as [E _]. destruct E as [E | E]; [now right | lia | exact E].
    + pose proof (cov_above _ _ _ Gb K). destruct E as [_ E]. destruct E as [E | E]; [now right | lia | exact E].
Qed.

(** ** Merging *)
Notation sorted_fst := (StronglySorted (fun r s : range => fst r <= fst s)).
Lemma merge_loop_spec rs : forall last, fine last -> Forall fine rs ->
  sorted_fst (last :: rs) ->
  canon (merge_loop last rs) /\ (forall x, cov (merge_loop last rs) x <-> cov (last :: rs) x) /\
  Forall (fun r => fst last <= fst r) (merge_loop last rs).
Proof.
  induction rs as [| r rs IH]; intros last Fl Frs S; cbn [merge_loop].
  - split; [constructor; auto; constructor |]. split; [reflexivity |].
    constructor; [lia | constructor].
  - inversion Frs as [| ? ? Fr Frs']; subst. inversion S as [| ? ? S' Hl]; subst.
    inversion S' as [| ? ? S'' Hr]; subst. inversion Hl as [| ? ? Lr Hl']; subst.
    unfold fine in *.
    destruct (N.leb_spec (fst r) (snd last)) as [H | H].
    + destruct (IH (fst last, N.max (snd last) (snd r))) as (C & E & G); cbn [fst snd]; try assumption.
      * lia.
      * constructor; assumption.
      * split; [exact C |]. split; [| exact G]. intros x. rewrite E. rewrite !cov_cons. cbn [fst snd].
        split; intros [K | K]; auto; [| | destruct K; auto].
        -- destruct (N.le_gt_cases x (2 * snd last)); [left; lia |]. right. left. lia.
        -- left. lia.
        -- left. lia.
    + destruct (IH r) as (C & E & G); try assumption. repeat split.
      * constructor; [exact Fl | exact C |].
        eapply Forall_impl; [| exact G]. intros s Hs. cbn in *. lia.
      * rewrite !cov_cons, E, cov_cons. tauto.
      * rewrite !cov_cons, E, cov_cons. tauto.
      * constructor; [lia |]. eapply Forall_impl; [| exact G]. intros s Hs. cbn in *. lia.
Qed.
Lemma merge_sorted_spec rs : Forall fine rs -> sorted_fst rs ->
  canon (merge_sorted rs) /\ forall x, cov (merge_sorted rs) x <-> cov rs x.
Proof.
  destruct rs as [| r rs]; intros Fr S; cbn [merge_sorted].
  - split; [constructor | reflexivity].
  - inversion Fr; subst. destruct (merge_loop_spec rs r) as (C & E & _); auto.
Qed.

(** ** Absorbing the singles *)
Definition owned (s : N) (rs : list range) : Prop :=
  exists r, In r rs /\ fst r <= s /\ sat_succ s <= snd r.
Definition bounded (r : range) : Prop := 1 <= fst r /\ fine r /\ snd r <= u32_max.

Lemma absorb_step_spec s r : bounded r -> 1 <= s ->
  let r' := fst (absorb_step s r) in
  snd r' = snd r /\ bounded r' /\
  (fst r' = fst r \/ fst r' = s /\ fst r = s + 1).
Proof.
  intros (H1 & H2 & H3) Hs. unfold absorb_step, fine, bounded in *.
  destruct (N.eqb_spec s (N.max (fst r) 2 - 1)) as [E |]; cbn [fst snd].
  - repeat split; try lia.
    unfold fine. cbn. lia.
  - destruct (N.eqb_spec s (snd r)) as [E |]; cbn [fst snd]; unfold fine; cbn [fst snd]; lia.
Qed.
Lemma absorb_removes_owned s rs : Forall bounded rs -> 1 <= s <= u32_max -> owned s rs ->
  absorb_removes s rs = true.
Proof.
  intros Hb Hs (r & Hr & H1 & H2). unfold absorb_removes. apply existsb_exists. exists r.
  split; [exact Hr |]. rewrite Forall_forall in Hb. destruct (Hb r Hr) as (B1 & B2 & B3).
  unfold absorb_step. destruct (N.eqb s (N.max (fst r) 2 - 1)); [reflexivity |].
  destruct (N.eqb_spec s (snd r)); [reflexivity |]. cbn [snd]. unfold range_contains, sat_succ in *.
  apply andb_true_iff. split; [now apply N.leb_le |]. apply N.ltb_lt.
  destruct (N.ltb_spec s u32_max); lia.
Qed.
Lemma absorb_ranges_spec s rs : Forall bounded rs -> 1 <= s <= u32_max -> owned s rs ->
  Forall bounded (absorb_ranges s rs) /\ (forall x, cov (absorb_ranges s rs) x <-> cov rs x) /\
  forall t, owned t rs -> owned t (absorb_ranges s rs).
Proof.
  intros Hb Hs (o & Ho & O1 & O2). rewrite Forall_forall in Hb. unfold absorb_ranges. repeat split.
  - apply Forall_forall. intros r' Hr'. apply in_map_iff in Hr' as (r & <- & Hr).
    apply absorb_step_spec; [now apply Hb | lia].
  - intros (r' & Hr' & E). apply in_map_iff in Hr' as (r & <- & Hr).
    destruct (absorb_step_spec s r (Hb r Hr) ltac:(lia)) as (E2 & _ & [E1 | [E1 E3]]).
    + rewrite E1, E2 in E. exists r. auto.
    + destruct (N.le_gt_cases (2 * fst r) x).
      * exists r. split; [exact Hr |]. rewrite E2 in E. lia.
      * exists o. split; [exact Ho |]. rewrite E1 in E. unfold sat_succ in O2.
        destruct (Hb r Hr) as (B1 & B2 & B3). unfold fine in *.
        destruct (N.ltb_spec s u32_max); lia.
  - intros (r & Hr & E). exists (fst (absorb_step s r)).
    split; [apply in_map_iff; eauto |].
    destruct (absorb_step_spec s r (Hb r Hr) ltac:(lia)) as (E2 & _ & [E1 | [E1 E3]]);
      rewrite E2; lia.
  - intros t (r & Hr & T1 & T2). exists (fst (absorb_step s r)).
    split; [apply in_map_iff; eauto |].
    destruct (absorb_step_spec s r (Hb r Hr) ltac:(lia)) as (E2 & _ & [E1 | [E1 E3]]);
      rewrite E2; lia.
Qed.
Lemma absorb_spec order : forall rs, Forall bounded rs ->
  (forall s, In s order -> 1 <= s <= u32_max /\ owned s rs) ->
  exists rs', absorb order rs = (rs', []) /\ Forall bounded rs' /\
    forall x, cov rs' x <-> cov rs x.
Proof.
  induction order as [| s order IH]; intros rs Hb Ho; cbn [absorb].
  - exists rs. split; [reflexivity |]. split; [exact Hb | reflexivity].
  - destruct (Ho s (or_introl eq_refl)) as (Hs & Os).
    destruct (absorb_ranges_spec s rs Hb Hs Os) as (Hb' & E & Ot).
    destruct (IH (absorb_ranges s rs) Hb') as (rs' & -> & Hb'' & E').
    { intros t Ht. destruct (Ho t (or_intror Ht)) as (? & ?). auto. }
    rewrite absorb_removes_owned by assumption. exists rs'. repeat split; auto.
    + intros K. apply E, E', K.
    + intros K. apply E', E, K.
Qed.

(** ** The ranges of a set *)
Definition vset (s : sequence_set) : Prop := Forall (fun q => v_sequence q = true) s.

Lemma v_to_u32 a : v_seq_or_uid a = true -> 1 <= to_u32 a <= u32_max.
Proof.
  destruct a as [n |]; cbn; intros H; [| mx].
  unfold v_nz32 in H. apply andb_true_iff in H as [H1 H2]. apply N.leb_le in H2.
  apply negb_true_iff, N.eqb_neq in H1. lia.
Qed.
Lemma cmp_lt a b : v_seq_or_uid a = true -> v_seq_or_uid b = true ->
  seq_or_uid_cmp a b = Lt -> to_u32 a <= to_u32 b.
Proof.
  intros Va Vb. apply v_to_u32 in Va, Vb. destruct a, b; cbn [to_u32 seq_or_uid_cmp] in *; try discriminate; intros H; try lia.
  change (n < n0) in H. lia.
Qed.
Lemma cmp_gt a b : v_seq_or_uid a = true -> v_seq_or_uid b = true ->
  seq_or_uid_cmp a b = Gt -> to_u32 b <= to_u32 a.
Proof.
  intros Va Vb. apply v_to_u32 in Va, Vb. destruct a, b; cbn [to_u32 seq_or_uid_cmp] in *; try discriminate; intros H; try lia.
  apply N.compare_gt_iff in H. lia.
Qed.
Lemma sat_succ_le a : a <= u32_max -> a <= sat_succ a <= u32_max.
Proof. unfold sat_succ. intros H. destruct (N.ltb_spec a u32_max); lia. Qed.
Lemma sat_succ_mono a b : a <= b -> sat_succ a <= sat_succ b.
Proof.
  unfold sat_succ. intros H.
  destruct (N.ltb_spec a u32_max), (N.ltb_spec b u32_max); lia.
Qed.

(** Non-empty, or the special range of a single [*] *)
Definition proper (r : range) : Prop :=
  1 <= fst r /\ snd r <= u32_max /\ (fst r < snd r \/ fst r = u32_max /\ snd r = u32_max).
Lemma proper_bounded r : proper r -> bounded r.
Proof. unfold proper, bounded, fine. lia. Qed.
Lemma proper_range a b : 1 <= a -> a <= b -> b <= u32_max -> proper (a, sat_succ b).
Proof.
  unfold proper, sat_succ. cbn. intros. destruct (N.ltb_spec b u32_max); lia.
Qed.
Lemma range_of_proper q : v_sequence q = true -> proper (range_of q).
Proof.
  destruct q as [a | a b]; unfold range_of; cbn [sequence_normalize v_sequence].
  - intros V. apply v_to_u32 in V. apply proper_range; lia.
  - intros V. apply andb_true_iff in V as [Va Vb].
    destruct (seq_or_uid_cmp a b) eqn:E.
    + apply v_to_u32 in Va. apply proper_range; lia.
    + apply cmp_lt in E; try assumption. apply v_to_u32 in Va, Vb. apply proper_range; lia.
    + apply cmp_gt in E; try assumption. apply v_to_u32 in Va, Vb. apply proper_range; lia.
Qed.
Lemma ranges_proper s : vset s -> Forall proper (map range_of s).
Proof.
  intros V. apply Forall_map. eapply Forall_impl; [| exact V]. apply range_of_proper.
Qed.
Lemma singles_in s n : In n (singles_of s) -> exists q, In q s /\ range_of q = (n, sat_succ n).
Proof.
  induction s as [| q s IH]; cbn [singles_of]; [intros [] |].
  unfold range_of. destruct (sequence_normalize q) as [i | a b] eqn:E.
  - intros H. assert (K : n = to_u32 i \/ In n (singles_of s)).
    { destruct (existsb (N.eqb (to_u32 i)) (singles_of s)); [auto |]. destruct H; auto. }
    destruct K as [-> | K].
    + exists q. rewrite E. cbn; auto.
    + destruct (IH K) as (q' & H1 & H2). exists q'. cbn; auto.
  - intros K. destruct (IH K) as (q' & H1 & H2). exists q'. cbn; auto.
Qed.

(** ** The result of normalisation *)
Lemma seq_or_uid_from_to n : to_u32 (seq_or_uid_from n) = n.
Proof. unfold seq_or_uid_from. destruct (N.eqb_spec n u32_max); cbn; auto. Qed.
Lemma sequence_of_range_key r : sequence_key (sequence_of_range r) = fst r.
Proof.
  destruct r as [a b]. unfold sequence_of_range.
  destruct (_ || _); [apply seq_or_uid_from_to |].
  destruct (N.eqb b u32_max); apply seq_or_uid_from_to.
Qed.
Lemma sort_by_sorted {A} (key : A -> N) l :
  StronglySorted (fun x y => key x <= key y) l -> sort_by key l = l.
Proof.
  induction 1 as [| x l S IH H]; [reflexivity |]. cbn [sort_by]. rewrite IH.
  destruct l as [| y l]; [reflexivity |]. cbn [insert_by].
  inversion H; subst. destruct (N.leb_spec (key x) (key y)); [reflexivity | lia].
Qed.
Lemma insert_by_perm {A} (key : A -> N) x l : Permutation (insert_by key x l) (x :: l).
Proof.
  induction l as [| y l IH]; cbn [insert_by]; [reflexivity |].
  destruct (N.leb (key x) (key y)); [reflexivity |]. rewrite IH. apply perm_swap.
Qed.
Lemma sort_by_perm {A} (key : A -> N) l : Permutation (sort_by key l) l.
Proof.
  induction l as [| x l IH]; cbn [sort_by]; [reflexivity |].
  rewrite insert_by_perm. now constructor.
Qed.
Lemma insert_by_sorted {A} (key : A -> N) x l :
  StronglySorted (fun x y => key x <= key y) l ->
  StronglySorted (fun x y => key x <= key y) (insert_by key x l).
Proof.
  induction 1 as [| y l S IH H]; cbn [insert_by]; [repeat constructor |].
  destruct (N.leb_spec (key x) (key y)) as [L | L].
  - constructor; [constructor; assumption |]. constructor; [assumption |].
    eapply Forall_impl; [| exact H]. cbn. lia.
  - constructor; [assumption |]. rewrite Forall_forall in *. intros z Hz.
    eapply Permutation_in in Hz; [| apply insert_by_perm]. destruct Hz as [-> | Hz]; [lia | auto].
Qed.
Lemma sort_by_sorts {A} (key : A -> N) l : StronglySorted (fun x y => key x <= key y) (sort_by key l).
Proof. induction l as [| x l IH]; cbn [sort_by]; [constructor | now apply insert_by_sorted]. Qed.
Lemma sort_by_some_sort : some_sort (sort_by fst).
Proof. intros l. split; [apply sort_by_perm | apply (sort_by_sorts (A := range) fst)]. Qed.

Lemma canon_keys l : canon l ->
  StronglySorted (fun x y => sequence_key x <= sequence_key y) (map sequence_of_range l).
Proof.
  induction 1 as [| r l Fr C IH G]; cbn [map]; constructor; [exact IH |].
  apply Forall_map. eapply Forall_impl; [| exact G]. intros s Hs. cbn in Hs.
  rewrite !sequence_of_range_key. unfold fine in Fr. lia.
Qed.
Lemma Forall_perm {A} (P : A -> Prop) a b : Permutation a b -> Forall P b -> Forall P a.
Proof.
  intros E H. rewrite Forall_forall in *. intros x Hx. apply H. eapply Permutation_in; eassumption.
Qed.
Lemma normalize_with_spec order sorter s : vset s -> some_order order (singles_of s) ->
  some_sort sorter ->
  exists m, normalize_with order sorter s = map sequence_of_range m /\
    canon m /\ forall x, cov m x <-> cov (map range_of s) x.
Proof.
  intros V Ho Hs. pose proof (ranges_proper s V) as Pr. unfold normalize_with.
  destruct (absorb_spec order (map range_of s)) as (rs & -> & Hb & E).
  - eapply Forall_impl; [| exact Pr]. apply proper_bounded.
  - intros n Hn. eapply Permutation_in in Hn; [| exact Ho].
    apply singles_in in Hn as (q & Hq & Eq).
    assert (Pq : proper (range_of q)).
    { rewrite Forall_forall in Pr. apply Pr, in_map, Hq. }
    rewrite Eq in Pq. unfold proper in Pq. cbn in Pq. split; [lia |].
    exists (range_of q). split; [now apply in_map |]. rewrite Eq. cbn. lia.
  - destruct (Hs rs) as (P & So).
    destruct (merge_sorted_spec (sorter rs)) as (C & E2); [| exact So |].
    + eapply Forall_perm; [exact P |]. eapply Forall_impl; [| exact Hb]. intros r (_ & ? & _). assumption.
    + exists (merge_sorted (sorter rs)). cbn [filter map]. rewrite app_nil_r.
      split; [apply sort_by_sorted, canon_keys, C |]. split; [exact C |].
      intros x. rewrite E2, <- E. split; apply cov_perm; [exact P | now apply Permutation_sym].
Qed.
Lemma normalize_with_unique o1 s1 o2 s2 s : vset s ->
  some_order o1 (singles_of s) -> some_order o2 (singles_of s) -> some_sort s1 -> some_sort s2 ->
  normalize_with o1 s1 s = normalize_with o2 s2 s.
Proof.
  intros V H1 H2 H3 H4.
  destruct (normalize_with_spec o1 s1 s V H1 H3) as (m & -> & C & E).
  destruct (normalize_with_spec o2 s2 s V H2 H4) as (m' & -> & C' & E').
  f_equal. apply canon_unique; try assumption. intros x. now rewrite E, E'.
Qed.
Lemma normalize_spec s : vset s ->
  exists m, normalize s = map sequence_of_range m /\
    canon m /\ forall x, cov m x <-> cov (map range_of s) x.
Proof. intros V. apply normalize_with_spec; [exact V | apply Permutation_refl | apply sort_by_some_sort]. Qed.

(** The ends of the merged ranges are ends of ranges of the set. *)
Lemma canon_last m r : canon m -> In r m -> ~ cov m (2 * snd r + 1).
Proof.
  induction 1 as [| s l Fs C IH G]; [intros [] |]. intros [-> | H] K; apply cov_cons in K.
  - destruct K as [K | K]; [lia |]. apply (cov_above _ _ _ G) in K. lia.
  - rewrite Forall_forall in G. specialize (G r H). unfold fine in *.
    destruct K as [K | K].
    + assert (fst r <= snd r).
      { clear -C H. induction C; [destruct H |]. destruct H as [-> | H]; auto. }
      lia.
    + now apply IH.
Qed.
Lemma canon_first m r : canon m -> In r m -> 1 <= fst r -> ~ cov m (2 * fst r - 1).
Proof.
  induction 1 as [| s l Fs C IH G]; [intros [] |]. intros [-> | H] L K; apply cov_cons in K.
  - destruct K as [K | K]; [lia |]. apply (cov_above _ _ _ G) in K. unfold fine in *. lia.
  - rewrite Forall_forall in G. specialize (G r H). cbn in G.
    destruct K as [K | K]; [lia |]. now apply IH.
Qed.
Lemma canon_fine m r : canon m -> In r m -> fst r <= snd r.
Proof. intros C H. induction C; [destruct H |]. destruct H as [-> | H]; auto. Qed.
Lemma ends m rs r : canon m -> (forall x, cov m x <-> cov rs x) -> Forall proper rs -> In r m ->
  (exists a, In a rs /\ fst a = fst r) /\ (exists b, In b rs /\ snd b = snd r).
Proof.
  intros C E P H. pose proof (canon_fine m r C H) as Fr.
  assert (K1 : cov rs (2 * fst r)) by (apply E; exists r; split; [exact H | lia]).
  assert (K2 : cov rs (2 * snd r)) by (apply E; exists r; split; [exact H | lia]).
  destruct K1 as (a & Ha & A). destruct K2 as (b & Hb & B).
  rewrite Forall_forall in P. pose proof (P a Ha) as Pa. pose proof (P b Hb) as Pb.
  unfold proper in *. split.
  - exists a. split; [exact Ha |]. destruct (N.eq_dec (fst a) (fst r)) as [| N]; [assumption |].
    exfalso. apply (canon_first m r C H); [lia |]. apply E. exists a. split; [exact Ha | lia].
  - exists b. split; [exact Hb |]. destruct (N.eq_dec (snd b) (snd r)) as [| N]; [assumption |].
    exfalso. apply (canon_last m r C H). apply E. exists b. split; [exact Hb | lia].
Qed.
Lemma canon_proper m rs : canon m -> (forall x, cov m x <-> cov rs x) -> Forall proper rs ->
  Forall proper m.
Proof.
  intros C E P. apply Forall_forall. intros r H.
  destruct (ends m rs r C E P H) as ((a & Ha & A) & (b & Hb & B)).
  rewrite Forall_forall in P. pose proof (P a Ha) as Pa. pose proof (P b Hb) as Pb.
  pose proof (canon_fine m r C H). unfold proper in *. rewrite <- A, <- B.
  destruct (N.eq_dec (fst r) (snd r)) as [Q | Q]; [| lia].
  (* a single point is only covered by the range of a single [*] *)
  assert (fst a < snd a -> False).
  { intros L. assert (K : cov m (2 * fst a + 1)) by (apply E; exists a; split; [exact Ha | lia]).
    apply (canon_last m r C H). now rewrite <- Q, <- A. }
  lia.
Qed.

(** ** Idempotence *)
Lemma sequence_of_range_valid r : proper r -> v_sequence (sequence_of_range r) = true.
Proof.
  destruct r as [a b]. unfold proper. cbn [fst snd]. intros (H1 & H2 & H3).
  assert (V : forall n, 1 <= n <= u32_max -> v_seq_or_uid (seq_or_uid_from n) = true).
  { intros n Hn. unfold seq_or_uid_from. destruct (N.eqb n u32_max); [reflexivity |].
    cbn. unfold v_nz32. apply andb_true_iff. split; [| now apply N.leb_le].
    apply negb_true_iff, N.eqb_neq. lia. }
  unfold sequence_of_range. destruct (_ || _); cbn [v_sequence]; [apply V; lia |].
  destruct (N.eqb b u32_max); cbn [v_sequence]; apply andb_true_iff; split; try reflexivity; apply V; lia.
Qed.
Lemma from_cmp a b : a < b -> seq_or_uid_cmp (seq_or_uid_from a) (seq_or_uid_from b) = Lt \/ u32_max < b.
Proof.
  intros H. unfold seq_or_uid_from.
  destruct (N.eqb_spec a u32_max), (N.eqb_spec b u32_max); cbn; auto; try (right; lia).
Qed.
Lemma sequence_of_range_normal r : proper r ->
  sequence_normalize (sequence_of_range r) = sequence_of_range r.
Proof.
  destruct r as [a b]. unfold proper. cbn [fst snd]. intros (H1 & H2 & H3). unfold sequence_of_range.
  destruct (N.eqb_spec a b); [reflexivity |]. cbn [orb].
  destruct (N.eqb_spec (sat_succ a) b) as [| N]; [reflexivity |]. unfold sat_succ in N.
  destruct (N.ltb_spec a u32_max); [| lia].
  destruct (N.eqb_spec b u32_max); cbn [sequence_normalize].
  - change SAsterisk with (seq_or_uid_from u32_max) at 1. 
    destruct (from_cmp a u32_max); [lia | now rewrite H0 | lia].
  - destruct (from_cmp a (N.max b 2 - 1)); [lia | now rewrite H0 | lia].
Qed.
Lemma range_of_sequence r : proper r -> range_of (sequence_of_range r) = r.
Proof.
  intros P. unfold range_of. rewrite sequence_of_range_normal by exact P.
  destruct r as [a b]. unfold proper in P. cbn [fst snd] in P. unfold sequence_of_range.
  destruct (N.eqb_spec a b); cbn [orb].
  - rewrite seq_or_uid_from_to. assert (a = u32_max) by lia. subst. reflexivity.
  - destruct (N.eqb_spec (sat_succ a) b) as [E | N]; [rewrite seq_or_uid_from_to; now subst |].
    destruct (N.eqb_spec b u32_max); rewrite !seq_or_uid_from_to; [now subst |].
    f_equal. unfold sat_succ in *. destruct (N.ltb_spec a u32_max); [| lia].
    destruct (N.ltb_spec (N.max b 2 - 1) u32_max); lia.
Qed.
Lemma normalize_valid s : vset s -> vset (normalize s).
Proof.
  intros V. destruct (normalize_spec s V) as (m & -> & C & E).
  pose proof (canon_proper _ _ C E (ranges_proper s V)) as P.
  apply Forall_map. eapply Forall_impl; [| exact P]. apply sequence_of_range_valid.
Qed.
Lemma map_id_on {A} (f : A -> A) l : Forall (fun x => f x = x) l -> map f l = l.
Proof. induction 1 as [| x l H _ IH]; cbn; [reflexivity | now rewrite H, IH]. Qed.
Lemma norm_set_normalize s : vset s -> norm_set s = normalize s.
Proof.
  intros V. unfold norm_set. destruct (normalize_spec s V) as (m & -> & C & E).
  pose proof (canon_proper _ _ C E (ranges_proper s V)) as P.
  apply map_id_on, Forall_map. eapply Forall_impl; [| exact P]. apply sequence_of_range_normal.
Qed.
Lemma normalize_idem s : vset s -> normalize (normalize s) = normalize s.
Proof.
  intros V. destruct (normalize_spec _ (normalize_valid s V)) as (m' & -> & C' & E').
  destruct (normalize_spec s V) as (m & Em & C & E).
  pose proof (canon_proper _ _ C E (ranges_proper s V)) as P.
  rewrite Em. f_equal. apply canon_unique; try assumption. intros x. rewrite E', Em.
  rewrite map_map, map_id_on; [reflexivity |]. eapply Forall_impl; [| exact P]. apply range_of_sequence.
Qed.
Lemma normalize_nonempty s : s <> [] -> vset s -> normalize s <> [].
Proof.
  intros N V. destruct (normalize_spec s V) as (m & -> & C & E).
  destruct s as [| q s]; [easy |]. inversion V; subst.
  pose proof (range_of_proper q H1) as P. unfold proper in P.
  destruct (E (2 * fst (range_of q))) as [_ K]. destruct m; [| discriminate].
  destruct K as (? & [] & _). cbn [map]. apply cov_cons. left. lia.
Qed.

(** ** The result is tidy *)
Lemma sequence_of_range_last r : proper r ->
  last_of (sequence_of_range r) + 1 = snd r \/ snd r = u32_max.
Proof.
  destruct r as [a b]. unfold proper. cbn [fst snd]. intros (H1 & H2 & H3). unfold sequence_of_range.
  destruct (N.eqb_spec b u32_max); [now right | left].
  destruct (N.eqb_spec a b); cbn [orb]; [lia |].
  destruct (N.eqb_spec (sat_succ a) b) as [E | E]; unfold sat_succ in E;
    (destruct (N.ltb_spec a u32_max); [| lia]); cbn [last_of]; rewrite seq_or_uid_from_to; lia.
Qed.
Lemma first_of_key q : first_of q = sequence_key q.
Proof. destruct q; reflexivity. Qed.
Lemma normalize_tidy s : vset s -> tidy (normalize s).
Proof.
  intros V. destruct (normalize_spec s V) as (m & -> & C & E).
  pose proof (canon_proper _ _ C E (ranges_proper s V)) as P. clear E V. split.
  - apply Forall_map. eapply Forall_impl; [| exact P]. intros [a b]. unfold proper. cbn [fst snd].
    intros (H1 & H2 & H3). unfold sequence_of_range. destruct (N.eqb_spec a b); cbn [orb]; [exact I |].
    destruct (N.eqb_spec (sat_succ a) b) as [Q | Q]; [exact I |]. unfold sat_succ in Q.
    destruct (N.ltb_spec a u32_max); [| lia].
    destruct (N.eqb_spec b u32_max); rewrite !seq_or_uid_from_to; cbn [to_u32]; lia.
  - revert P. induction C as [| r l Fr C IH G]; intros P; [constructor |]. inversion P; subst.
    cbn [map]. constructor; [now apply IH |]. apply Forall_map.
    rewrite Forall_forall in *. intros t Ht. specialize (G t Ht). specialize (H2 t Ht).
    rewrite first_of_key, sequence_of_range_key. unfold proper in H2.
    destruct (sequence_of_range_last r H1); lia.
Qed.

(** ** The meaning of a normalised set *)
Definition denotes (largest : N) (r : range) (n : N) : Prop :=
  if N.eqb (snd r) u32_max
  then (if N.eqb (fst r) u32_max then n = largest else fst r <= n <= largest)
  else fst r <= n < snd r.
(** No number is larger than [*], and none is one of the two largest of the type. *)
Definition small (largest : N) (a : seq_or_uid) : Prop :=
  match a with SValue n => n <= largest /\ n + 1 < u32_max | SAsterisk => True end.
Lemma range_of_denotes largest q n : v_sequence q = true ->
  Forall (small largest) (bounds q) -> largest <= u32_max ->
  in_sequence largest q n <-> denotes largest (range_of q) n.
Proof.
  intros V S L. destruct q as [[a |] | [a |] [b |]]; cbn [bounds] in S;
    repeat match goal with H : Forall _ (_ :: _) |- _ => inversion H; clear H; subst end;
    cbn [small] in *; unfold range_of; cbn [sequence_normalize seq_or_uid_cmp in_sequence number].
  - unfold denotes, sat_succ. cbn [to_u32 fst snd]. destruct (N.ltb_spec a u32_max); [| lia].
    destruct (N.eqb_spec (a + 1) u32_max); lia.
  - unfold denotes, sat_succ. cbn [to_u32 fst snd]. rewrite N.ltb_irrefl, N.eqb_refl. reflexivity.
  - destruct (N.compare_spec a b); unfold denotes, sat_succ; cbn [to_u32 fst snd].
    + destruct (N.ltb_spec a u32_max); [| lia]. destruct (N.eqb_spec (a + 1) u32_max); lia.
    + destruct (N.ltb_spec b u32_max); [| lia]. destruct (N.eqb_spec (b + 1) u32_max); lia.
    + destruct (N.ltb_spec a u32_max); [| lia]. destruct (N.eqb_spec (a + 1) u32_max); lia.
  - unfold denotes, sat_succ. cbn [to_u32 fst snd]. rewrite N.ltb_irrefl, N.eqb_refl.
    destruct (N.eqb_spec a u32_max); lia.
  - unfold denotes, sat_succ. cbn [to_u32 fst snd]. rewrite N.ltb_irrefl, N.eqb_refl.
    destruct (N.eqb_spec b u32_max); lia.
  - unfold denotes, sat_succ. cbn [to_u32 fst snd]. rewrite N.ltb_irrefl, N.eqb_refl. lia.
Qed.
Definition nice (largest : N) (r : range) : Prop :=
  proper r /\ (fst r = u32_max \/ fst r <= largest /\ fst r + 1 < u32_max) /\
  (snd r = u32_max \/ snd r <= largest + 1).
Lemma range_of_nice largest q : v_sequence q = true -> Forall (small largest) (bounds q) ->
  nice largest (range_of q).
Proof.
  intros V S. split; [now apply range_of_proper |].
  destruct q as [[a |] | [a |] [b |]]; cbn [bounds] in S;
    repeat match goal with H : Forall _ (_ :: _) |- _ => inversion H; clear H; subst end;
    cbn [small] in *; unfold range_of; cbn [sequence_normalize seq_or_uid_cmp].
  - unfold sat_succ. cbn [to_u32 fst snd]. destruct (N.ltb_spec a u32_max); lia.
  - unfold sat_succ. cbn [to_u32 fst snd]. rewrite N.ltb_irrefl. lia.
  - destruct (N.compare_spec a b); unfold sat_succ; cbn [to_u32 fst snd];
      match goal with |- context [N.ltb ?x ?y] => destruct (N.ltb_spec x y) end; lia.
  - unfold sat_succ. cbn [to_u32 fst snd]. rewrite N.ltb_irrefl. lia.
  - unfold sat_succ. cbn [to_u32 fst snd]. rewrite N.ltb_irrefl. lia.
  - unfold sat_succ. cbn [to_u32 fst snd]. rewrite N.ltb_irrefl. lia.
Qed.
Lemma sequence_of_range_denotes largest r n : nice largest r ->
  in_sequence largest (sequence_of_range r) n <-> denotes largest r n.
Proof.
  destruct r as [a b]. unfold nice, proper, denotes. cbn [fst snd]. intros ((H1 & H2 & H3) & H4 & H5).
  unfold sequence_of_range. destruct (N.eqb_spec a b); cbn [orb].
  - subst. assert (b = u32_max) by lia. subst. rewrite N.eqb_refl. cbn. reflexivity.
  - destruct (N.eqb_spec (sat_succ a) b) as [E | E]; unfold sat_succ in E;
      (destruct (N.ltb_spec a u32_max); [| lia]).
    + destruct (N.eqb_spec b u32_max); [lia |]. unfold seq_or_uid_from.
      destruct (N.eqb_spec a u32_max); [lia |]. cbn [in_sequence number]. lia.
    + unfold seq_or_uid_from. destruct (N.eqb_spec a u32_max); [lia |].
      destruct (N.eqb_spec b u32_max); cbn [in_sequence number]; [lia |].
      destruct (N.eqb_spec (N.max b 2 - 1) u32_max); [lia |]. cbn [number]. lia.
Qed.
Lemma denotes_cov largest rs n : Forall (nice largest) rs -> largest <= u32_max ->
  (exists r, In r rs /\ denotes largest r n) <->
  n <= largest /\ n < u32_max /\ cov rs (2 * n + 1) \/ n = largest /\ cov rs (2 * u32_max).
Proof.
  intros H L. rewrite Forall_forall in H. split.
  - intros (r & Hr & D). destruct (H r Hr) as ((P1 & P2 & P3) & P4 & P5). unfold denotes in D.
    destruct (N.eqb_spec (snd r) u32_max) as [E | E].
    + destruct (N.eqb_spec (fst r) u32_max) as [E' | E'].
      * right. split; [exact D |]. exists r. split; [exact Hr | lia].
      * destruct (N.eq_dec n u32_max) as [-> | Nn].
        -- right. split; [lia |]. exists r. split; [exact Hr | lia].
        -- left. split; [lia |]. split; [lia |]. exists r. split; [exact Hr | lia].
    + left. split; [lia |]. split; [lia |]. exists r. split; [exact Hr | lia].
  - intros [(H1 & H2 & r & Hr & C) | (-> & r & Hr & C)];
      destruct (H r Hr) as ((P1 & P2 & P3) & P4 & P5); exists r; (split; [exact Hr |]); unfold denotes.
    + destruct (N.eqb_spec (snd r) u32_max) as [E | E]; [| lia].
      destruct (N.eqb_spec (fst r) u32_max) as [E' | E']; lia.
    + destruct (N.eqb_spec (snd r) u32_max) as [E | E]; [| lia].
      destruct (N.eqb_spec (fst r) u32_max) as [E' | E']; lia.
Qed.
Lemma normalize_meaning largest s n : vset s -> largest <= u32_max ->
  (forall v, has_value s v -> v <= largest /\ v + 1 < u32_max) ->
  in_set largest (normalize s) n <-> in_set largest s n.
Proof.
  intros V L Hv.
  assert (S : forall q, In q s -> Forall (small largest) (bounds q)).
  { intros q Hq. apply Forall_forall. intros [v |] Hb; [| exact I]. apply Hv. exists q. auto. }
  unfold vset in V. pose proof V as V'. rewrite Forall_forall in V'.
  assert (Ns : Forall (nice largest) (map range_of s)).
  { apply Forall_map, Forall_forall. intros q Hq. apply range_of_nice; auto. }
  destruct (normalize_spec s V) as (m & -> & C & E).
  pose proof (ranges_proper s V) as Pr.
  pose proof (canon_proper _ _ C E Pr) as P.
  assert (Nm : Forall (nice largest) m).
  { apply Forall_forall. intros r Hr.
    destruct (ends m _ r C E Pr Hr) as ((a & Ha & A) & (b & Hb & B)).
    rewrite Forall_forall in Ns, P. pose proof (Ns a Ha) as (_ & Na & _).
    pose proof (Ns b Hb) as (_ & _ & Nb). rewrite A in Na. rewrite B in Nb.
    split; [now apply P | split; assumption]. }
  transitivity (exists r, In r m /\ denotes largest r n).
  { split.
    - intros (q & Hq & D). apply in_map_iff in Hq as (r & <- & Hr). exists r. split; [exact Hr |].
      apply sequence_of_range_denotes; [| exact D]. rewrite Forall_forall in Nm. auto.
    - intros (r & Hr & D). exists (sequence_of_range r). split; [now apply in_map |].
      apply sequence_of_range_denotes; [| exact D]. rewrite Forall_forall in Nm. auto. }
  rewrite denotes_cov by assumption. rewrite !E. rewrite <- denotes_cov by assumption.
  split.
  - intros (r & Hr & D). apply in_map_iff in Hr as (q & <- & Hq). exists q. split; [exact Hq |].
    apply range_of_denotes; auto.
  - intros (q & Hq & D). exists (range_of q). split; [now apply in_map |].
    apply range_of_denotes; auto.
Qed.

(** ** Iteration *)
(** [a], [a + 1], ..., [n] elements *)
Fixpoint upto (n : nat) (a : N) : list N :=
  match n with O => [] | S n' => a :: upto n' (a + 1) end.
Definition ascending (a b : N) : list N := upto (N.to_nat (b + 1 - a)) a.
Definition expand_pair (p : N * N) : list N :=
  let (a, b) := p in
  if N.leb a b then ascending a b else rev (ascending b a).
Definition expand_pairs (l : list (N * N)) : list N := flat_map expand_pair l.
Lemma in_upto k a n : In n (upto k a) <-> a <= n < a + N.of_nat k.
Proof.
  revert a. induction k as [| k IH]; intros a; cbn [upto In]; [lia |]. rewrite IH. lia.
Qed.
Lemma in_ascending a b n : In n (ascending a b) <-> a <= n <= b.
Proof. unfold ascending. rewrite in_upto. lia. Qed.
Lemma sorted_upto k a : StronglySorted N.lt (upto k a).
Proof.
  revert a. induction k as [| k IH]; intros a; cbn [upto]; constructor; [apply IH |].
  apply Forall_forall. intros x Hx. apply in_upto in Hx. lia.
Qed.
Lemma in_expand_pair p n : In n (expand_pair p) <-> fst p <= n <= snd p \/ snd p <= n <= fst p.
Proof.
  destruct p as [a b]. unfold expand_pair. cbn [fst snd].
  destruct (N.leb_spec a b); [rewrite in_ascending | rewrite <- in_rev, in_ascending]; lia.
Qed.
Lemma in_expand_pairs l n :
  In n (expand_pairs l) <-> exists p, In p l /\ (fst p <= n <= snd p \/ snd p <= n <= fst p).
Proof.
  unfold expand_pairs. rewrite in_flat_map. split; intros (p & Hp & H); exists p; split; auto;
    now apply in_expand_pair.
Qed.
Lemma in_simplify largest sort s n :
  (exists p, In p (simplify largest sort s) /\ (fst p <= n <= snd p \/ snd p <= n <= fst p)) <->
  in_set largest s n.
Proof.
  unfold in_set, simplify. split.
  - intros (p & Hp & H). apply in_map_iff in Hp as (q & <- & Hq). exists q. split; [exact Hq |].
    destruct q as [[a |] | [a |] [b |]]; cbn [in_sequence number expand] in *; destruct sort; cbn [fst snd] in H;
      repeat match type of H with context [N.leb ?x ?y] => destruct (N.leb_spec x y); cbn [fst snd] in H end; lia.
  - intros (q & Hq & H).
    exists (match q with
    | SSingle a => (expand largest a, expand largest a)
    | SRange a b =>
      let a := expand largest a in
      let b := expand largest b in
      if sort then (if N.leb a b then (a, b) else (b, a)) else (a, b)
    end). split; [now apply (in_map (fun q => match q with
    | SSingle a => (expand largest a, expand largest a)
    | SRange a b =>
      let a := expand largest a in
      let b := expand largest b in
      if sort then (if N.leb a b then (a, b) else (b, a)) else (a, b)
    end)) |].
    destruct q as [[a |] | [a |] [b |]]; cbn [in_sequence number expand] in *; destruct sort; cbn [fst snd];
      repeat match goal with |- context [N.leb ?x ?y] => destruct (N.leb_spec x y); cbn [fst snd] end; lia.
Qed.
Lemma ascending_step a b : a < b -> ascending a b = a :: ascending (a + 1) b.
Proof.
  intros H. unfold ascending. replace (N.to_nat (b + 1 - a)) with (S (N.to_nat (b + 1 - (a + 1)))) by lia.
  reflexivity.
Qed.
Lemma ascending_one a : ascending a a = [a].
Proof. unfold ascending. replace (N.to_nat (a + 1 - a)) with 1%nat by lia. reflexivity. Qed.
Lemma upto_snoc k a : upto (S k) a = upto k a ++ [a + N.of_nat k].
Proof.
  revert a. induction k as [| k IH]; intros a; [cbn; f_equal; lia |].
  change (upto (S (S k)) a) with (a :: upto (S k) (a + 1)). rewrite IH. cbn [upto app].
  do 3 f_equal. lia.
Qed.
Lemma ascending_last a b : a < b -> ascending a b = ascending a (b - 1) ++ [b].
Proof.
  intros H. unfold ascending. replace (N.to_nat (b + 1 - a)) with (S (N.to_nat (b - 1 + 1 - a))) by lia.
  rewrite upto_snoc. do 2 f_equal. lia.
Qed.
(** What is left of an active range *)
Definition left_ (r : range_inclusive) : list N :=
  if ri_exhausted r || N.ltb (ri_end r) (ri_start r) then [] else ascending (ri_start r) (ri_end r).
Definition left_of (a : option sorting) : list N :=
  match a with None => [] | Some (Ascending r) => left_ r | Some (Descending r) => rev (left_ r) end.
Lemma ri_next_left r : match ri_next r with None => left_ r = [] | Some (n, r') => left_ r = n :: left_ r' end.
Proof.
  destruct r as [a b e]. unfold left_, ri_next. cbn [ri_exhausted ri_start ri_end].
  destruct (e || N.ltb b a) eqn:E; [reflexivity |]. apply orb_false_iff in E as [-> E].
  apply N.ltb_ge in E. destruct (N.ltb_spec a b); cbn [ri_exhausted ri_start ri_end orb].
  - rewrite (proj2 (N.ltb_ge b (a + 1))) by lia. now apply ascending_step.
  - assert (a = b) by lia. subst. apply ascending_one.
Qed.
Lemma ri_next_back_left r :
  match ri_next_back r with None => left_ r = [] | Some (n, r') => left_ r = left_ r' ++ [n] end.
Proof.
  destruct r as [a b e]. unfold left_, ri_next_back. cbn [ri_exhausted ri_start ri_end].
  destruct (e || N.ltb b a) eqn:E; [reflexivity |]. apply orb_false_iff in E as [-> E].
  apply N.ltb_ge in E. destruct (N.ltb_spec a b); cbn [ri_exhausted ri_start ri_end orb].
  - rewrite (proj2 (N.ltb_ge (b - 1) a)) by lia. now apply ascending_last.
  - assert (a = b) by lia. subst. apply ascending_one.
Qed.
Lemma active_next_left a :
  match active_next a with None => left_of a = [] | Some (n, s) => left_of a = n :: left_of (Some s) end.
Proof.
  destruct a as [[r | r] |]; cbn [active_next sorting_next]; [| | reflexivity].
  - pose proof (ri_next_left r). destruct (ri_next r) as [[n r'] |]; exact H.
  - pose proof (ri_next_back_left r). destruct (ri_next_back r) as [[n r'] |]; cbn [option_map fst snd left_of];
      rewrite H; [apply rev_unit | reflexivity].
Qed.
Lemma start_range_left p : left_of (Some (start_range p)) = expand_pair p.
Proof.
  destruct p as [a b]. unfold start_range, expand_pair. destruct (N.leb_spec a b); cbn [left_of];
    unfold left_; cbn [ri_exhausted ri_start ri_end orb].
  - now rewrite (proj2 (N.ltb_ge b a)) by lia.
  - now rewrite (proj2 (N.ltb_ge a b)) by lia.
Qed.
Lemma iter_loop_left ranges : forall active,
  match left_of active ++ expand_pairs ranges with
  | [] => iter_loop ranges active = ItNone
  | n :: l => n <> 0 -> exists st, iter_loop ranges active = ItSome n st /\
      l = left_of (it_active st) ++ expand_pairs (it_ranges st)
  end.
Proof.
  induction ranges as [| p ranges IH]; intros active; cbn [iter_loop];
    pose proof (active_next_left active) as A; destruct (active_next active) as [[n s] |]; rewrite A; cbn [app].
  - intros Hn. apply N.eqb_neq in Hn. rewrite Hn. eexists. split; [reflexivity | reflexivity].
  - reflexivity.
  - intros Hn. apply N.eqb_neq in Hn. rewrite Hn. eexists. split; [reflexivity | reflexivity].
  - specialize (IH (Some (start_range p))). rewrite start_range_left in IH. exact IH.
Qed.
Lemma iter_yields l : forall st, l = left_of (it_active st) ++ expand_pairs (it_ranges st) ->
  Forall (fun n => n <> 0) l -> yields st l.
Proof.
  induction l as [| n l IH]; intros st E H; pose proof (iter_loop_left (it_ranges st) (it_active st)) as K;
    rewrite <- E in K.
  - now constructor.
  - inversion H; subst. destruct (K H2) as (st' & S & E'). econstructor; [exact S |]. now apply IH.
Qed.
Lemma expand_pairs_pos l : Forall (fun p => fst p <> 0 /\ snd p <> 0) l -> Forall (fun n => n <> 0) (expand_pairs l).
Proof.
  intros H. apply Forall_forall. intros n Hn. apply in_expand_pairs in Hn as (p & Hp & Hn).
  rewrite Forall_forall in H. specialize (H p Hp). lia.
Qed.
Lemma simplify_pos largest sort s : vset s -> 1 <= largest ->
  Forall (fun p => fst p <> 0 /\ snd p <> 0) (simplify largest sort s).
Proof.
  intros V L. apply Forall_map. eapply Forall_impl; [| exact V]. intros q Hq.
  assert (K : forall a, v_seq_or_uid a = true -> expand largest a <> 0).
  { intros a Ha. apply v_to_u32 in Ha. destruct a; cbn [expand to_u32] in *; lia. }
  destruct q as [a | a b]; cbn [v_sequence] in Hq.
  - apply K in Hq. cbn. lia.
  - apply andb_true_iff in Hq as [Ha Hb]. apply K in Ha, Hb. cbn.
    destruct sort; [destruct (N.leb_spec (expand largest a) (expand largest b)) |]; cbn; lia.
Qed.
Lemma yields_unique st l : yields st l -> forall l', yields st l' -> l = l'.
Proof.
  induction 1 as [st E | st n st' l E Y IH]; intros l' Y'; inversion Y'; subst; try congruence.
  rewrite E in H. injection H as <- <-. f_equal. now apply IH.
Qed.
Lemma nth_walk_up a b : a <= b -> ascending a b = walk a b.
Proof.
  intros H. unfold ascending, walk. destruct (N.leb_spec a b); [| lia].
  generalize (N.to_nat (b + 1 - a)). intros k. clear.
  assert (E : forall j, upto k (a + N.of_nat j) = map (fun i => a + N.of_nat i) (seq j k)).
  { induction k as [| k IH]; intros j; [reflexivity |]. cbn [upto seq map]. f_equal.
    rewrite <- IH. f_equal. lia. }
  specialize (E 0%nat). now rewrite N.add_0_r in E.
Qed.
Lemma nth_walk_down a b : b < a -> rev (ascending b a) = walk a b.
Proof.
  intros H. unfold ascending, walk. destruct (N.leb_spec a b); [lia |].
  assert (K : (N.to_nat (a + 1 - b) <= N.to_nat a + 1)%nat) by lia.
  remember (N.to_nat (a + 1 - b)) as k eqn:Ek.
  assert (E : b + N.of_nat k = a + 1) by lia. clear -E.
  revert a b E. induction k as [| k IH]; intros a b E; [reflexivity |].
  rewrite upto_snoc, rev_app_distr. cbn [rev app seq map]. f_equal; [lia |].
  rewrite <- seq_shift, map_map. destruct k as [| k]; [reflexivity |].
  rewrite (IH (a - 1) b) by lia. apply map_ext. intros i. lia.
Qed.
Lemma expand_walk a b : expand_pair (a, b) = walk a b.
Proof.
  unfold expand_pair. destruct (N.leb_spec a b).
  - apply nth_walk_up; lia.
  - apply nth_walk_down; lia.
Qed.
Lemma iter_naive_spec largest s : vset s -> 1 <= largest ->
  yields (iter_naive s largest) (flat_map (walk_sequence largest) s).
Proof.
  intros V L.
  assert (E : flat_map (walk_sequence largest) s = expand_pairs (simplify largest false s)).
  { unfold expand_pairs, simplify. clear. induction s as [| q s IH]; [reflexivity |].
    cbn [flat_map map]. rewrite <- IH. f_equal.
    destruct q as [a | a b]; unfold walk_sequence; rewrite <- expand_walk; reflexivity. }
  apply iter_yields; [exact E |]. rewrite E. apply expand_pairs_pos. now apply simplify_pos.
Qed.
Lemma iter_naive_pos largest s : vset s -> 1 <= largest ->
  Forall (fun n => n <> 0) (flat_map (walk_sequence largest) s).
Proof.
  intros V L.
  assert (E : flat_map (walk_sequence largest) s = expand_pairs (simplify largest false s)).
  { unfold expand_pairs, simplify. clear. induction s as [| q s IH]; [reflexivity |].
    cbn [flat_map map]. rewrite <- IH. f_equal.
    destruct q as [a | a b]; unfold walk_sequence; rewrite <- expand_walk; reflexivity. }
  rewrite E. apply expand_pairs_pos. now apply simplify_pos.
Qed.
Lemma in_walk largest s n : In n (flat_map (walk_sequence largest) s) <-> in_set largest s n.
Proof.
  unfold in_set. rewrite in_flat_map. split; intros (q & Hq & H); exists q; (split; [exact Hq |]).
  - destruct q; unfold walk_sequence in H; rewrite <- expand_walk in H; apply in_expand_pair in H;
      cbn [fst snd in_sequence] in *; lia.
  - destruct q; unfold walk_sequence; rewrite <- expand_walk; apply in_expand_pair;
      cbn [fst snd in_sequence] in *; lia.
Qed.

Definition good (p : N * N) : Prop := fst p <= snd p /\ snd p <= u32_max.
Lemma insert_pair_perm x l : Permutation (insert_pair x l) (x :: l).
Proof.
  induction l as [| y l IH]; cbn [insert_pair]; [reflexivity |].
  destruct (pair_leb x y); [reflexivity |]. rewrite IH. apply perm_swap.
Qed.
Lemma sort_pairs_perm l : Permutation (sort_pairs l) l.
Proof.
  induction l as [| x l IH]; cbn [sort_pairs]; [reflexivity |].
  rewrite insert_pair_perm. now constructor.
Qed.
Lemma insert_pair_sorted x l : sorted_fst l -> sorted_fst (insert_pair x l).
Proof.
  induction 1 as [| y l S IH H]; cbn [insert_pair]; [repeat constructor |].
  unfold pair_leb. destruct (N.ltb_spec (fst x) (fst y)) as [L | L]; cbn [orb].
  - constructor; [constructor; assumption |]. constructor; [lia |].
    eapply Forall_impl; [| exact H]. cbn. lia.
  - destruct (N.eqb_spec (fst x) (fst y)) as [E | E]; cbn [andb].
    + destruct (N.leb (snd x) (snd y)).
      * constructor; [constructor; assumption |]. constructor; [lia |].
        eapply Forall_impl; [| exact H]. cbn. lia.
      * constructor; [assumption |]. rewrite Forall_forall in *. intros z Hz.
        eapply Permutation_in in Hz; [| apply insert_pair_perm]. destruct Hz as [-> | Hz]; [lia | auto].
    + constructor; [assumption |]. rewrite Forall_forall in *. intros z Hz.
      eapply Permutation_in in Hz; [| apply insert_pair_perm]. destruct Hz as [-> | Hz]; [lia | auto].
Qed.
Lemma sort_pairs_sorted l : sorted_fst (sort_pairs l).
Proof. induction l as [| x l IH]; cbn [sort_pairs]; [constructor | now apply insert_pair_sorted]. Qed.

Inductive gaps : list (N * N) -> Prop :=
| gaps_nil : gaps []
| gaps_cons p l : good p -> gaps l -> Forall (fun q => snd p < fst q) l -> gaps (p :: l).
Lemma cleanup_loop_spec l : forall last, good last -> Forall good l -> sorted_fst (last :: l) ->
  gaps (cleanup_loop last l) /\
  Forall (fun q => fst last <= fst q) (cleanup_loop last l) /\
  forall n, (exists p, In p (cleanup_loop last l) /\ fst p <= n <= snd p) <->
            (exists p, In p (last :: l) /\ fst p <= n <= snd p).
Proof.
  induction l as [| [x y] l IH]; intros last G Gl S; cbn [cleanup_loop].
  - split; [repeat constructor; apply G |]. split; [repeat constructor; lia | reflexivity].
  - inversion Gl as [| ? ? Gx Gl']; subst. inversion S as [| ? ? S' Hl]; subst.
    inversion S' as [| ? ? S'' Hx]; subst. inversion Hl as [| ? ? Lx Hl']; subst. cbn [fst] in *.
    unfold good in G, Gx. cbn [fst snd] in Gx.
    destruct (N.leb_spec (fst last) x) as [_ | ?]; [| lia]. cbn [andb].
    destruct (N.leb_spec x (sat_succ (snd last))) as [H | H]; unfold sat_succ in H.
    + destruct (IH (fst last, N.max (snd last) y)) as (C & Lf & E); cbn [fst snd] in *; try assumption.
      * unfold good. cbn [fst snd]. lia.
      * constructor; assumption.
      * split; [exact C |]. split; [exact Lf |]. intros n. rewrite E. split.
        -- intros (p & [<- | Hp] & D); cbn [fst snd] in *.
           ++ destruct (N.le_gt_cases n (snd last)); [exists last | exists (x, y)]; cbn; split; auto; [lia |].
              destruct (N.ltb_spec (snd last) u32_max); lia.
           ++ exists p. cbn. auto.
        -- intros (p & [<- | [<- | Hp]] & D); cbn [fst snd] in *.
           ++ exists (fst last, N.max (snd last) y). cbn [fst snd]. split; [now left | lia].
           ++ exists (fst last, N.max (snd last) y). cbn [fst snd]. split; [now left | lia].
           ++ exists p. cbn. auto.
    + destruct (IH (x, y)) as (C & Lf & E); cbn [fst snd] in *; try assumption.
      split; [| split].
      * constructor; [exact G | exact C |]. eapply Forall_impl; [| exact Lf].
        intros q Hq. cbn in Hq |- *. destruct (N.ltb_spec (snd last) u32_max); lia.
      * constructor; [lia |]. eapply Forall_impl; [| exact Lf]. intros q Hq. cbn in Hq |- *. lia.
      * intros n. split.
        -- intros (p & [<- | Hp] & D); [exists last; cbn; auto |].
           destruct (proj1 (E n)) as (p' & Hp' & D'); [eauto |]. exists p'. cbn in *. tauto.
        -- intros (p & [<- | Hp] & D); [exists last; cbn; auto |].
           destruct (proj2 (E n)) as (p' & Hp' & D'); [eauto |]. exists p'. cbn in *. tauto.
Qed.
Lemma sorted_app a b : StronglySorted N.lt a -> StronglySorted N.lt b ->
  (forall x y, In x a -> In y b -> x < y) -> StronglySorted N.lt (a ++ b).
Proof.
  intros Sa Sb H. induction Sa as [| x a Sa IH Hx]; [exact Sb |]. cbn [app]. constructor.
  - apply IH. intros u v Hu Hv. apply H; [now right | exact Hv].
  - apply Forall_app. split; [exact Hx |]. apply Forall_forall. intros y Hy. apply H; [now left | exact Hy].
Qed.
Lemma gaps_sorted l : gaps l -> StronglySorted N.lt (expand_pairs l).
Proof.
  induction 1 as [| [a b] l G C IH H]; [constructor |]. unfold expand_pairs in *. cbn [flat_map].
  unfold good in G. cbn [fst snd] in *. apply sorted_app; [| exact IH |].
  - unfold expand_pair. destruct (N.leb_spec a b); [apply sorted_upto | lia].
  - intros x y Hx Hy. apply in_expand_pair in Hx. cbn [fst snd] in Hx.
    apply in_flat_map in Hy as ([c d] & Hp & Hy). apply in_expand_pair in Hy. cbn [fst snd] in Hy.
    rewrite Forall_forall in H. specialize (H _ Hp). cbn in H.
    assert (c <= d).
    { clear -C Hp. induction C; [destruct Hp |]. destruct Hp as [-> | Hp]; [apply H | auto]. }
    lia.
Qed.
Lemma simplify_good largest s : vset s -> 1 <= largest <= u32_max ->
  Forall good (simplify largest true s).
Proof.
  intros V L. apply Forall_map. eapply Forall_impl; [| exact V]. intros q Hq.
  assert (K : forall a, v_seq_or_uid a = true -> expand largest a <= u32_max).
  { intros a Ha. apply v_to_u32 in Ha. destruct a; cbn [expand to_u32] in *; lia. }
  destruct q as [a | a b]; cbn [v_sequence] in Hq; unfold good.
  - apply K in Hq. cbn. lia.
  - apply andb_true_iff in Hq as [Ha Hb]. apply K in Ha, Hb. cbn.
    destruct (N.leb_spec (expand largest a) (expand largest b)); cbn; lia.
Qed.
Lemma iter_spec largest s : vset s -> s <> [] -> 1 <= largest <= u32_max ->
  exists st l, iter s largest = Some st /\ yields st l /\ StronglySorted N.lt l /\
    forall n, In n l <-> in_set largest s n.
Proof.
  intros V Ns L. unfold iter, cleanup.
  pose proof (sort_pairs_perm (simplify largest true s)) as P.
  pose proof (sort_pairs_sorted (simplify largest true s)) as S.
  assert (G : Forall good (sort_pairs (simplify largest true s))).
  { eapply Forall_perm; [exact P |]. now apply simplify_good. }
  destruct (sort_pairs (simplify largest true s)) as [| x l] eqn:E.
  { exfalso. apply Permutation_nil in P. unfold simplify in P. destruct s; [easy | discriminate]. }
  inversion G; subst. destruct (cleanup_loop_spec l x) as (C & _ & D); auto.
  exists (IterState (cleanup_loop x l) None), (expand_pairs (cleanup_loop x l)). split; [reflexivity |].
  enough (Q : forall n, In n (expand_pairs (cleanup_loop x l)) <-> in_set largest s n).
  { split; [| split; [now apply gaps_sorted | exact Q]]. apply iter_yields; [reflexivity |].
    apply Forall_forall. intros n Hn. apply Q in Hn. apply in_walk in Hn. revert Hn.
    pose proof (iter_naive_pos largest s V) as K. rewrite Forall_forall in K. apply K. lia. }
  intros n. rewrite in_expand_pairs.
  rewrite <- (in_simplify largest true s n).
  assert (K : forall l, Forall good l -> (exists p, In p l /\ (fst p <= n <= snd p \/ snd p <= n <= fst p)) <->
    (exists p, In p l /\ fst p <= n <= snd p)).
  { intros l' Gl. rewrite Forall_forall in Gl. split; intros (p & Hp & K); exists p; (split; [exact Hp |]).
    - specialize (Gl p Hp). unfold good in Gl. lia.
    - now left. }
  rewrite K.
  2: { clear -C. induction C; constructor; auto. }
  rewrite D. rewrite (K (simplify largest true s)) by (now apply simplify_good).
  split; intros (p & Hp & Q); exists p; (split; [| exact Q]).
  - eapply Permutation_in; eassumption.
  - eapply Permutation_in; [apply Permutation_sym |]; eassumption.
Qed.
