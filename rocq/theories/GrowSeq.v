(** Writing a sequence set takes no more bytes than reading it took, also when it is normalised. *)

From Verif Require Import Bytes BytesFacts Dec Features Nom Types Utf8 SeqSet SeqSpec Valid SeqFacts EncodeCtx Encode EncodeFacts
  RtCore ValueSpec ValueFacts Grammar SizeSpec SizeFacts.
From Coq Require Import Sorted Permutation.
Open Scope nat_scope.

(** How many bytes are written. *)
Definition wl (o : list op) : nat := length (dump o).
Lemma wl_app a b : wl (a ++ b) = wl a + wl b.
Proof. unfold wl. now rewrite dump_app, app_length. Qed.
Lemma wl_W s : wl (W s) = length s.
Proof. unfold wl. now rewrite dump_W. Qed.
Lemma wl_B b o : wl (B b :: o) = 1 + wl o.
Proof. reflexivity. Qed.
Lemma wl_nil : wl [] = 0.
Proof. reflexivity. Qed.

(** ** Numbers *)
Lemma uint_length u : length (uint_bytes u) = Decimal.nb_digits u.
Proof. induction u; cbn; congruence. Qed.
Lemma bytes_uint_length s : forall u, bytes_uint s = Some u -> Decimal.nb_digits u = length s.
Proof.
  induction s as [| c s IH]; intros u; cbn [bytes_uint length].
  - intros H. now injection H as <-.
  - destruct (bytes_uint s) as [v |]; [| discriminate]. specialize (IH v eq_refl).
    destruct c; intros H; try discriminate; injection H as <-; cbn; now rewrite IH.
Qed.
Lemma dec_length t n : t <> [] -> digits t n -> length (dec n) <= length t.
Proof.
  intros N D. apply digits_spec in D as [D <-]. pose proof (undec_digits t N D) as U.
  unfold undec in U. destruct t as [| b t]; [contradiction |]. destruct (bytes_uint (b :: t)) as [u |] eqn:E; [| discriminate].
  cbn [option_map] in U. injection U as <-. unfold dec. rewrite DecimalN.Unsigned.to_of, uint_length.
  apply bytes_uint_length in E. rewrite <- E. apply DecimalFacts.nb_digits_unorm. intros ->. discriminate E.
Qed.
Lemma dec_pos n : 1 <= length (dec n).
Proof. pose proof (dec_nonempty n). destruct (dec n); [contradiction | cbn; lia]. Qed.

(** ** Ranges *)
Section Seq.
Context {F : features}.

Definition pl (n : N) : nat := wl (e_seq_or_uid (seq_or_uid_from n)).
Definition pe (b : N) : nat := if N.eqb b u32_max then 1 else pl (b - 1).
Definition rw (r : range) : nat := wl (e_seq_raw (sequence_of_range r)).
Lemma pl_max : pl u32_max = 1.
Proof. reflexivity. Qed.
Lemma pl_pos n : 1 <= pl n.
Proof.
  unfold pl, seq_or_uid_from. destruct (N.eqb n u32_max); cbn [e_seq_or_uid]; [cbn; lia |].
  unfold e_num. rewrite wl_W. apply dec_pos.
Qed.
Lemma pl_to a : pl (to_u32 a) <= wl (e_seq_or_uid a).
Proof.
  destruct a as [n |]; [| apply le_n]. cbn [to_u32]. unfold pl, seq_or_uid_from.
  destruct (N.eqb_spec n u32_max) as [-> |]; [| apply le_n]. cbn [e_seq_or_uid]. unfold e_num. rewrite !wl_W.
  change (length (bs "*")) with 1. apply dec_pos.
Qed.
Lemma rw_cases r : proper r ->
  (rw r = pl (fst r) /\ pe (snd r) <= pl (fst r)) \/ rw r = pl (fst r) + 1 + pe (snd r).
Proof.
  destruct r as [a b]. unfold proper, rw, sequence_of_range, pe. cbn [fst snd]. intros (H1 & H2 & H3).
  destruct (N.eqb_spec a b) as [-> | Hn]; cbn [orb].
  - left. split; [reflexivity |]. destruct H3 as [H3 | [_ ->]]; [lia |]. rewrite N.eqb_refl. reflexivity.
  - destruct (N.eqb_spec (sat_succ a) b) as [<- | Hs].
    + left. split; [reflexivity |]. unfold sat_succ. destruct (N.ltb_spec a u32_max).
      * destruct (N.eqb_spec (a + 1) u32_max); [apply pl_pos |]. now replace (a + 1 - 1)%N with a by lia.
      * apply pl_pos.
    + right. destruct (N.eqb_spec b u32_max) as [-> | Hm]; cbn [e_seq_raw]; rewrite !wl_app, wl_W;
        change (length (bs ":")) with 1; fold (pl a).
      * change (wl (e_seq_or_uid SAsterisk)) with 1. lia.
      * replace (N.max b 2 - 1)%N with (b - 1)%N by lia. fold (pl (b - 1)). lia.
Qed.
Lemma rw_range q : v_sequence q = true -> rw (range_of q) <= wl (e_seq_raw q).
Proof.
  assert (X : forall a b, v_seq_or_uid a = true -> v_seq_or_uid b = true -> (to_u32 a <= to_u32 b)%N ->
            rw (to_u32 a, sat_succ (to_u32 b)) <= wl (e_seq_or_uid a) + 1 + wl (e_seq_or_uid b)).
  { intros a b Va Vb L. apply v_to_u32 in Va, Vb. pose proof (pl_to a). pose proof (pl_to b).
    assert (P : pe (sat_succ (to_u32 b)) <= pl (to_u32 b)).
    { unfold pe, sat_succ. destruct (N.ltb_spec (to_u32 b) u32_max).
      - destruct (N.eqb_spec (to_u32 b + 1) u32_max); [apply pl_pos |].
        now replace (to_u32 b + 1 - 1)%N with (to_u32 b) by lia.
      - apply pl_pos. }
    destruct (rw_cases (to_u32 a, sat_succ (to_u32 b))) as [[E _] | E]; [apply proper_range; lia | |];
      cbn [fst snd] in E; lia. }
  assert (Y : forall a, v_seq_or_uid a = true -> rw (to_u32 a, sat_succ (to_u32 a)) <= wl (e_seq_or_uid a)).
  { intros a _. pose proof (pl_to a) as H. unfold rw, sequence_of_range. rewrite N.eqb_refl, orb_true_r. exact H. }
  destruct q as [a | a b]; unfold range_of; cbn [v_sequence sequence_normalize e_seq_raw].
  - apply Y.
  - intros V. apply andb_true_iff in V as [Va Vb]. rewrite !wl_app, wl_W. change (length (bs ":")) with 1.
    destruct (seq_or_uid_cmp a b) eqn:E.
    + specialize (Y a Va). lia.
    + apply cmp_lt in E; try assumption. specialize (X a b Va Vb E). lia.
    + apply cmp_gt in E; try assumption. specialize (X b a Vb Va E). lia.
Qed.
Lemma rw_merge a b : proper a -> proper b -> proper (fst a, N.max (snd a) (snd b)) ->
  rw (fst a, N.max (snd a) (snd b)) <= rw a + 1 + rw b.
Proof.
  intros Pa Pb Pm. destruct (N.max_spec (snd a) (snd b)) as [[L E] | [L E]]; rewrite E in *.
  - apply rw_cases in Pa, Pb, Pm. cbn [fst snd] in Pm. lia.
  - destruct a as [x y]. cbn [fst snd]. lia.
Qed.
Definition total (l : list range) : nat := list_size rw l.
Lemma total_merge rs : forall last, proper last -> Forall proper rs ->
  sorted_fst (last :: rs) -> total (merge_loop last rs) <= total (last :: rs).
Proof.
  induction rs as [| r rs IH]; intros last Pl Pr S; [apply le_n |]. cbn [merge_loop].
  inversion_clear Pr as [| ? ? P1 P2]. inversion_clear S as [| ? ? S1 S2]. inversion_clear S1 as [| ? ? S3 S4].
  inversion_clear S2 as [| ? ? S5 S6].
  destruct (N.leb_spec (fst r) (snd last)) as [H | H].
  - assert (Pm : proper (fst last, N.max (snd last) (snd r))) by (unfold proper in *; cbn [fst snd]; lia).
    etransitivity; [apply IH; [exact Pm | exact P2 | constructor; [exact S3 |]] |].
    + exact S6.
    + unfold total. rewrite ?list_size_cons. pose proof (rw_merge last r Pl P1 Pm). lia.
  - specialize (IH r P1 P2 (SSorted_cons _ S3 S4)). unfold total in *. rewrite ?list_size_cons in *. lia.
Qed.
Lemma total_perm a b : Permutation a b -> total a = total b.
Proof. unfold total. induction 1; rewrite ?list_size_cons in *; lia. Qed.
Lemma normalize_total s : vset s -> exists m, normalize s = map sequence_of_range m /\
  total m <= list_size (fun q => wl (e_seq_raw q)) s.
Proof.
  intros V. destruct (normalize_spec s V) as (m & E & C & Co). exists m. split; [exact E |].
  pose proof (ranges_proper s V) as P. destruct (sort_by_some_sort (map range_of s)) as [Pe So].
  assert (P' : Forall proper (sort_by fst (map range_of s))) by (eapply Forall_perm; eassumption).
  destruct (merge_sorted_spec (sort_by fst (map range_of s))) as [C' Co']; [| exact So |].
  { eapply Forall_impl; [| exact P']. intros r (H1 & H2 & H3). unfold fine. lia. }
  replace m with (merge_sorted (sort_by fst (map range_of s))).
  2: { apply canon_unique; try assumption. intros x. rewrite Co', Co. split; apply cov_perm; [exact Pe | now apply Permutation_sym]. }
  transitivity (total (sort_by fst (map range_of s))).
  - destruct (sort_by fst (map range_of s)) as [| r rs]; [apply le_n |]. inversion_clear P'. cbn [merge_sorted]. now apply total_merge.
  - rewrite (total_perm _ _ Pe). clear - V. unfold total. induction V as [| q s Vq V IH]; [apply le_n |].
    cbn [map]. rewrite !list_size_cons. pose proof (rw_range q Vq). lia.
Qed.

(** ** Sets *)
Lemma join_total {A} sep (e : A -> list op) l : wl sep = 1 ->
  wl (join sep e l) = list_size (fun a => wl (e a)) l - 1.
Proof.
  intros H. induction l as [| a l IH]; [reflexivity |]. cbn [join]. destruct l as [| b l].
  - cbn. lia.
  - rewrite !wl_app, H. change (wl (_ ++ _)) with (wl (join sep e (b :: l))). rewrite IH.
    rewrite ?list_size_cons. lia.
Qed.
Lemma list_size_map {A B} (f : B -> nat) (g : A -> B) l : list_size f (map g l) = list_size (fun a => f (g a)) l.
Proof. induction l as [| a l IH]; [reflexivity |]. cbn [map]. now rewrite !list_size_cons, IH. Qed.
Lemma raw_seq q : wl (e_seq_raw (sequence_normalize q)) <= wl (e_seq_raw q).
Proof.
  destruct q as [a | a b]; [apply le_n |]. cbn [sequence_normalize].
  destruct (seq_or_uid_cmp a b); cbn [e_seq_raw]; rewrite ?wl_app; lia.
Qed.
Lemma e_sequence_raw q : wl (e_sequence q) <= wl (e_seq_raw q).
Proof.
  unfold e_sequence. destruct quirk_always_normalize_sequence_sets; [apply (raw_seq q) | apply le_n].
Qed.
Lemma set_raw s : vset s -> wl (e_sequence_set s) <= wl (join (W (bs ",")) e_seq_raw s).
Proof.
  intros V. unfold e_sequence_set. rewrite !join_total by reflexivity.
  assert (M : forall l, list_size (fun q => wl (e_sequence q)) l <= list_size (fun q => wl (e_seq_raw q)) l).
  { induction l as [| q l IH]; [apply le_n |]. rewrite ?list_size_cons in *. pose proof (e_sequence_raw q). lia. }
  destruct quirk_always_normalize_sequence_sets; [| specialize (M s); lia].
  destruct (normalize_total s V) as (m & -> & T). specialize (M (map sequence_of_range m)). unfold total, rw in T.
  rewrite (list_size_map (fun q => wl (e_seq_raw q))) in M. lia.
Qed.
Lemma number_wl max t n : G_num max t n -> 1 <= wl (e_num n) <= length t.
Proof. intros (N & D & _). unfold e_num. rewrite wl_W. split; [apply dec_pos | now apply dec_length]. Qed.
Lemma seq_number_wl t a : G_seq_number t a -> v_seq_or_uid a = true /\ wl (e_seq_or_uid a) <= length t.
Proof.
  intros [t' n [H N] |]; [| split; [reflexivity | apply le_n]]. cbn [v_seq_or_uid e_seq_or_uid]. split.
  - unfold v_nz32. destruct H as (_ & _ & H). apply andb_true_iff. rewrite negb_true_iff, N.eqb_neq, N.leb_le. auto.
  - apply number_wl in H. lia.
Qed.
Lemma sequence_wl t q : G_sequence t q -> v_sequence q = true /\ wl (e_seq_raw q) <= length t.
Proof.
  intros [t' a H | t' a u b Ha Hb]; cbn [v_sequence e_seq_raw].
  - now apply seq_number_wl.
  - apply seq_number_wl in Ha as [Va Ha], Hb as [Vb Hb]. rewrite Va, Vb. split; [reflexivity |].
    rewrite !wl_app, !app_length, wl_W. lia.
Qed.
Lemma sequence_set_wl t s : G_sequence_set t s -> 1 <= wl (e_sequence_set s) <= length t.
Proof.
  intros G. assert (X : vset s /\ s <> [] /\ list_size (fun q => wl (e_seq_raw q)) s <= 1 + length t).
  { induction G as [t a H | t a u l H _ (V & _ & IH)]; apply sequence_wl in H as [Va H].
    - split; [repeat constructor; assumption |]. split; [discriminate |]. cbn. lia.
    - split; [constructor; assumption |]. split; [discriminate |]. rewrite !app_length.
      change (length (bs ",")) with 1. rewrite ?list_size_cons in *. lia. }
  destruct X as (V & N & X). pose proof (set_raw s V) as R. rewrite (join_total (W (bs ",")) e_seq_raw) in R by reflexivity.
  split; [| lia].
  assert (P : forall a, 1 <= wl (e_seq_or_uid a)).
  { intros [n |]; cbn [e_seq_or_uid]; [unfold e_num; rewrite wl_W; apply dec_pos | apply le_n]. }
  assert (Q : forall q, 1 <= wl (e_sequence q)).
  { intros q. unfold e_sequence. destruct (if quirk_always_normalize_sequence_sets then sequence_normalize q else q) as [a | a b];
      [apply P |]. rewrite wl_app. pose proof (P a). lia. }
  assert (K : forall l, l <> [] -> 1 <= list_size (fun q => wl (e_sequence q)) l - 1).
  { intros [| q l] K; [contradiction |]. rewrite list_size_cons. pose proof (Q q). lia. }
  unfold e_sequence_set. rewrite join_total by reflexivity. apply K.
  destruct quirk_always_normalize_sequence_sets; [now apply normalize_nonempty | exact N].
Qed.
End Seq.
