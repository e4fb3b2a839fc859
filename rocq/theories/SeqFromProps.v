(** C30: what every text and every range is converted to.

    [C30_from_str], [C30_range] and their neighbours (SeqProps.v) leave out the texts with a
    "+", the empty ranges, the half-open ranges of [NonZeroU32] and the greatest number of the
    type, for which the conversions do not give what was asked for. Here it is said for all
    texts and all ranges what they give. *)

From Verif Require Import Bytes BytesFacts Dec Features Nom Types SeqSet EncodeCtx Encode Valid
  SeqSpec SeqFacts SeqText SeqProps.
Open Scope N_scope.

(** ** Text *)

(** The grammar that is accepted: a number of a sequence set may also be a "+" and digits,
    which may begin with zeros. *)
Definition plus_number (s : bytes) (n : N) : Prop :=
  exists d, s = bs "+" ++ d /\ d <> [] /\ forallb is_digit d = true /\ n = dval d /\ 1 <= n <= u32_max.
Definition read_seq_number (s : bytes) (x : seq_or_uid) : Prop :=
  match x with SValue n => number_text s n \/ plus_number s n | SAsterisk => s = bs "*" end.
Definition read_sequence (s : bytes) (x : sequence) : Prop :=
  match x with
  | SSingle a => read_seq_number s a
  | SRange a b => exists u v, s = u ++ bs ":" ++ v /\ read_seq_number u a /\ read_seq_number v b
  end.
Fixpoint read_sequence_set (s : bytes) (x : sequence_set) : Prop :=
  match x with
  | [] => False
  | [q] => read_sequence s q
  | q :: x' => exists u v, s = u ++ bs "," ++ v /\ read_sequence u q /\ read_sequence_set v x'
  end.

Lemma read_seq_number_iff s x : seq_or_uid_from_str s = Some x <-> read_seq_number s x.
Proof.
  destruct s as [| c s]; [split; [discriminate |] |].
  { destruct x as [n |]; [intros [(_ & K & _) | (d & K & _)]; easy | discriminate]. }
  destruct (beq_spec c "+"%byte) as [-> | Hc].
  - unfold seq_or_uid_from_str. change (beqs ("+"%byte :: s) (bs "*")) with false.
    change (starts_with (bs "0") ("+"%byte :: s)) with false. cbn iota.
    split.
    + destruct s as [| d s]; [discriminate |]. unfold nz_u32_from_str. rewrite ?beq_refl.
      unfold parse_max. destruct (undec (d :: s)) as [n |] eqn:U; [| discriminate].
      destruct (N.leb_spec n u32_max); [| discriminate]. unfold nz.
      destruct (N.eqb_spec n 0); [discriminate |]. intros [= <-].
      apply undec_some in U as (Ne & D & E). right. exists (d :: s). repeat split; try assumption. lia.
    + destruct x as [n |]; [| discriminate]. intros [(D & _) | (d & E & Ne & D & -> & L1 & L2)]; [discriminate |].
      injection E as ->. destruct d as [| c d]; [easy |]. unfold nz_u32_from_str. rewrite ?beq_refl.
      unfold parse_max. rewrite (undec_digits _ Ne D). apply N.leb_le in L2. rewrite L2. unfold nz.
      destruct (N.eqb_spec (dval (c :: d)) 0); [lia | reflexivity].
  - assert (S : nz_u32_from_str (c :: s) =
        match parse_max u32_max (c :: s) with Some n => nz n | None => None end).
    { unfold nz_u32_from_str. destruct s; [reflexivity |].
      destruct (beq_spec c "+"%byte); [easy | reflexivity]. }
    assert (R : read_seq_number (c :: s) x <-> seq_number_text (c :: s) x).
    { destruct x as [n |]; cbn [read_seq_number seq_number_text]; [| reflexivity].
      split; [| now left]. intros [H | (d & E & _)]; [exact H |]. injection E as E _. easy. }
    rewrite R. clear R. unfold seq_or_uid_from_str. rewrite S. destruct (beqs (c :: s) (bs "*")) eqn:E.
    + apply beqs_eq in E. rewrite E. split.
      * intros [= <-]. reflexivity.
      * destruct x as [n |]; [intros (D & _); discriminate D | reflexivity].
    + destruct (starts_with (bs "0") (c :: s)) eqn:Z.
      * split; [discriminate |]. destruct x as [n |]; [intros (_ & _ & K & _); congruence |].
        intros K. rewrite K in E. discriminate E.
      * unfold parse_max. split.
        -- destruct (undec (c :: s)) as [n |] eqn:U; [| discriminate].
           destruct (N.leb_spec n u32_max); [| discriminate]. unfold nz.
           destruct (N.eqb_spec n 0); [discriminate |]. intros [= <-].
           apply undec_some in U as (Ne & D & ->). repeat split; assumption.
        -- destruct x as [n |]; [| intros K; rewrite K in E; discriminate E]. intros T.
           pose proof (number_text_pos _ _ T) as Pn. destruct T as (D & Ne & _ & -> & L).
           rewrite (undec_digits _ Ne D). apply N.leb_le in L. rewrite L. unfold nz.
           apply N.eqb_neq in Pn. now rewrite Pn.
Qed.
Lemma read_seq_number_lacks c s x : is_digit c = false -> c <> "*"%byte -> c <> "+"%byte ->
  read_seq_number s x -> lacks c s.
Proof.
  intros Hc Hs Hp. destruct x; cbn [read_seq_number].
  - intros [(H & _) | (d & -> & _ & H & _)]; [now apply digits_lack |].
    intros [K | K]; [apply Hp; now symmetry |]. now apply (digits_lack c d Hc H).
  - intros -> [K | []]. now apply Hs.
Qed.
Lemma read_sequence_lacks s x : read_sequence s x -> lacks ","%byte s.
Proof.
  destruct x as [a | a b]; cbn [read_sequence].
  - apply read_seq_number_lacks; [reflexivity | discriminate | discriminate].
  - intros (u & v & -> & Hu & Hv).
    apply lacks_app; [| apply lacks_app].
    + eapply read_seq_number_lacks; [reflexivity | discriminate | discriminate | exact Hu].
    + now intros [K | []].
    + eapply read_seq_number_lacks; [reflexivity | discriminate | discriminate | exact Hv].
Qed.
Lemma read_sequence_iff s x : sequence_from_str s = Some x <-> read_sequence s x.
Proof.
  unfold sequence_from_str. split.
  - destruct (split_inv ":"%byte s) as [[L ->] | (u & v & -> & L & ->)].
    + destruct (seq_or_uid_from_str s) as [a |] eqn:E; [| discriminate]. intros [= <-].
      now apply read_seq_number_iff in E.
    + destruct (split_inv ":"%byte v) as [[L' ->] | (u' & v' & -> & L' & ->)].
      * destruct (seq_or_uid_from_str u) as [a |] eqn:Ea; [| discriminate].
        destruct (seq_or_uid_from_str v) as [b |] eqn:Eb; [| discriminate]. intros [= <-].
        apply read_seq_number_iff in Ea. apply read_seq_number_iff in Eb.
        exists u, v. repeat split; assumption.
      * destruct (split_on ":"%byte v') eqn:E'; [| discriminate].
        destruct (split_inv ":"%byte v') as [[? K] | (? & ? & ? & ? & K)]; congruence.
  - destruct x as [a | a b]; cbn [read_sequence].
    + intros T. rewrite split_none.
      * apply read_seq_number_iff in T. now rewrite T.
      * eapply read_seq_number_lacks; [reflexivity | discriminate | discriminate | exact T].
    + intros (u & v & -> & Ta & Tb).
      change (u ++ bs ":" ++ v) with (u ++ ":"%byte :: v).
      rewrite split_some by (eapply read_seq_number_lacks; [reflexivity | discriminate | discriminate | exact Ta]).
      rewrite split_none by (eapply read_seq_number_lacks; [reflexivity | discriminate | discriminate | exact Tb]).
      apply read_seq_number_iff in Ta. apply read_seq_number_iff in Tb. now rewrite Ta, Tb.
Qed.
Lemma same_split (c : byte) u v u' v' : lacks c u -> lacks c u' -> u ++ c :: v = u' ++ c :: v' -> u = u' /\ v = v'.
Proof.
  revert u'. induction u as [| a u IH]; intros [| b u'] L L' E; cbn [app] in E.
  - now injection E as ->.
  - injection E as <- _. exfalso. apply L'. now left.
  - injection E as -> _. exfalso. apply L. now left.
  - injection E as <- E. destruct (IH u' (fun K => L (or_intror K)) (fun K => L' (or_intror K)) E). now subst.
Qed.
Lemma read_split s x :
  sequence_opt (map sequence_from_str (split_on ","%byte s)) = Some x <-> read_sequence_set s x.
Proof.
  revert x. induction s as [s L | u v L IH] using (split_ind ","%byte); intros x.
  - rewrite split_none by assumption. cbn [map sequence_opt].
    destruct x as [| q' [| q'' x]]; cbn [read_sequence_set].
    + destruct (sequence_from_str s); split; easy.
    + rewrite <- read_sequence_iff. destruct (sequence_from_str s); cbn [option_map]; split; congruence.
    + split; [destruct (sequence_from_str s); discriminate |].
      intros (u & v & -> & _). exfalso. apply L. apply in_or_app. right. now left.
  - rewrite split_some by assumption. cbn [map sequence_opt].
    destruct x as [| q' [| q'' x]].
    + split; [| intros []]. destruct (sequence_from_str u); [| discriminate]. destruct (sequence_opt _); discriminate.
    + split.
      * destruct (sequence_from_str u); [| discriminate].
        destruct (sequence_opt _) as [x' |] eqn:E; [| discriminate]. cbn [option_map]. intros [= -> ->].
        destruct (proj1 (IH []) eq_refl).
      * cbn [read_sequence_set]. intros T. exfalso. apply read_sequence_lacks in T. apply T.
        apply in_or_app. right. now left.
    + split.
      * destruct (sequence_from_str u) as [q |] eqn:E; [| discriminate]. apply read_sequence_iff in E.
        destruct (sequence_opt _) as [x' |] eqn:E'; [| discriminate]. cbn [option_map]. intros [= -> ->].
        pose proof (proj1 (IH (q'' :: x)) eq_refl). exists u, v. repeat split; assumption.
      * intros (u' & v' & Es & Tu & Tv).
        destruct (same_split ","%byte u v u' v' L (read_sequence_lacks _ _ Tu) Es) as [<- <-].
        apply read_sequence_iff in Tu. rewrite Tu. apply (IH (q'' :: x)) in Tv. now rewrite Tv.
Qed.
(** Every text is converted exactly as this grammar says. *)
Theorem C30_from_str_exact : forall s x,
  sequence_set_from_str s = Some x <-> read_sequence_set s x.
Proof.
  intros s x. rewrite <- read_split. unfold sequence_set_from_str.
  destruct (sequence_opt _) as [[| q l] |] eqn:E; try reflexivity. exfalso.
  now apply read_split in E.
Qed.
Print Assumptions C30_from_str_exact.
Example C30_from_str_exact_case :
  sequence_set_from_str (bs "+05:*,7") = Some [SRange (SValue 5) SAsterisk; SSingle (SValue 7)] /\
  sequence_set_from_str (bs "++5") = None /\ sequence_set_from_str (bs "+") = None /\
  sequence_set_from_str (bs "+0") = None /\ sequence_set_from_str (bs "05") = None.
Proof. repeat split; reflexivity. Qed.

(** ** Ranges *)

(** From [start..stop] of any integer type (with minimum [tmin]): both [start] and [stop - 1]
    must be numbers of messages, and the result is what lies between them, in whichever order. *)
Theorem C30_range_exact : forall tmin start stop,
  (tmin <= 0)%Z -> (tmin <= start)%Z -> (tmin <= stop)%Z ->
  (exists q, seq_from_range tmin start stop = Some q) <->
  (1 <= start <= Z.of_N u32_max /\ 1 <= stop - 1 <= Z.of_N u32_max)%Z.
Proof.
  intros tmin start stop H0 H1 H2. unfold seq_from_range. num; (split; [intros [q E]; try discriminate; lia |]);
    intros K; try lia; eexists; reflexivity.
Qed.
Theorem C30_range_meaning_exact : forall tmin start stop q, (tmin <= 0)%Z ->
  seq_from_range tmin start stop = Some q ->
  forall largest n, in_sequence largest q n <->
    (start <= Z.of_N n <= stop - 1 \/ stop - 1 <= Z.of_N n <= start)%Z.
Proof.
  intros tmin start stop q H0. unfold seq_from_range. num; intros E; try discriminate E. injection E as <-.
  intros largest n. cbn [in_sequence number]. lia.
Qed.
Theorem C30_range_inclusive_exact : forall start stop,
  ((exists q, seq_from_range_incl start stop = Some q) <->
   (1 <= start <= Z.of_N u32_max /\ 1 <= stop <= Z.of_N u32_max)%Z) /\
  forall q, seq_from_range_incl start stop = Some q ->
  forall largest n, in_sequence largest q n <->
    (start <= Z.of_N n <= stop \/ stop <= Z.of_N n <= start)%Z.
Proof.
  intros start stop. unfold seq_from_range_incl. split.
  - num; (split; [intros [q E]; try discriminate; lia |]); intros K; try lia; eexists; reflexivity.
  - num; intros q E; try discriminate E. injection E as <-. intros largest n. cbn [in_sequence number]. lia.
Qed.
(** An empty range [start..stop] is rejected only if [start < 1] or [stop <= 1]; otherwise the
    result is never empty: it holds [start]. *)
Theorem C30_empty_range_exact : forall tmin start stop,
  (tmin <= 0)%Z -> (tmin <= start)%Z -> (tmin <= stop <= start)%Z -> (start <= Z.of_N u32_max)%Z ->
  match seq_from_range tmin start stop with
  | Some q => forall largest, in_sequence largest q (Z.to_N start)
  | None => (stop <= 1)%Z
  end.
Proof.
  intros tmin start stop H0 H1 H2 H3. unfold seq_from_range. num. intros largest. cbn [in_sequence number]. lia.
Qed.
(** From [start..] of any integer type: the numbers between [start] and the largest message, in
    whichever order, as "start:*" means. *)
Theorem C30_range_from_exact : forall start,
  ((exists q, seq_from_range_from start = Some q) <-> (1 <= start <= Z.of_N u32_max)%Z) /\
  forall q, seq_from_range_from start = Some q ->
  forall largest n, in_sequence largest q n <->
    (start <= Z.of_N n <= Z.of_N largest \/ Z.of_N largest <= Z.of_N n <= start)%Z.
Proof.
  intros start. unfold seq_from_range_from. split.
  - num; (split; [intros [q E]; try discriminate; lia |]); intros K; try lia; eexists; reflexivity.
  - num; intros q E; try discriminate E. injection E as <-. intros largest n. cbn [in_sequence number]. lia.
Qed.

(** From [start..stop] of [NonZeroU32]: [start] does not matter at all; the result is the
    numbers before [stop], and there is none for [stop = 1]. *)
Theorem C30_nonzero_range_exact : forall start stop, nonzero_u32 stop ->
  match seq_from_nz_range start stop with
  | Some q => denotes_between q 1 (Z.of_N stop)
  | None => stop = 1
  end.
Proof. intros start stop H. exact (C30_nonzero_range_to stop H). Qed.
(** [NonZeroU32::MAX] stands for the largest message wherever a bound is converted. *)
Definition meant (largest n : N) : N := if N.eqb n u32_max then largest else n.
Theorem C30_nonzero_bounds_exact : forall start stop largest n,
  (in_sequence largest (seq_from_nz_range_incl start stop) n <->
     meant largest start <= n <= meant largest stop \/ meant largest stop <= n <= meant largest start) /\
  (in_sequence largest (seq_from_nz_range_to_incl stop) n <->
     1 <= n <= meant largest stop \/ meant largest stop <= n <= 1) /\
  (in_sequence largest (seq_from_nz_range_from start) n <->
     meant largest start <= n <= largest \/ largest <= n <= meant largest start).
Proof.
  intros start stop largest n.
  assert (K : forall x, number largest (seq_or_uid_from x) = meant largest x).
  { intros x. unfold seq_or_uid_from, meant. now destruct (N.eqb x u32_max). }
  unfold seq_from_nz_range_to_incl, seq_from_nz_range_incl, seq_from_nz_range_from. cbn [in_sequence].
  rewrite !K. change (meant largest 1) with 1. cbn [number]. repeat split; lia.
Qed.
Theorem C30_list_exact : forall l,
  (sequence_set_from_nz_list l = None <-> l = []) /\
  forall s, sequence_set_from_nz_list l = Some s ->
  forall largest n, in_set largest s n <-> exists x, In x l /\ n = meant largest x.
Proof.
  intros l. split.
  - destruct l; cbn; split; easy.
  - intros s E. unfold sequence_set_from_nz_list in E. destruct l as [| y l]; [discriminate |]. injection E as <-.
    assert (K : forall largest x, number largest (seq_or_uid_from x) = meant largest x).
    { intros largest x. unfold seq_or_uid_from, meant. now destruct (N.eqb x u32_max). }
    intros largest n. unfold in_set. rewrite <- (map_cons (fun n => SSingle (seq_or_uid_from n)) y l).
    setoid_rewrite in_map_iff. split.
    + intros (q & (x & <- & Hx) & D). cbn [in_sequence] in D. rewrite K in D. eauto.
    + intros (x & Hx & ->). eexists. split; [exists x; split; [reflexivity | exact Hx] |]. cbn [in_sequence].
      now rewrite K.
Qed.
(** Lists of other integers: every element must be a number of a message; the greatest one is
    itself, not "*". *)
Theorem C30_number_list_exact : forall l,
  ((exists s, sequence_set_from_num_list l = Some s) <->
     l <> [] /\ forall x, In x l -> (1 <= x <= Z.of_N u32_max)%Z) /\
  forall s, sequence_set_from_num_list l = Some s ->
  forall largest n, in_set largest s n <-> In (Z.of_N n) l.
Proof.
  intros l.
  assert (G : forall l, match sequence_opt (map (fun n => option_map SSingle (seq_or_uid_from_num n)) l) with
    | Some s => s = map (fun x => SSingle (SValue (Z.to_N x))) l /\
                (forall x, In x l -> (1 <= x <= Z.of_N u32_max)%Z)
    | None => exists x, In x l /\ ~ (1 <= x <= Z.of_N u32_max)%Z end).
  { clear l. induction l as [| x l IH]; [split; [reflexivity | intros x []] |].
    cbn [map sequence_opt]. unfold seq_or_uid_from_num at 1.
    destruct (Z.leb_spec 1 x), (Z.leb_spec x (Z.of_N u32_max)); cbn [andb option_map];
      try (exists x; split; [now left | lia]).
    destruct (sequence_opt _) as [s |]; cbn [option_map].
    - destruct IH as [-> IH]. split; [reflexivity |]. intros y [<- | Hy]; [lia | auto].
    - destruct IH as (y & Hy & N). exists y. split; [now right | exact N]. }
  specialize (G l). unfold sequence_set_from_num_list.
  destruct (sequence_opt _) as [s |].
  - destruct G as [-> G]. destruct l as [| x l].
    + split; [split; [intros [s E]; discriminate | now intros [K _]] | discriminate].
    + cbn [map]. split; [split; [intros _; split; [discriminate | exact G] | eexists; reflexivity] |].
      intros s [= <-] largest n. unfold in_set. rewrite <- (map_cons (fun x => SSingle (SValue (Z.to_N x))) x l).
      setoid_rewrite in_map_iff. split.
      * intros (q & (y & <- & Hy) & D). cbn [in_sequence number] in D. subst n.
        specialize (G y Hy). rewrite Z2N.id by lia. exact Hy.
      * intros Hn. eexists. split; [exists (Z.of_N n); split; [reflexivity | exact Hn] |].
        cbn [in_sequence number]. now rewrite N2Z.id.
  - split; [| discriminate]. split; [intros [s E]; discriminate |].
    intros [_ K]. destruct G as (x & Hx & N). exfalso. auto.
Qed.
Print Assumptions C30_range_exact.
Print Assumptions C30_range_meaning_exact.
Print Assumptions C30_range_inclusive_exact.
Print Assumptions C30_empty_range_exact.
Print Assumptions C30_range_from_exact.
Print Assumptions C30_nonzero_range_exact.
Print Assumptions C30_nonzero_bounds_exact.
Print Assumptions C30_list_exact.
Print Assumptions C30_number_list_exact.
Example C30_exact_cases :
  seq_from_range 0 10 5 = Some (SRange (SValue 10) (SValue 4)) /\ seq_from_range 0 10 1 = None /\
  seq_from_nz_range 5 10 = Some (SRange (SValue 1) (SValue 9)) /\ nonzero_u32 10 /\
  seq_from_nz_range_incl 5 u32_max = SRange (SValue 5) SAsterisk /\
  sequence_set_from_num_list [3; 4294967295]%Z = Some [SSingle (SValue 3); SSingle (SValue 4294967295)] /\
  sequence_set_from_num_list [3; 0]%Z = None.
Proof. repeat split; vm_compute; congruence. Qed.
