(** Parsers and the letter case of their input: [ci p' p h] says that running [p'] on the
    lower-cased input gives what running [p] on the input gives, lower-cased, values being
    converted by [h]. For C36. *)

From Verif Require Import Bytes BytesFacts Dec Features Nom Types Utf8 Conv Base64 Date ParseCore Traverse.
Open Scope nat_scope.

Definition low_fail (f : failure) : failure :=
  match f with FLit t n m => FLit (option_map lowers t) n m | FOther => FOther end.
Definition rmap {A B} (h : A -> B) (r : res A) : res B :=
  match r with
  | ROk r a => ROk (lowers r) (h a)
  | RInc => RInc
  | RErr => RErr
  | RFail f => RFail (low_fail f)
  | RPanic => RPanic
  end.
Definition ci {A B} (p' : parser B) (p : parser A) (h : A -> B) : Prop :=
  forall i, p' (lowers i) = rmap h (p i).
Notation id' := (fun x => x).

(** Bytes *)
Lemma all_bytes (f : byte -> bool) : forallb f (map (fun n => match Byte.of_N (N.of_nat n) with Some b => b | None => x00 end) (seq 0 256)) = true ->
  forall b, f b = true.
Proof.
  intros H b. rewrite forallb_forall in H. apply H. apply in_map_iff. exists (N.to_nat (bN b)). split.
  - rewrite Nnat.N2Nat.id. unfold bN. now rewrite Byte.of_to_N.
  - apply in_seq. pose proof (Byte.to_N_bounded b). unfold bN. lia.
Qed.
Definition low_class (f : byte -> bool) : Prop := forall b, f (lower b) = f b.
(** Classes of bytes without letters *)
Definition no_letter (f : byte -> bool) : Prop := forall b, f (lower b) = f b /\ (f b = true -> lower b = b).
Lemma low_class_check (f : byte -> bool) :
  forallb (fun b => Bool.eqb (f (lower b)) (f b)) (map (fun n => match Byte.of_N (N.of_nat n) with Some b => b | None => x00 end) (seq 0 256)) = true ->
  low_class f.
Proof. intros H b. apply eqb_prop. exact (all_bytes _ H b). Qed.
Lemma no_letter_check (f : byte -> bool) :
  forallb (fun b => Bool.eqb (f (lower b)) (f b) && implb (f b) (beq (lower b) b))
    (map (fun n => match Byte.of_N (N.of_nat n) with Some b => b | None => x00 end) (seq 0 256)) = true ->
  no_letter f.
Proof.
  intros H b. apply all_bytes with (b := b) in H. apply andb_true_iff in H as [H1 H2]. split; [now apply eqb_prop |].
  intros E. rewrite E in H2. cbn in H2. now destruct (beq_spec (lower b) b).
Qed.
Lemma no_letter_low f : no_letter f -> low_class f.
Proof. intros H b. apply H. Qed.
Definition plain (c : byte) : bool := negb (is_alpha c).
Lemma plain_beq c b : plain c = true -> beq (lower b) c = beq b c.
Proof.
  intros H. assert (K : forall c, implb (plain c) (forallb (fun b => Bool.eqb (beq (lower b) c) (beq b c))
    (map (fun n => match Byte.of_N (N.of_nat n) with Some b => b | None => x00 end) (seq 0 256))) = true).
  { apply all_bytes. vm_compute. reflexivity. }
  specialize (K c). rewrite H in K. cbn [implb] in K. apply eqb_prop.
  exact (all_bytes (fun b => Bool.eqb (beq (lower b) c) (beq b c)) K b).
Qed.
Lemma plain_no_letter c : plain c = true -> no_letter (fun b => beq b c).
Proof.
  intros H b. split; [now apply plain_beq |]. intros E. pose proof (plain_beq c b H) as K. rewrite E in K.
  destruct (beq_spec b c) as [Eb |]; [| discriminate]. destruct (beq_spec (lower b) c) as [El |]; [| discriminate].
  now rewrite El, Eb.
Qed.
Lemma low_atom : low_class is_atom_char. Proof. apply low_class_check. vm_compute. reflexivity. Qed.
Lemma low_astring : low_class is_astring_char. Proof. apply low_class_check. vm_compute. reflexivity. Qed.
Lemma low_tag : low_class is_tag_char. Proof. apply low_class_check. vm_compute. reflexivity. Qed.
Lemma low_text : low_class is_text_char. Proof. apply low_class_check. vm_compute. reflexivity. Qed.
Lemma low_list : low_class is_list_char. Proof. apply low_class_check. vm_compute. reflexivity. Qed.
Lemma low_char8 : low_class is_char8. Proof. apply low_class_check. vm_compute. reflexivity. Qed.
Lemma low_qchar : low_class is_any_text_char_except_quoted_specials. Proof. apply low_class_check. vm_compute. reflexivity. Qed.
Lemma low_nqs : low_class (fun b => negb (is_quoted_specials b)). Proof. apply low_class_check. vm_compute. reflexivity. Qed.
Lemma nl_qs : no_letter is_quoted_specials. Proof. apply no_letter_check. vm_compute. reflexivity. Qed.
Lemma nl_digit : no_letter is_digit. Proof. apply no_letter_check. vm_compute. reflexivity. Qed.
Lemma low_forallb f s : low_class f -> forallb f (lowers s) = forallb f s.
Proof. intros H. induction s as [| b s IH]; [reflexivity |]. cbn. rewrite H. f_equal. exact IH. Qed.
Lemma low_utf8 s : utf8_ok (lowers s) = utf8_ok s.
Proof.
  assert (I : forall lo hi, (91 <= lo \/ hi <= 64)%N -> (123 <= lo \/ hi <= 96)%N -> low_class (inb lo hi)).
  { intros lo hi H1 H2 b. unfold inb. destruct (inb 0x41 0x5a b) eqn:E.
    - assert (K : bN (lower b) = (bN b + 32)%N).
      { revert E. revert b. assert (K : forall b, implb (inb 0x41 0x5a b) (N.eqb (bN (lower b)) (bN b + 32)) = true).
        { apply all_bytes. vm_compute. reflexivity. }
        intros b E. specialize (K b). rewrite E in K. now apply N.eqb_eq. }
      rewrite K. unfold inb in E. apply andb_true_iff in E as [E1 E2]. apply N.leb_le in E1, E2.
      destruct (N.leb_spec lo (bN b + 32)), (N.leb_spec (bN b + 32) hi), (N.leb_spec lo (bN b)), (N.leb_spec (bN b) hi);
        try reflexivity; exfalso; lia.
    - unfold lower. now rewrite E. }
  assert (A0 : low_class (inb 0x00 0x7f)).
  { apply low_class_check. vm_compute. reflexivity. }
  assert (K : forall n s, length s <= n -> utf8_ok (lowers s) = utf8_ok s).
  { clear s. induction n as [| n IH]; intros [| a s1] L; try reflexivity; [cbn in L; lia |]. cbn in L.
    cbn [lowers map utf8_ok]. rewrite A0. destruct (inb 0 127 a); [apply IH; lia |].
    unfold cont. destruct s1 as [| b s2]; [reflexivity |]. cbn in L. cbn [map].
    repeat (rewrite (I _ _) by lia). change (map lower s2) with (lowers s2). rewrite (IH s2) by lia.
    destruct (inb 0xc2 0xdf a); [reflexivity |]. destruct s2 as [| c s3]; [reflexivity |]. cbn in L. cbn [lowers map].
    repeat (rewrite (I _ _) by lia). change (map lower s3) with (lowers s3). rewrite (IH s3) by lia.
    destruct (inb 0xe0 0xe0 a); [reflexivity |]. destruct (inb 0xe1 0xec a || inb 0xee 0xef a); [reflexivity |].
    destruct (inb 0xed 0xed a); [reflexivity |]. destruct s3 as [| d s4]; [reflexivity |]. cbn in L. cbn [lowers map].
    repeat (rewrite (I _ _) by lia). change (map lower s4) with (lowers s4). now rewrite (IH s4) by lia. }
  now apply (K (length s)).
Qed.
Lemma lowers_app a b : lowers (a ++ b) = lowers a ++ lowers b. Proof. apply map_app. Qed.
Lemma lowers_length a : length (lowers a) = length a. Proof. apply map_length. Qed.
Lemma lowers_firstn n a : firstn n (lowers a) = lowers (firstn n a). Proof. apply firstn_map. Qed.
Lemma lowers_skipn n a : skipn n (lowers a) = lowers (skipn n a). Proof. apply skipn_map. Qed.
Lemma uppers_lowers s : uppers (lowers s) = uppers s.
Proof. unfold lowers, uppers. rewrite map_map. apply map_ext, upper_lower. Qed.

(** Combinators *)
Section Ci.
Lemma ci_ret {A B} (a : A) (b : B) h : b = h a -> ci (ret b) (ret a) h.
Proof. intros -> i. reflexivity. Qed.
Lemma ci_perr {A B} (h : A -> B) : ci perr perr h. Proof. now intros i. Qed.
Lemma ci_pfail {A B} (h : A -> B) : ci pfail pfail h. Proof. now intros i. Qed.
Lemma ci_panic {A B} (h : A -> B) : ci (fun _ => RPanic) (fun _ => RPanic) h. Proof. now intros i. Qed.
Lemma ci_bind {A A' B B'} (p' : parser A') (p : parser A) (k' : A' -> parser B') (k : A -> parser B) h h2 :
  ci p' p h -> (forall a, ci (k' (h a)) (k a) h2) -> ci (bind p' k') (bind p k) h2.
Proof. intros P K i. unfold bind. rewrite P. destruct (p i); cbn; try reflexivity. apply K. Qed.
Lemma ci_pmap {A A' B B'} (p' : parser A') (p : parser A) (f' : A' -> B') (f : A -> B) h h2 :
  ci p' p h -> (forall a, f' (h a) = h2 (f a)) -> ci (pmap f' p') (pmap f p) h2.
Proof. intros P K. eapply ci_bind; [exact P |]. intros a. now apply ci_ret. Qed.
Lemma ci_value {A A' B B'} (p' : parser A') (p : parser A) (b' : B') (b : B) h h2 :
  ci p' p h -> b' = h2 b -> ci (value b' p') (value b p) h2.
Proof. intros P K. eapply ci_bind; [exact P |]. intros a. now apply ci_ret. Qed.
Lemma ci_map_res {A A' B B'} (p' : parser A') (p : parser A) (f' : A' -> option B') (f : A -> option B) h h2 :
  ci p' p h -> (forall a, f' (h a) = option_map h2 (f a)) -> ci (map_res p' f') (map_res p f) h2.
Proof.
  intros P K. eapply ci_bind; [exact P |]. intros a. rewrite K. destruct (f a); [now apply ci_ret | apply ci_perr].
Qed.
Lemma ci_expect {A A' B B'} (p' : parser A') (p : parser A) (f' : A' -> option B') (f : A -> option B) h h2 :
  ci p' p h -> (forall a, f' (h a) = option_map h2 (f a)) -> ci (expect p' f') (expect p f) h2.
Proof.
  intros P K. eapply ci_bind; [exact P |]. intros a. rewrite K. destruct (f a); [now apply ci_ret | apply ci_panic].
Qed.
Lemma ci_gate {A A'} b (p' : parser A') (p : parser A) h : ci p' p h -> ci (gate b p') (gate b p) h.
Proof. intros P. destruct b; [exact P | apply ci_perr]. Qed.
Lemma ci_if {A A'} (b : bool) (p' q' : parser A') (p q : parser A) h :
  ci p' p h -> ci q' q h -> ci (if b then p' else q') (if b then p else q) h.
Proof. now destruct b. Qed.
Lemma ci_delimited {A A' B B' C C'} (p' : parser A') (p : parser A) (q' : parser B') (q : parser B)
    (r' : parser C') (r : parser C) h1 h2 h3 :
  ci p' p h1 -> ci q' q h2 -> ci r' r h3 -> ci (delimited p' q' r') (delimited p q r) h2.
Proof.
  intros P Q R. eapply ci_bind; [exact P | intros _]. eapply ci_bind; [exact Q | intros b].
  eapply ci_bind; [exact R | intros _]. now apply ci_ret.
Qed.
Lemma ci_terminated {A A' B B'} (p' : parser A') (p : parser A) (q' : parser B') (q : parser B) h1 h2 :
  ci p' p h1 -> ci q' q h2 -> ci (terminated p' q') (terminated p q) h1.
Proof.
  intros P Q. eapply ci_bind; [exact P | intros b]. eapply ci_bind; [exact Q | intros _]. now apply ci_ret.
Qed.
Lemma ci_orp {A A'} (p' q' : parser A') (p q : parser A) h : ci p' p h -> ci q' q h -> ci (orp p' q') (orp p q) h.
Proof. intros P Q i. unfold orp. rewrite P. destruct (p i); cbn; try reflexivity. apply Q. Qed.
Lemma ci_alt {A A'} (ps' : list (parser A')) (ps : list (parser A)) h :
  Forall2 (fun p' p => ci p' p h) ps' ps -> ci (alt ps') (alt ps) h.
Proof.
  intros H. induction H as [| p' p ps' ps P H IH]; [apply ci_perr |]. cbn. inversion H; subst; [exact P |].
  now apply ci_orp.
Qed.
Lemma ci_opt {A A'} (p' : parser A') (p : parser A) h : ci p' p h -> ci (opt p') (opt p) (option_map h).
Proof. intros P i. unfold opt. rewrite P. now destruct (p i). Qed.
Lemma ci_peek {A A'} (p' : parser A') (p : parser A) h : ci p' p h -> ci (peek p') (peek p) h.
Proof. intros P i. unfold peek. rewrite P. now destruct (p i). Qed.
Lemma ci_recognize {A A'} (p' : parser A') (p : parser A) h : ci p' p h -> ci (recognize p') (recognize p) lowers.
Proof.
  intros P i. unfold recognize. rewrite P. destruct (p i); cbn; try reflexivity.
  now rewrite !lowers_length, lowers_firstn.
Qed.
Lemma ci_many0 {A A'} (p' : parser A') (p : parser A) h : ci p' p h -> ci (many0 p') (many0 p) (map h).
Proof.
  intros P i. unfold many0. rewrite lowers_length. generalize (S (length i)). intros n. revert i.
  induction n as [| n IH]; intros i; [reflexivity |]. cbn [many0_f]. rewrite P. destruct (p i); cbn [rmap]; try reflexivity.
  rewrite !lowers_length. destruct (Nat.ltb _ _); [| reflexivity]. rewrite IH. now destruct (many0_f n p rest).
Qed.
Lemma ci_many1 {A A'} (p' : parser A') (p : parser A) h : ci p' p h -> ci (many1 p') (many1 p) (map h).
Proof.
  intros P. eapply ci_bind; [exact P | intros a]. eapply ci_bind; [now apply ci_many0 | intros l]. now apply ci_ret.
Qed.
Lemma ci_many_m {A A'} m (p' : parser A') (p : parser A) h : ci p' p h -> ci (many_m m p') (many_m m p) (map h).
Proof.
  intros P. induction m as [| m IH]; [now apply ci_many0 |]. intros i. cbn [many_m]. rewrite P.
  destruct (p i); cbn [rmap]; try reflexivity. rewrite !lowers_length. destruct (Nat.ltb _ _); [| reflexivity].
  rewrite IH. now destruct (many_m m p rest).
Qed.
Lemma ci_sep_loop {A A' B B'} (s' : parser B') (s : parser B) (p' : parser A') (p : parser A) h1 h :
  ci s' s h1 -> ci p' p h -> ci (sep_loop s' p') (sep_loop s p) (map h).
Proof.
  intros S P i. unfold sep_loop. rewrite lowers_length. generalize (Datatypes.S (length i)). intros n. revert i.
  induction n as [| n IH]; intros i; [reflexivity |]. cbn [sep_loop_f]. rewrite S.
  destruct (s i) as [i1 b | | | |]; cbn [rmap]; try reflexivity.
  rewrite !lowers_length. destruct (Nat.ltb _ _); [| reflexivity].
  rewrite P. destruct (p i1) as [i2 a | | | |]; cbn [rmap]; try reflexivity.
  rewrite !lowers_length. destruct (Nat.leb _ _); [| reflexivity]. rewrite IH. now destruct (sep_loop_f n s p i2).
Qed.
Lemma ci_sep_list1 {A A' B B'} (s' : parser B') (s : parser B) (p' : parser A') (p : parser A) h1 h :
  ci s' s h1 -> ci p' p h -> ci (sep_list1 s' p') (sep_list1 s p) (map h).
Proof.
  intros S P. eapply ci_bind; [exact P | intros a]. eapply ci_bind; [eapply ci_sep_loop; eassumption | intros l].
  now apply ci_ret.
Qed.
Lemma ci_sep_list0 {A A' B B'} (s' : parser B') (s : parser B) (p' : parser A') (p : parser A) h1 h :
  ci s' s h1 -> ci p' p h -> ci (sep_list0 s' p') (sep_list0 s p) (map h).
Proof.
  intros S P i. unfold sep_list0. rewrite P. destruct (p i) as [i1 b | | | |]; cbn [rmap]; try reflexivity.
  rewrite (ci_sep_loop _ _ _ _ _ _ S P). now destruct (sep_loop s p i1).
Qed.
Lemma ci_vecn {A A'} n (p' : parser (list A')) (p : parser (list A)) (h : A -> A') :
  ci p' p (map h) -> ci (vecn n p') (vecn n p) (map h).
Proof.
  intros P. eapply ci_expect; [exact P |]. intros l. rewrite map_length. now destruct (Nat.leb n (length l)).
Qed.

(** Tokens *)
Lemma ci_tag t : forallb plain t = true -> ci (tag t) (tag t) id'.
Proof.
  intros H i. revert i. induction t as [| c t IH]; intros i; [reflexivity |]. cbn in H.
  apply andb_true_iff in H as [H1 H2]. destruct i as [| x i]; [reflexivity |]. cbn [lowers map tag].
  rewrite (plain_beq _ _ H1). destruct (beq x c); [apply (IH H2) | reflexivity].
Qed.
Lemma ci_kw t : ci (tag_no_case t) (tag_no_case t) id'.
Proof.
  intros i. revert i. induction t as [| c t IH]; intros i; [reflexivity |].
  destruct i as [| x i]; [reflexivity |]. cbn [lowers map tag_no_case]. rewrite lower_idem.
  destruct (beq (lower x) (lower c)); [apply IH | reflexivity].
Qed.
Lemma ci_sat f : low_class f -> ci (sat f) (sat f) lower.
Proof. intros H [| x i]; [reflexivity |]. cbn. rewrite H. now destruct (f x). Qed.
Lemma ci_sat_id f : no_letter f -> ci (sat f) (sat f) id'.
Proof.
  intros H [| x i]; [reflexivity |]. cbn. rewrite (no_letter_low _ H). destruct (f x) eqn:E; [| reflexivity].
  cbn. f_equal. now apply H.
Qed.
Lemma ci_char c : plain c = true -> ci (char c) (char c) id'.
Proof. intros H. apply ci_sat_id. now apply plain_no_letter. Qed.
Lemma low_span f i : low_class f ->
  span f (lowers i) = option_map (fun p => (lowers (fst p), lowers (snd p))) (span f i).
Proof.
  intros H. induction i as [| x i IH]; [reflexivity |]. cbn [lowers map span]. rewrite H. destruct (f x); [| reflexivity].
  change (map lower i) with (lowers i). rewrite IH. now destruct (span f i) as [[a r] |].
Qed.
Lemma span_no_letter f i a r : no_letter f -> span f i = Some (a, r) -> lowers a = a.
Proof.
  intros H. revert a r. induction i as [| x i IH]; intros a r E; [discriminate |]. cbn in E.
  destruct (f x) eqn:Ex; [| now injection E as <- _]. destruct (span f i) as [[a0 r0] |]; [| discriminate].
  injection E as <- _. cbn. f_equal; [now apply H | eapply IH; reflexivity].
Qed.
Lemma ci_take_while f : low_class f -> ci (take_while f) (take_while f) lowers.
Proof. intros H i. unfold take_while. rewrite low_span by exact H. now destruct (span f i) as [[a r] |]. Qed.
Lemma ci_take_while1 f : low_class f -> ci (take_while1 f) (take_while1 f) lowers.
Proof. intros H i. unfold take_while1. rewrite low_span by exact H. now destruct (span f i) as [[[| b a] r] |]. Qed.
Lemma ci_take_while1_id f : no_letter f -> ci (take_while1 f) (take_while1 f) id'.
Proof.
  intros H i. rewrite (ci_take_while1 f (no_letter_low _ H)). unfold take_while1.
  destruct (span f i) as [[[| b a] r] |] eqn:E; try reflexivity. cbn. f_equal. exact (span_no_letter _ _ _ _ H E).
Qed.
Lemma ci_take_while_m_n m n f : low_class f -> ci (take_while_m_n m n f) (take_while_m_n m n f) lowers.
Proof.
  intros H i. unfold take_while_m_n. rewrite low_span by exact H. destruct (span f i) as [[a r] |]; cbn [option_map fst snd].
  - rewrite lowers_length. destruct (Nat.leb m _); [| reflexivity].
    destruct (Nat.leb _ n); cbn [rmap]; now rewrite ?lowers_skipn, ?lowers_firstn.
  - rewrite lowers_length. destruct (Nat.leb n _); cbn [rmap]; now rewrite ?lowers_skipn, ?lowers_firstn.
Qed.
Lemma span_prefix f i n : forallb f (firstn n i) = true -> no_letter f -> lowers (firstn n i) = firstn n i.
Proof.
  intros H N. revert H. generalize (firstn n i). intros s. induction s as [| b s IH]; [reflexivity |]. cbn.
  intros E. apply andb_true_iff in E as [E1 E2]. f_equal; [now apply N | now apply IH].
Qed.
Lemma ci_take_while_m_n_id m n f : no_letter f -> ci (take_while_m_n m n f) (take_while_m_n m n f) id'.
Proof.
  intros H i. rewrite (ci_take_while_m_n m n f (no_letter_low _ H)). unfold take_while_m_n.
  assert (K : forall s a r, span f s = Some (a, r) -> s = a ++ r /\ forallb f a = true).
  { induction s as [| x s IH]; intros a r E; [discriminate |]. cbn in E. destruct (f x) eqn:Ex.
    - destruct (span f s) as [[a0 r0] |]; [| discriminate]. injection E as <- <-.
      destruct (IH _ _ eq_refl) as [-> IH2]. cbn. now rewrite Ex, IH2.
    - now injection E as <- <-. }
  assert (K2 : forall s, span f s = None -> forallb f s = true).
  { induction s as [| x s IH]; intros E; [reflexivity |]. cbn in *. destruct (f x); [| discriminate].
    destruct (span f s) as [[a0 r0] |]; [discriminate |]. now apply IH. }
  assert (FF : forall s k, forallb f s = true -> forallb f (firstn k s) = true).
  { intros s k E. rewrite forallb_forall in *. intros x Hx. apply E. rewrite <- (firstn_skipn k s). apply in_or_app. now left. }
  destruct (span f i) as [[a r] |] eqn:E.
  - destruct (K _ _ _ E) as [-> Ha]. destruct (Nat.leb m _); [| reflexivity].
    destruct (Nat.leb (length a) n) eqn:L; cbn [rmap].
    + f_equal. exact (span_no_letter _ _ _ _ H E).
    + f_equal. apply Nat.leb_gt in L. rewrite firstn_app. replace (n - length a) with 0 by lia. cbn. rewrite app_nil_r.
      apply (span_prefix f); [now apply FF | exact H].
  - destruct (Nat.leb n _); [| reflexivity]. cbn [rmap]. f_equal. apply (span_prefix f); [| exact H]. apply FF. now apply K2.
Qed.
Lemma ci_take n : ci (take n) (take n) lowers.
Proof.
  intros i. unfold take, lenN. rewrite lowers_length. destruct (N.leb n _); cbn; [| reflexivity].
  now rewrite lowers_skipn, lowers_firstn.
Qed.
Lemma ci_escaped nf c ef : low_class nf -> plain c = true -> no_letter ef -> ci (escaped nf c ef) (escaped nf c ef) lowers.
Proof.
  intros H C E i. unfold escaped. rewrite lowers_length. generalize (S (length i)). intros n. revert i.
  induction n as [| n IH]; intros [| x i]; try reflexivity. cbn [escaped_f]. cbn [lowers map].
  change (lower x :: map lower i) with (lowers (x :: i)). rewrite (ci_take_while1 _ H).
  destruct (take_while1 nf (x :: i)) as [[| b r] a | | | |]; cbn [rmap]; try reflexivity.
  - cbn [lowers map]. change (lower b :: map lower r) with (lowers (b :: r)). rewrite IH.
    destruct (escaped_f n nf c ef (b :: r)); cbn; try reflexivity. now rewrite lowers_app.
  - rewrite (plain_beq _ _ C). destruct (beq x c) eqn:Ex; [| reflexivity]. destruct i as [| y i]; [reflexivity |]. cbn [map].
    rewrite (no_letter_low _ E). destruct (ef y); [| reflexivity]. destruct i as [| z i]; [reflexivity |]. cbn [map].
    change (lower z :: map lower i) with (lowers (z :: i)). rewrite IH. now destruct (escaped_f n nf c ef (z :: i)).
Qed.
Lemma ci_crlf {F : features} : ci crlf crlf id'.
Proof.
  unfold crlf. destruct quirk_crlf_relaxed; [| apply ci_tag; reflexivity].
  eapply ci_bind; [apply ci_opt, ci_char; reflexivity |]. intros _.
  eapply ci_bind; [apply ci_char; reflexivity |]. intros _. now apply ci_ret.
Qed.
Lemma ci_sp : ci sp sp id'. Proof. apply ci_char. reflexivity. Qed.
Lemma ci_dquote : ci dquote dquote id'. Proof. apply ci_char. reflexivity. Qed.
Lemma ci_validated ok (p' p : parser bytes) : ci p' p lowers -> (forall s, ok (lowers s) = ok s) ->
  ci (validated ok p') (validated ok p) lowers.
Proof.
  intros P K. eapply ci_expect; [exact P |]. intros s. unfold str_of. rewrite low_utf8, K. now destruct (_ && _).
Qed.
End Ci.
