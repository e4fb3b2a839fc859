(** Capability names: [capability_from] is the meaning the grammar gives them. *)

From Verif Require Import Bytes BytesFacts Dec Features Nom Types Utf8 Conv ParseCore ParseCmd ParseResp ParserFacts
  OkCore OkResp NameFacts ValueSpec ValueFacts Grammar SoundTac SoundCore SoundBody SoundCmd.
Open Scope nat_scope.

(** ** Tables determine the meaning of a word *)
Fixpoint nodupb (l : list bytes) : bool :=
  match l with [] => true | x :: l => negb (existsb (beqs x) l) && nodupb l end.
Definition distinct {A} (table : list (bytes * A)) : bool := nodupb (map (fun p => lowers (fst p)) table).
Lemma look_known {A} (table : list (bytes * A)) other t s a : distinct table = true ->
  In (s, a) table -> same_letters t s -> look table other t = a.
Proof.
  unfold distinct. intros D I E. apply same_letters_spec in E.
  induction table as [| [k b] table IH]; [destruct I |]. cbn in D. apply andb_true_iff in D as [D1 D2].
  cbn [look]. destruct I as [[= -> ->] | I].
  - now rewrite (proj2 (eqi_spec t s) E).
  - destruct (eqi t k) eqn:Q; [| auto]. exfalso. apply eqi_spec in Q. apply negb_true_iff in D1.
    apply not_true_iff_false in D1. apply D1. apply existsb_exists. exists (lowers s).
    split; [| apply beqs_eq; rewrite <- E; exact (eq_sym Q)]. apply (in_map (fun p => lowers (fst p)) _ _ I).
Qed.
Lemma look_other {A} (table : list (bytes * A)) other t :
  (forall s a, In (s, a) table -> ~ same_letters t s) -> look table other t = other t.
Proof.
  intros H. induction table as [| [k b] table IH]; [reflexivity |]. cbn [look].
  destruct (eqi t k) eqn:Q.
  - apply eqi_letters in Q. destruct (H k b (or_introl eq_refl) Q).
  - apply IH. intros s a I. apply (H s a (or_intror I)).
Qed.
Lemma name_look {A} (table : list (bytes * A)) other t a : distinct table = true ->
  name table other t a -> look table other t = a.
Proof. intros D []; [eapply look_known; eassumption | now apply look_other]. Qed.
Lemma letters_atoms t s : same_letters t s -> forallb is_atom_char s = true -> many_of ATOM_CHAR t.
Proof.
  induction 1 as [| x y t s S _ IH]; intros A; [constructor |]. cbn in A.
  apply andb_true_iff in A as [A1 A2]. constructor; [| now apply IH].
  apply is_atom_char_spec. rewrite same_letter_spec in S.
  assert (L : forall b, is_atom_char (lower b) = is_atom_char b)
    by (apply byte_eqb; vm_compute; reflexivity).
  now rewrite <- L, S, L.
Qed.
Lemma letters_atom t s : same_letters t s -> atom_ok s = true -> some_of ATOM_CHAR t.
Proof.
  intros S A. destruct s as [| b s]; [discriminate |]. split; [intros ->; inversion S |].
  now apply letters_atoms in S.
Qed.

Section SoundCap.
Context {F : features}.

Definition known_cap (s : bytes) : option capability :=
  match fixed_name (lowers s) with Some c => Some c | None => capability_eq s end.
Lemma capability_from_known s :
  capability_from s = match known_cap s with Some c => c | None => CapOther s end.
Proof. rewrite capability_fixed. unfold known_cap. now destruct (fixed_name (lowers s)). Qed.

Lemma if_some {A} (b : bool) (x y : A) o : (if b then Some x else o) = Some y ->
  (b = true /\ y = x) \/ o = Some y.
Proof. destruct b; [intros [= ->] |]; auto. Qed.
Ltac in_tab := first [left; reflexivity | right; in_tab].
Ltac in_tabs := first [apply in_or_app; first [left; in_tab | right; in_tabs] | in_tab].
Lemma fixed_some s c : fixed_name (lowers s) = Some c -> word capability_table s c.
Proof.
  assert (W : forall k, In (k, c) capability_table -> beqs (lowers s) (lowers k) = true -> word capability_table s c).
  { intros k I E. apply (word_intro _ _ k); [assumption | now apply same_letters_spec, beqs_eq]. }
  intros H. unfold fixed_name in H. unfold capability_table in *.
  repeat (apply if_some in H as [[E ->] | H];
    [try (apply andb_true_iff in E as [E Gate]; rewrite Gate in *);
     eapply W; [in_tabs | exact E] |]).
  discriminate H.
Qed.
Lemma fixed_word s c : word capability_table s c -> fixed_name (lowers s) = Some c.
Proof.
  intros [t k a I S]. apply same_letters_spec in S. rewrite S. clear S t.
  unfold capability_table in I. rewrite !in_app_iff in I. unfold when in I.
  repeat match type of I with
  | _ \/ _ => destruct I as [I | I]
  | In _ (if ?b then _ else _) => destruct b eqn:Gate; [| destruct I]
  end.
  all: cbn [In] in I; repeat (destruct I as [I | I]; [injection I as <- <- |]); try contradiction.
  all: try (destruct F; cbn in Gate; subst; vm_compute; reflexivity).
  all: clear; destruct F; vm_compute; reflexivity.
Qed.

(** Splitting at the first occurrence *)
Lemma split1_spec c s l r : split_once1 c s = Some (l, r) <-> s = l ++ [c] ++ r /\ ~ In c l.
Proof.
  revert l r. induction s as [| x s IH]; intros l r; cbn [split_once1].
  - split; [discriminate |]. intros [H _]. destruct l; discriminate H.
  - destruct (beq_spec x c) as [-> | N].
    + split.
      * intros [= <- <-]. auto.
      * intros [H I]. destruct l as [| y l]; cbn in H; [injection H as ->; reflexivity |].
        injection H as E _. subst y. destruct I. now left.
    + split.
      * destruct (split_once1 c s) as [[l' r'] |]; [| discriminate]. intros [= <- <-].
        destruct (proj1 (IH l' r') eq_refl) as [-> I]. split; [reflexivity |].
        intros [E | E]; auto.
      * intros [H I]. destruct l as [| y l]; cbn in H; [congruence |]. injection H as E H. subst x.
        rewrite (proj2 (IH l r)); [reflexivity |]. split; [assumption |]. intros J. apply I. now right.
Qed.
Definition no_occurrence (p x : bytes) : Prop := forall y z, x <> y ++ p ++ z.
Lemma starts_spec p s : starts_with p s = true <-> exists r, s = p ++ r.
Proof.
  unfold starts_with. rewrite beqs_eq. split.
  - intros E. exists (skipn (length p) s). rewrite E at 1. symmetry. apply firstn_skipn.
  - intros [r ->]. rewrite firstn_app, Nat.sub_diag, firstn_O, app_nil_r, firstn_all. reflexivity.
Qed.
Lemma split_spec p s l r : p <> [] -> split_once p s = Some (l, r) ->
  s = l ++ p ++ r /\ no_occurrence p l.
Proof.
  intros N. revert l r. induction s as [| x s IH]; intros l r; cbn [split_once].
  - destruct (starts_with p []) eqn:E; [| discriminate]. apply starts_spec in E as [u E].
    destruct p; [contradiction | discriminate E].
  - destruct (starts_with p (x :: s)) eqn:E.
    + intros [= <- <-]. apply starts_spec in E as [u E]. rewrite E.
      rewrite skipn_app, Nat.sub_diag, skipn_all2 by lia. split; [reflexivity |].
      intros y z H. destruct y, p; try discriminate; contradiction.
    + destruct (split_once p s) as [[l' r'] |]; [| discriminate]. intros [= <- <-].
      destruct (IH l' r' eq_refl) as [-> I]. split; [reflexivity |].
      intros y z H. destruct y as [| y0 y].
      * apply not_true_iff_false in E. apply E. apply starts_spec. cbn in H. rewrite app_comm_cons, H.
        rewrite <- app_assoc. eauto.
      * injection H as -> H. eapply I. exact H.
Qed.
(** "res-" does not overlap itself. *)
Lemma split_res l r : no_occurrence (bs "res-") l ->
  split_once (bs "res-") (l ++ bs "res-" ++ r) = Some (l, r).
Proof.
  induction l as [| x l IH]; intros N.
  - reflexivity.
  - cbn [app split_once]. change (split_once _ (l ++ _)) with (split_once (bs "res-") (l ++ bs "res-" ++ r)).
    assert (E : starts_with (bs "res-") (x :: l ++ bs "res-" ++ r) = false).
    { apply not_true_iff_false. intros E. apply starts_spec in E as [u E].
      destruct l as [| x1 [| x2 [| x3 l]]]; try discriminate E.
      injection E as -> -> -> -> _. eapply (N [] l). reflexivity. }
    rewrite IH; [now rewrite E |]. intros y z H. subst. eapply (N (x :: y) z). reflexivity.
Qed.

Lemma letters_split t a b : same_letters t (a ++ b) ->
  exists u v, t = u ++ v /\ same_letters u a /\ same_letters v b.
Proof.
  intros H. apply Forall2_app_inv_r in H as (u & v & H1 & H2 & ->). eauto.
Qed.
Lemma letters_length t s : same_letters t s -> length t = length s.
Proof. induction 1; cbn; auto. Qed.
Lemma letters_eqs v : same_letters v (bs "=") -> v = bs "=".
Proof.
  intros H. apply (kw_cons "="%byte []) in H as (k & -> & K); [| reflexivity | reflexivity].
  now inversion K.
Qed.
Lemma letters_no_eqs t s : same_letters t s -> ~ In "="%byte s -> ~ In "="%byte t.
Proof.
  intros S N I. apply N. clear N. induction S as [| x y t s S _ IH]; [destruct I |].
  destruct I as [-> | I]; [left | right; auto]. apply same_letter_spec in S.
  revert S. assert (H : forall y, (negb (beq (lower "=") (lower y)) || beq y "=")%bool = true)
    by (apply byte_forall; vm_compute; reflexivity).
  intros S. specialize (H y). rewrite S, beq_refl in H. now apply beq_eq in H.
Qed.
Lemma not_upper_lower u : Forall (fun b => ~ (0x41 <= bN b <= 0x5A)%N) u <-> lowers u = u.
Proof.
  assert (H : forall b, beq (lower b) b = negb (N.leb 0x41 (bN b) && N.leb (bN b) 0x5A))
    by (apply byte_eqb; vm_compute; reflexivity).
  assert (E : forall b, ~ (0x41 <= bN b <= 0x5A)%N <-> lower b = b).
  { intros b. rewrite <- beq_eq, H, negb_true_iff, andb_false_iff, !N.leb_gt. lia. }
  induction u as [| b u IH]; [split; constructor |].
  cbn [lowers map]. split.
  - intros G. inversion G; subst. f_equal; [now apply E | now apply IH].
  - intros [= E1 E2]. constructor; [now apply E | now apply IH].
Qed.

Lemma eq_sound s c : many_of ATOM_CHAR s -> capability_eq s = Some c -> G_known_capability s c.
Proof.
  intros A. unfold capability_eq. destruct (split_once1 "="%byte s) as [[lhs rhs] |] eqn:E; [| discriminate].
  apply split1_spec in E as [-> I].
  assert (K : forall k, beqs (lowers lhs) (lowers k) = true -> same_letters (lhs ++ bs "=") (k ++ bs "=")).
  { intros k Q. apply letters_app; [now apply lower_case | apply letters_refl]. }
  unfold many_of in A. rewrite Forall_app in A. destruct A as [_ A]. inversion A as [| ? ? _ A2]; subst.
  change (G_known_capability (lhs ++ ["="%byte] ++ rhs) c) with (G_known_capability (lhs ++ bs "=" ++ rhs) c).
  rewrite app_assoc.
  destruct (beqs (lowers lhs) (bs "auth")) eqn:Q1; [clear - K Q1 |
  destruct (beqs (lowers lhs) (bs "compress")) eqn:Q2; [clear - K Q2 |
  destruct (beqs (lowers lhs) (bs "quota")) eqn:Q3; [clear - K Q3 A2 |
  destruct (beqs (lowers lhs) (bs "sort")) eqn:Q4; [clear - K Q4 |
  destruct (beqs (lowers lhs) (bs "thread")) eqn:Q5; [clear - K Q5 | discriminate]]]]].
  - destruct (atom_ok rhs) eqn:O; [| discriminate].
    intros [= <-]. apply g_cap_auth; [exact (K (bs "AUTH") Q1) |].
    rewrite auth_table_ok. apply look_name. now apply atom_ok_spec.
  - destruct (atom_ok rhs) eqn:O; [| discriminate].
    unfold option_map, compression_try_from. destruct (beqs (lowers rhs) (bs "deflate")) eqn:D;
      [| discriminate]. intros [= <-]. apply g_cap_compress; [exact (K (bs "COMPRESS") Q2) |].
    now apply lower_case.
  - destruct (split_once _ _) as [[x r] |] eqn:E; [| discriminate].
    destruct (atom_ok r) eqn:O; [| discriminate]. intros [= <-].
    apply split_spec in E as [E N]; [| discriminate].
    assert (L : same_letters rhs (x ++ bs "res-" ++ r)).
    { apply same_letters_spec. rewrite <- E. symmetry. apply lowers_idem. }
    apply letters_split in L as (tx & v & -> & Lx & L). apply letters_split in L as (tr & t & -> & Lr & Lt).
    assert (Lr' : lowers r = r).
    { apply (lowers_suffix (tx ++ tr ++ t) (x ++ bs "res-")). now rewrite <- app_assoc. }
    assert (Lx' : lowers tx = x).
    { unfold lowers in E. rewrite !map_app in E. apply (f_equal (firstn (length tx))) in E.
      assert (Ln : length (map lower tx) = length x) by (rewrite map_length; now apply letters_length).
      rewrite map_length in Ln. rewrite Ln in E at 2. rewrite <- (map_length lower tx) in E.
      now rewrite !firstn_app, !Nat.sub_diag, !firstn_O, !app_nil_r, !firstn_all in E. }
    apply g_cap_quota with (u := r); [exact (K (bs "QUOTA") Q3) | | | | assumption | |].
    + unfold many_of. rewrite Forall_app in A2. apply A2.
    + apply same_letters_spec in Lr. now apply same_letters_spec.
    + intros y s z -> S. apply same_letters_spec in S. apply (N (lowers y) (lowers z)).
      rewrite <- Lx'. unfold lowers. rewrite !map_app. fold (lowers s). now rewrite S.
    + now apply not_upper_lower.
    + rewrite resource_table_ok. apply look_name. now apply atom_ok_spec.
  - destruct (atom_ok rhs) eqn:O; [| discriminate].
    intros [= <-]. apply g_cap_sort; [exact (K (bs "SORT") Q4) |].
    rewrite sort_table_ok. apply look_name. now apply atom_ok_spec.
  - destruct (atom_ok rhs) eqn:O; [| discriminate].
    intros [= <-]. apply g_cap_thread; [exact (K (bs "THREAD") Q5) |].
    rewrite thread_table_ok. apply look_name. now apply atom_ok_spec.
Qed.

Lemma fixed_no_eqs k t : same_letters k (bs "AUTH=") \/ same_letters k (bs "COMPRESS=") \/
  same_letters k (bs "SORT=") \/ same_letters k (bs "THREAD=") \/ same_letters k (bs "QUOTA=") ->
  fixed_name (lowers (k ++ t)) = None.
Proof.
  intros H. unfold lowers. rewrite map_app. fold (lowers k). fold (lowers t).
  destruct H as [H | [H | [H | [H | H]]]]; apply same_letters_spec in H; rewrite H; reflexivity.
Qed.
Lemma eq_split k n t : same_letters k (n ++ bs "=") -> ~ In "="%byte n ->
  exists l, k = l ++ bs "=" /\ lowers l = lowers n /\ split_once1 "="%byte (k ++ t) = Some (l, t).
Proof.
  intros S N. apply letters_split in S as (l & v & -> & S & V). apply letters_eqs in V as ->.
  exists l. split; [reflexivity |]. split; [now apply same_letters_spec |].
  apply split1_spec. rewrite <- app_assoc. split; [reflexivity |]. eapply letters_no_eqs; eassumption.
Qed.
Lemma name_some {A} (table : list (bytes * A)) other t a :
  name table other t a -> forallb (fun p => atom_ok (fst p)) table = true -> atom_ok t = true.
Proof.
  intros [] T; apply atom_ok_spec; [| assumption]. rewrite forallb_forall in T.
  match goal with I : In _ _, S : same_letters _ _ |- _ => specialize (T _ I); cbn in T;
    eapply letters_atom; [exact S | exact T] end.
Qed.
Lemma name_look' {A} (table : list (bytes * A)) other t a :
  name table other t a -> distinct table = true -> look table other t = a.
Proof. intros M D. now apply name_look. Qed.
Ltac no_eqs := cbn; intuition discriminate.
Lemma known_complete s c : G_known_capability s c -> known_cap s = Some c.
Proof.
  unfold known_cap. intros [t c' W | k t m K M | k t K M | k t a K M | k t a K M | k x r t u a K X R O S L M].
  - now rewrite (fixed_word _ _ W).
  - rewrite fixed_no_eqs by tauto. unfold capability_eq.
    destruct (eq_split k (bs "AUTH") t K) as (l & -> & L & ->); [no_eqs |]. rewrite L.
    cbn [lowers map beqs]. rewrite (name_some _ _ _ _ M eq_refl).
    rewrite auth_table_ok, (name_look' _ _ _ _ M eq_refl). reflexivity.
  - rewrite fixed_no_eqs by tauto. unfold capability_eq.
    destruct (eq_split k (bs "COMPRESS") t K) as (l & -> & L & ->); [no_eqs |]. rewrite L.
    change (beqs (lowers (bs "COMPRESS")) (bs "auth")) with false.
    change (beqs (lowers (bs "COMPRESS")) (bs "compress")) with true. cbv iota.
    rewrite (proj2 (atom_ok_spec t)) by (eapply letters_atom; [exact M | reflexivity]).
    unfold compression_try_from. apply same_letters_spec in M. now rewrite M.
  - rewrite fixed_no_eqs by tauto. unfold capability_eq.
    destruct (eq_split k (bs "SORT") t K) as (l & -> & L & ->); [no_eqs |]. rewrite L.
    rewrite (name_some _ _ _ _ M eq_refl).
    rewrite sort_table_ok, (name_look' _ _ _ _ M eq_refl). reflexivity.
  - rewrite fixed_no_eqs by tauto. unfold capability_eq.
    destruct (eq_split k (bs "THREAD") t K) as (l & -> & L & ->); [no_eqs |]. rewrite L.
    rewrite (name_some _ _ _ _ M eq_refl).
    rewrite thread_table_ok, (name_look' _ _ _ _ M eq_refl). reflexivity.
  - rewrite fixed_no_eqs by tauto. unfold capability_eq.
    destruct (eq_split k (bs "QUOTA") (x ++ r ++ t) K) as (l & -> & Q & ->); [no_eqs |]. rewrite Q.
    change (beqs (lowers (bs "QUOTA")) (bs "auth")) with false.
    change (beqs (lowers (bs "QUOTA")) (bs "compress")) with false.
    change (beqs (lowers (bs "QUOTA")) (bs "quota")) with true. cbv iota.
    apply same_letters_spec in R, S. apply not_upper_lower in L.
    assert (E : lowers (x ++ r ++ t) = lowers x ++ bs "res-" ++ u).
    { unfold lowers. rewrite !map_app. fold (lowers r). fold (lowers t). rewrite R, S, L. reflexivity. }
    rewrite E, split_res.
    + rewrite (name_some _ _ _ _ M eq_refl).
      rewrite resource_table_ok, (name_look' _ _ _ _ M eq_refl). reflexivity.
    + intros y z H. unfold lowers in H. apply map_eq_app in H as (y' & v & -> & <- & H).
      apply map_eq_app in H as (w & z' & -> & H & <-).
      apply (O y' w z' eq_refl). apply same_letters_spec. exact H.
Qed.
Lemma known_sound s c : many_of ATOM_CHAR s -> known_cap s = Some c -> G_known_capability s c.
Proof.
  unfold known_cap. intros A. destruct (fixed_name (lowers s)) eqn:E.
  - intros [= <-]. now apply g_cap_word, fixed_some.
  - now apply eq_sound.
Qed.
Lemma capability_sound s : some_of ATOM_CHAR s -> G_capability s (capability_from s).
Proof.
  intros A. rewrite capability_from_known. destruct (known_cap s) as [c |] eqn:E.
  - apply g_cap_known, known_sound; [apply A | assumption].
  - apply g_cap_other; [assumption |]. intros c G. apply known_complete in G. congruence.
Qed.
Lemma atoms_app s t : many_of ATOM_CHAR s -> many_of ATOM_CHAR t -> many_of ATOM_CHAR (s ++ t).
Proof. intros; apply Forall_app; auto. Qed.
Lemma table_atoms : forallb (fun p => forallb is_atom_char (fst p)) capability_table = true.
Proof.
  unfold capability_table. rewrite !forallb_app. unfold when.
  repeat match goal with |- context [if ?b then _ else _] => destruct b end; reflexivity.
Qed.
Lemma ok_atoms s : atom_ok s = true -> forallb is_atom_char s = true.
Proof. now destruct s. Qed.
Lemma known_atom s c : G_known_capability s c -> some_of ATOM_CHAR s.
Proof.
  intros G.
  assert (M : many_of ATOM_CHAR s).
  { destruct G as [t c' W | k t m K M | k t K M | k t a K M | k t a K M | k x r t u a K X R O S L M].
    - destruct W as [t k a I S]. eapply letters_atoms; [exact S |]. clear S.
      pose proof table_atoms as T. rewrite forallb_forall in T. exact (T _ I).
    - apply atoms_app; [eapply letters_atoms; [exact K | reflexivity] |].
      apply atom_ok_spec, (name_some _ _ _ _ M eq_refl).
    - apply atoms_app; eapply letters_atoms; eauto; reflexivity.
    - apply atoms_app; [eapply letters_atoms; [exact K | reflexivity] |].
      apply atom_ok_spec, (name_some _ _ _ _ M eq_refl).
    - apply atoms_app; [eapply letters_atoms; [exact K | reflexivity] |].
      apply atom_ok_spec, (name_some _ _ _ _ M eq_refl).
    - apply atoms_app; [eapply letters_atoms; [exact K | reflexivity] |].
      apply atoms_app; [assumption |].
      apply atoms_app; [eapply letters_atoms; [exact R | reflexivity] |].
      eapply letters_atoms; [exact S |]. apply ok_atoms, (name_some _ _ _ _ M eq_refl). }
  split; [| exact M]. intros ->. apply known_complete in G. revert G.
  unfold known_cap. destruct F. vm_compute. discriminate.
Qed.
Lemma capability_complete s c : G_capability s c -> some_of ATOM_CHAR s /\ capability_from s = c.
Proof.
  rewrite capability_from_known. intros [t c' G | t A N].
  - split; [now apply known_atom in G |]. now rewrite (known_complete _ _ G).
  - split; [assumption |]. destruct (known_cap t) as [d |] eqn:E; [| reflexivity].
    destruct (N d). apply known_sound; [apply A | assumption].
Qed.
Lemma sound_capability : sound p_capability G_capability.
Proof.
  intros i r c H. unfold p_capability in H. apply pmap_inv in H as (s & H & ->).
  apply sound_atom in H as (t & -> & V & E). subst. eexists. split; [reflexivity |]. now apply capability_sound.
Qed.
End SoundCap.
#[export] Hint Resolve sound_capability : soundb.
