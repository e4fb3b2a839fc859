(** Soundness of the parsers of ParseCore.v. *)

From Verif Require Import Bytes BytesFacts Dec Features Nom Types Utf8 Conv Base64 Date FragSpec
  ParseCore ParserFacts QuotedFacts OkCore ValueSpec ValueFacts Grammar SoundTac.
Open Scope nat_scope.

Section SoundCore.
Context {F : features}.

Lemma num_of max s n : forallb is_digit s = true -> parse_max max s = Some n -> G_num max s n.
Proof.
  intros D H. apply parse_max_some in H as (N & _ & -> & L). repeat split; auto.
  now apply digits_spec.
Qed.
Lemma sound_digits max : sound (p_digits max) (G_num max).
Proof.
  ssplit. unfold p_digits in H. sd. apply take_while1_inv in H as (-> & N & D & _).
  destruct (utf8_ok x0); [| discriminate]. injection H1 as ->. exists x. split; [reflexivity |].
  now apply num_of.
Qed.
Lemma sound_number : sound p_number G_number.
Proof. apply sound_digits. Qed.
Lemma sound_number64 : sound p_number64 G_number64.
Proof. apply sound_digits. Qed.
Lemma nonzero_inv a n : nonzero a = Some n -> a = n /\ n <> 0%N.
Proof. unfold nonzero. destruct (N.eqb_spec a 0); [discriminate |]. intros [= <-]. auto. Qed.
Lemma sound_nz : sound p_nz_number G_nz_number.
Proof.
  intros i r a H. apply map_res_inv in H as (x & H & E). apply nonzero_inv in E as [-> N].
  apply sound_number in H as (t & -> & H). exists t. split; [reflexivity | now split].
Qed.
Lemma sound_valzer : sound p_mod_sequence_valzer G_number64.
Proof. apply sound_digits. Qed.
Lemma sound_modseq_value : sound p_mod_sequence_value G_nz_number64.
Proof.
  intros i r a H. apply map_res_inv in H as (x & H & E). apply nonzero_inv in E as [-> N].
  apply sound_number64 in H as (t & -> & H). exists t. split; [reflexivity | now split].
Qed.

Lemma sound_quoted : sound p_quoted G_quoted.
Proof.
  intros i r a H. apply p_quoted_inv in H as [V ->]. apply quoted_ok_spec in V.
  sfin ltac:(constructor; [now apply quoted_body_spec | exact V]).
Qed.
Lemma sound_lit_mode : sound p_lit_mode G_lit_mode.
Proof.
  intros i r m H. apply p_lit_mode_inv in H as ->. exists (plus_of m). split; [reflexivity |].
  destruct m; constructor.
Qed.
Lemma take_inv n i r s : take n i = ROk r s -> i = s ++ r /\ lenN s = n.
Proof.
  unfold take. destruct (N.leb_spec n (lenN i)); [| discriminate]. intros [= <- <-].
  split; [now rewrite firstn_skipn |]. unfold lenN in *. rewrite firstn_length. lia.
Qed.
Lemma lit_found_inv n m i r u : p_lit_found n m i = ROk r u -> i = r.
Proof. destruct i; [discriminate |]. now intros [= <-]. Qed.
Lemma lit_header_of open i r n m : p_lit_header open i = ROk r (n, m) ->
  exists d z e, i = open ++ d ++ z ++ bs "}" ++ e ++ r /\ G_number d n /\ G_lit_mode z m /\ eol e.
Proof.
  intros H. apply p_lit_header_inv in H as (d & e & -> & N & D & E & L & X).
  exists d, (plus_of m), e. repeat split; auto.
  - apply digits_spec. auto.
  - destruct m; constructor.
Qed.
Lemma sound_literal : sound p_literal G_literal.
Proof.
  intros i r a H. apply bind_inv in H as (r1 & [n m] & E & H).
  apply lit_header_of in E as (d & z & e & -> & N & M & E).
  apply bind_inv in H as (r2 & u & E2 & H). apply lit_found_inv in E2 as ->.
  apply bind_inv in H as (r3 & s & E2 & H). apply take_inv in E2 as [-> <-].
  destruct (literal_ok s) eqn:V; [| discriminate]. injection H as <- <-.
  apply literal_ok_spec in V. sfin ltac:(constructor; eassumption).
Qed.
Lemma sound_literal8 : sound p_literal8 G_literal8.
Proof.
  intros i r a H. apply bind_inv in H as (r1 & [n m] & E & H).
  apply lit_header_of in E as (d & z & e & -> & N & M & E).
  apply bind_inv in H as (r2 & u & E2 & H). apply lit_found_inv in E2 as ->.
  apply bind_inv in H as (r3 & s & E2 & H). apply take_inv in E2 as [-> <-].
  injection H as <- <-. sfin ltac:(constructor; eassumption).
Qed.
Lemma sound_string : sound p_string G_string.
Proof.
  intros i r a H. unfold p_string in H.
  apply alt_inv in H as [H | [Q H]]; [| apply alt_inv in H as [H | [_ H]]].
  - apply pmap_inv in H as (s & H & ->). apply sound_quoted in H as (t & -> & G).
    exists t. split; [reflexivity | now constructor].
  - apply gate_inv in H as [U H]. apply pmap_inv in H as (s & H & ->).
    apply p_quoted_utf8_inv in H as [V ->].
    sfin ltac:(apply g_str_utf8; [assumption | now apply quoted_body_spec | |]).
    + now rewrite utf8_escape.
    + intros T. apply quoted_ok_spec in T. unfold pmap, bind in Q.
      now rewrite (p_quoted_read s r T) in Q.
  - apply pmap_inv in H as (s & H & ->). apply sound_literal in H as (t & -> & G).
    exists t. split; [reflexivity | now constructor].
Qed.
Lemma kw_nil i r u : p_nil i = ROk r u -> exists t, i = t ++ r /\ G_nil t.
Proof. apply kw_inv. Qed.
Lemma sound_nstring : sound p_nstring G_nstring.
Proof.
  intros i r a H. unfold p_nstring in H. apply alt_inv in H as [H | [_ H]].
  - apply pmap_inv in H as (s & H & ->). apply sound_string in H as (t & -> & G).
    exists t. split; [reflexivity | now constructor].
  - apply value_inv in H as (u & H & ->). apply kw_nil in H as (t & -> & G).
    exists t. split; [reflexivity | now constructor].
Qed.
Lemma sound_astring : sound p_astring G_astring.
Proof.
  intros i r a H. unfold p_astring in H. apply alt_inv in H as [H | [_ H]].
  - apply pmap_inv in H as (s & H & ->). apply validated_inv in H as (-> & V & _).
    exists s. split; [reflexivity |]. constructor. now apply atom_ext_ok_spec.
  - apply pmap_inv in H as (s & H & ->). apply sound_string in H as (t & -> & G).
    exists t. split; [reflexivity | now constructor].
Qed.
Lemma sound_atom : sound p_atom G_atom.
Proof.
  intros i r a H. apply validated_inv in H as (-> & V & _). exists a.
  split; [reflexivity |]. split; [now apply atom_ok_spec | reflexivity].
Qed.
Lemma sound_text : sound p_text G_text.
Proof.
  intros i r a H. apply validated_inv in H as (-> & V & _). exists a.
  split; [reflexivity |]. split; [now apply text_ok_spec | reflexivity].
Qed.
Lemma sound_tag : sound p_tag_imap G_tag.
Proof.
  intros i r a H. apply validated_inv in H as (-> & V & _). exists a.
  split; [reflexivity |]. split; [now apply tag_ok_spec | reflexivity].
Qed.
Lemma recognize_inv {A} (p : parser A) v (k : nat) i r s :
  ok k v p -> length i < k -> recognize p i = ROk r s -> i = s ++ r /\ exists a, p i = ROk r a.
Proof.
  intros O L. unfold recognize. destruct (p i) as [r1 a | | | |] eqn:E; try discriminate.
  intros [= <- <-]. destruct (ok_suffix O i r1 a L E) as [c ->]. split; [| eauto].
  rewrite app_length. replace (length c + length r1 - length r1) with (length c) by lia.
  now rewrite firstn_app_exact.
Qed.
Lemma sound_base64 : sound p_base64 G_base64.
Proof.
  intros i r a H. apply map_res_inv in H as (s & H & E).
  eapply (recognize_inv _ (fun _ => true) (S (length i))) in H as [-> _]; [| | lia].
  - exists s. split; [reflexivity | now apply base64_spec].
  - apply (ok_bind _ (fun _ => true)); [apply ok_take_while; auto |]. intros _ _.
    apply (ok_opt _ (fun _ => true)); auto.
    repeat apply ok_alt_cons; try apply ok_alt_nil; now apply ok_tag.
Qed.
Lemma sound_charset : sound p_charset G_charset.
Proof.
  intros i r a H. unfold p_charset in H. apply alt_inv in H as [H | [_ H]].
  - apply pmap_inv in H as (s & H & ->). apply sound_atom in H as (t & -> & G & ->).
    exists t. split; [reflexivity | now constructor].
  - apply pmap_inv in H as (s & H & ->). apply sound_quoted in H as (t & -> & G).
    exists t. split; [reflexivity | now constructor].
Qed.

(** Exact counts of characters *)
Lemma take_mn_inv m n f i r s : m <= n -> take_while_m_n m n f i = ROk r s ->
  i = s ++ r /\ m <= length s <= n /\ forallb f s = true.
Proof.
  intros L H. pose proof (ok_take_while_m_n (S (length i)) m n f
    (fun s => (m <=? length s) && (length s <=? n) && forallb f s) L) as O.
  assert (E : forall s, m <= length s <= n -> forallb f s = true ->
    (m <=? length s) && (length s <=? n) && forallb f s = true).
  { intros s' [H1 H2] H3. rewrite H3, (proj2 (Nat.leb_le _ _) H1), (proj2 (Nat.leb_le _ _) H2).
    reflexivity. }
  specialize (O E). pose proof (ok_post O i r s ltac:(lia) H) as P.
  apply andb_true_iff in P as [P P3]. apply andb_true_iff in P as [P1 P2].
  apply Nat.leb_le in P1, P2. split; [| auto].
  unfold take_while_m_n in H. destruct (span f i) as [[a r'] |] eqn:S.
  - apply span_some in S as (Ei & _). destruct (m <=? length a); [| discriminate].
    destruct (length a <=? n); injection H as <- <-.
    + now rewrite Ei, skipn_app_exact.
    + now rewrite firstn_skipn.
  - destruct (n <=? length i); [| discriminate]. injection H as <- <-. now rewrite firstn_skipn.
Qed.
Lemma text_except b : is_any_text_char_except_quoted_specials b = true ->
  TEXT_CHAR b /\ ~ quoted_specials b.
Proof.
  intros H. rewrite <- is_text_char_spec, <- is_quoted_specials_spec. split.
  - revert H. apply byte_impl. vm_compute. reflexivity.
  - apply normal_text in H. now rewrite H.
Qed.
Lemma specials_text b : is_quoted_specials b = true -> TEXT_CHAR b.
Proof. rewrite <- is_text_char_spec. apply byte_impl. vm_compute. reflexivity. Qed.
Lemma one_inv s b : one_byte s = Some b -> s = [b].
Proof. destruct s as [| x [| y s]]; try discriminate. now intros [= ->]. Qed.
Lemma quoted_char_inv i r b : p_quoted_char i = ROk r b ->
  exists w, i = w ++ r /\ TEXT_CHAR b /\ quoted_body w [b].
Proof.
  unfold p_quoted_char. intros H. apply expect_inv in H as (c & H & V).
  destruct (quoted_char_ok c); [| discriminate]. injection V as ->.
  apply alt_inv in H as [H | [_ H]]; apply expect_inv in H as (s & H & E); apply one_inv in E as ->.
  - apply take_mn_inv in H as (-> & _ & E); [| lia]. cbn in E. rewrite andb_true_r in E.
    apply text_except in E as [T N]. exists [b]. split; [reflexivity |]. split; [assumption |].
    apply qb_plain; [assumption | constructor].
  - sd. apply take_mn_inv in H as (-> & _ & E); [| lia]. cbn in E. rewrite andb_true_r in E.
    exists ["\"%byte; b]. split; [reflexivity |]. split; [now apply specials_text |].
    apply qb_escaped; [now apply is_quoted_specials_spec | constructor].
Qed.

(** Sequence sets *)
Lemma sound_seq_number : sound p_seq_number G_seq_number.
Proof.
  intros i r a H. unfold p_seq_number in H. apply alt_inv in H as [H | [_ H]].
  - apply pmap_inv in H as (s & H & ->). apply sound_nz in H as (t & -> & G).
    exists t. split; [reflexivity | now constructor].
  - apply value_inv in H as (u & H & ->). apply tag_inv in H as ->.
    eexists. split; [reflexivity | constructor].
Qed.
Hint Resolve sound_number sound_number64 sound_nz sound_valzer sound_modseq_value sound_quoted
  sound_literal sound_literal8 sound_string sound_nstring sound_astring sound_atom sound_text
  sound_tag sound_base64 sound_charset sound_seq_number : soundb.
Lemma sound_sequence_set : sound p_sequence_set G_sequence_set.
Proof.
  unfold p_sequence_set. apply sound_vecn, sound_sep1; [| auto with reads].
  intros i r a H. apply alt_inv in H as [H | [_ H]]; unfold p_seq_range in H; sd.
  - sfin ltac:(econstructor; eassumption).
  - sfin ltac:(econstructor; eassumption).
Qed.

(** Mailboxes, flags *)
Lemma bytes_of_astring_eq a : bytes_of_astring a = astring_bytes a.
Proof. now destruct a as [| [| | []]]. Qed.
Lemma eqi_letters s t : eqi s t = true <-> same_letters s t.
Proof. rewrite same_letters_spec. apply eqi_spec. Qed.
Lemma inbox_spec s : eqi s (bs "inbox") = true <-> same_letters s (bs "INBOX").
Proof. rewrite eqi_letters, !same_letters_spec. reflexivity. Qed.
Lemma mailbox_from_inv a m : mailbox_from a = Some m ->
  m = MInbox /\ same_letters (bytes_of_astring a) (bs "INBOX") \/
  m = MOther a /\ ~ same_letters (bytes_of_astring a) (bs "INBOX").
Proof.
  replace (bytes_of_astring a) with (astring_bytes a) by (symmetry; apply bytes_of_astring_eq).
  unfold mailbox_from, mailbox_other_ok.
  pose proof (inbox_spec (astring_bytes a)) as I.
  destruct (eqi (astring_bytes a) (bs "inbox")) eqn:E.
  - destruct (utf8_ok (astring_bytes a)); [| discriminate]. intros [= <-]. left.
    split; [reflexivity | now apply I].
  - rewrite andb_false_r. intros [= <-]. right. split; [reflexivity |]. intros C. now apply I in C.
Qed.
Lemma sound_mailbox : sound p_mailbox G_mailbox.
Proof.
  intros i r a H. apply expect_inv in H as (s & H & E). apply mailbox_from_inv in E.
  sd. exists t. split; [reflexivity |]. econstructor; eassumption.
Qed.
Lemma sound_list_mailbox : sound p_list_mailbox G_list_mailbox.
Proof.
  intros i r a H. unfold p_list_mailbox in H. apply alt_inv in H as [H | [_ H]].
  - apply pmap_inv in H as (s & H & ->). apply validated_inv in H as (-> & V & _).
    exists s. split; [reflexivity |]. constructor. now apply list_char_string_ok_spec.
  - sd. exists t. split; [reflexivity | now constructor].
Qed.

(** A conversion by case distinction on the lowered (or raised) name *)
Lemma uppers_lowers s : lowers (uppers s) = lowers s.
Proof.
  unfold lowers, uppers. rewrite map_map. apply map_ext. intros b.
  apply beq_eq. revert b. apply byte_forall. vm_compute. reflexivity.
Qed.
Lemma lowers_uppers s : uppers (lowers s) = uppers s.
Proof.
  unfold lowers, uppers. rewrite map_map. apply map_ext. intros b.
  apply beq_eq. revert b. apply byte_forall. vm_compute. reflexivity.
Qed.
Lemma lower_case s t : beqs (lowers s) (lowers t) = true <-> same_letters s t.
Proof. rewrite same_letters_spec, beqs_eq. reflexivity. Qed.
Lemma upper_case s t : beqs (uppers s) (uppers t) = true <-> same_letters s t.
Proof.
  rewrite same_letters_spec, beqs_eq. split; intros H.
  - now rewrite <- (uppers_lowers s), H, uppers_lowers.
  - now rewrite <- (lowers_uppers s), H, lowers_uppers.
Qed.
(** The function a table describes *)
Fixpoint look {A} (table : list (bytes * A)) (other : bytes -> A) (s : bytes) : A :=
  match table with
  | [] => other s
  | (k, a) :: table' => if eqi s k then a else look table' other s
  end.
Lemma look_name {A} table (other : bytes -> A) s : some_of ATOM_CHAR s ->
  name table other s (look table other s).
Proof.
  intros V. induction table as [| [k a] table IH]; cbn [look].
  - apply name_other; [assumption | intros ? ? []].
  - destruct (eqi s k) eqn:E.
    + apply (name_known _ _ _ k); [now left | now apply eqi_letters].
    + inversion IH as [t k' b I S Et Eb | t H N Et Eb]; rewrite <- Eb in *.
      * apply (name_known _ _ _ k'); [now right | assumption].
      * apply name_other; [assumption |]. intros k' b [[= <- <-] | I]; [| eauto].
        rewrite <- eqi_letters, E. discriminate.
Qed.
Definition from_table {A} (from : bytes -> A) table other : Prop := forall s, from s = look table other s.
Lemma sound_name {A} (from : bytes -> A) table other :
  from_table from table other -> sound (pmap from p_atom) (name table other).
Proof.
  intros Hf i r a H. apply pmap_inv in H as (s & H & ->). apply sound_atom in H as (t & -> & V & ->).
  exists t. split; [reflexivity |]. rewrite Hf. now apply look_name.
Qed.
Lemma sound_name' {A B} (q : parser B) x (from : bytes -> A) table other : reads q x ->
  from_table from table other -> sound (pmap from (q ;;; p_atom)) (after x (name table other)).
Proof.
  intros R Hf i r a H. apply pmap_inv in H as (s & H & ->). apply bind_inv in H as (r1 & y & E & H).
  apply R in E as ->. apply sound_atom in H as (t & -> & V & ->).
  exists (x ++ t). rewrite app_assoc. split; [reflexivity |]. constructor. rewrite Hf. now apply look_name.
Qed.
Lemma eqi_lower s t : eqi s t = beqs (lowers s) (lowers t).
Proof.
  destruct (beqs (lowers s) (lowers t)) eqn:E.
  - now apply eqi_letters, lower_case.
  - destruct (eqi s t) eqn:E2; [| reflexivity]. apply eqi_letters, lower_case in E2. congruence.
Qed.
Lemma eqi_upper s t : eqi s t = beqs (uppers s) (uppers t).
Proof.
  destruct (beqs (uppers s) (uppers t)) eqn:E.
  - now apply eqi_letters, upper_case.
  - destruct (eqi s t) eqn:E2; [| reflexivity]. apply eqi_letters, upper_case in E2. congruence.
Qed.
Ltac low := cbn [look when app]; rewrite ?eqi_lower; reflexivity.
Ltac upp := cbn [look when app]; rewrite ?eqi_upper; reflexivity.
Lemma flag_table_ok : from_table flag_system flag_table FExtension.
Proof. intros s. unfold flag_system, flag_table. low. Qed.
Lemma flag_name_table_ok : from_table flag_name_attribute_from flag_name_table FNExtension.
Proof. intros s. unfold flag_name_attribute_from, flag_name_table. low. Qed.
Lemma attr_flag_table_ok : from_table attribute_flag_system attribute_flag_table AFExtension.
Proof. intros s. unfold attribute_flag_system, attribute_flag_table. low. Qed.
Lemma auth_table_ok : from_table auth_mechanism_from auth_table AMOther.
Proof. intros s. unfold auth_mechanism_from, auth_table. upp. Qed.
Lemma resource_table_ok : from_table resource_from resource_table ROther.
Proof. intros s. unfold resource_from, resource_table. upp. Qed.
Lemma sort_table_ok : from_table sort_algorithm_from sort_algorithm_table SAOther.
Proof. intros s. unfold sort_algorithm_from, sort_algorithm_table. low. Qed.
Lemma thread_table_ok : from_table threading_algorithm_from thread_table TAOther.
Proof. intros s. unfold threading_algorithm_from, thread_table. low. Qed.
Lemma enable_table_ok : from_table capability_enable_from enable_table CEOther.
Proof.
  intros s. unfold capability_enable_from, enable_table.
  destruct ext_condstore_qresync, ext_metadata, ext_utf8; cbn [andb]; low.
Qed.
Lemma sound_enable_name : sound (pmap capability_enable_from p_atom) G_enable_name.
Proof. apply sound_name, enable_table_ok. Qed.

Hint Resolve sound_sequence_set sound_mailbox sound_list_mailbox : soundb.
Lemma sound_flag : sound p_flag G_flag.
Proof.
  intros i r a H. unfold p_flag in H. apply alt_inv in H as [H | [_ H]].
  - apply (sound_name' _ [bBS] _ flag_table FExtension) in H as (t & -> & G);
      [| apply reads_char | exact flag_table_ok].
    inversion G as [u b G']; subst. eexists. split; [reflexivity |]. now apply g_flag_system.
  - sd. destruct G as [V ->]. exists t. split; [reflexivity | now constructor].
Qed.
Hint Resolve sound_flag : soundb.
Lemma sound_flag_list : sound p_flag_list G_flag_list.
Proof. unfold p_flag_list, G_flag_list. s_auto. Qed.
Lemma bs_atom t : some_of ATOM_CHAR t -> ~ same_letters t (bs "\Recent").
Proof.
  intros [_ A] S. inversion S as [| x y xs ys S1 S2]; subst. inversion A as [| ? ? A1 _]; subst.
  apply same_letter_spec in S1. apply is_atom_char_spec in A1. revert S1 A1.
  generalize x. clear. intros x. assert (H : forall x, (negb (beq (lower x) (lower "\"%byte)) || negb (is_atom_char x))%bool = true)
    by (apply byte_forall; vm_compute; reflexivity).
  specialize (H x). intros E A. rewrite E, beq_refl, A in H. discriminate.
Qed.
Lemma sound_flag_fetch : sound p_flag_fetch G_flag_fetch.
Proof.
  intros i r a. unfold p_flag_fetch, recognize.
  assert (R : forall t, same_letters t (bs "\Recent") <-> eqi t (bs "\recent") = true)
    by (intros t; rewrite same_letters_spec, eqi_spec; reflexivity).
  destruct ((char bBS ;;; p_atom) i) as [r1 x | | | |] eqn:E; try discriminate.
  1: { assert (X : exists t, i = [bBS] ++ t ++ r1 /\ some_of ATOM_CHAR t /\ x = t)
         by (clear -E; sd; inversion G as [u b G2]; subst; destruct G2 as [V ->];
             exists u; rewrite <- app_assoc; auto).
       destruct X as (t & -> & V & ->). rename E into E'.
       replace (firstn _ _) with ([bBS] ++ t)
         by (rewrite app_assoc, app_length, Nat.add_sub; symmetry; apply firstn_app_exact).
       destruct (eqi _ _) eqn:Q.
       - intros [= <- <-]. exists ([bBS] ++ t). split; [reflexivity |]. constructor. now apply R.
       - intros H. apply pmap_inv in H as (f & H & ->). unfold p_flag in H.
         apply alt_inv in H as [H | [H _]].
         + apply pmap_inv in H as (x & H & ->). rewrite E' in H. injection H as <- <-.
           exists ([bBS] ++ t). split; [reflexivity |]. apply g_ff_flag.
           * apply g_flag_system. rewrite flag_table_ok. now apply look_name.
           * rewrite R, Q. discriminate.
         + unfold pmap, bind at 1 in H. rewrite E' in H. discriminate. }
  all: intros H; apply pmap_inv in H as (f0 & H & ->); unfold p_flag in H;
    apply alt_inv in H as [H | [_ H]]; [apply pmap_inv in H as (x & H & ->); congruence |];
    sd; destruct G as [V ->]; exists t; (split; [reflexivity |]); apply g_ff_flag;
    [now apply g_flag_keyword | now apply bs_atom].
Qed.
Lemma sound_flag_perm : sound p_flag_perm G_flag_perm.
Proof. ssplit. unfold p_flag_perm in H. sd; sfin ltac:(econstructor; eassumption). Qed.
Lemma sound_flag_name : sound (pmap flag_name_attribute_from (char bBS ;;; p_atom)) G_flag_name.
Proof. apply sound_name'; [apply reads_char | exact flag_name_table_ok]. Qed.

(** Dates *)
Lemma sound_digit_m_n m n max i r a : m <= n -> p_digit_m_n m n max i = ROk r a ->
  exists k t, m <= k <= n /\ i = t ++ r /\ G_digits k t a.
Proof.
  intros L H. unfold p_digit_m_n in H. sd. apply take_mn_inv in H as (-> & K & D); [| assumption].
  destruct (utf8_ok x0); [| discriminate]. injection H1 as ->.
  apply parse_max_some in H0 as (_ & _ & -> & _). exists (length x), x. repeat split; try lia.
  now apply digits_spec.
Qed.
Lemma sound_digit_2 : sound p_digit_2 (G_digits 2).
Proof.
  intros i r a H. apply sound_digit_m_n in H as (k & t & K & -> & G); [| lia].
  replace k with 2 in G by lia. eauto.
Qed.
Lemma sound_digit_4 : sound p_digit_4 (G_digits 4).
Proof.
  intros i r a H. apply sound_digit_m_n in H as (k & t & K & -> & G); [| lia].
  replace k with 4 in G by lia. eauto.
Qed.
Lemma sound_month : sound p_date_month (word month_table).
Proof. ssplit. unfold p_date_month in H. sd; sfin sword. Qed.
Hint Resolve sound_digit_2 sound_digit_4 sound_month : soundb.
Lemma ymd_real y m d : from_ymd_opt y m d = Some (mkDate y m d) -> (y <= 9999)%N ->
  real_date (mkDate y m d).
Proof.
  unfold from_ymd_opt. destruct (ymd_ok y m d) eqn:E; [| discriminate]. intros _ L.
  apply ymd_spec in E as (n & H & B). exists n. auto.
Qed.
Lemma from_ymd_inv y m d x : from_ymd_opt y m d = Some x -> x = mkDate y m d.
Proof. unfold from_ymd_opt. destruct (ymd_ok y m d); [| discriminate]. now intros [= <-]. Qed.
Lemma date_text_inv i r x : p_date_text i = ROk r (Some x) ->
  exists t, i = t ++ r /\ G_date_text t x.
Proof.
  intros H. unfold p_date_text in H. apply bind_inv in H as (r1 & d & E & H).
  apply sound_digit_m_n in E as (k & t & K & -> & G); [| lia]. sd.
  destruct (from_ymd_opt a2 a0 d) as [x' |] eqn:E; [| discriminate H].
  destruct (N.leb_spec a2 9999); [| discriminate H]. sd.
  pose proof (from_ymd_inv _ _ _ _ E) as ->.
  sfin ltac:(econstructor; [| eassumption | eassumption | eassumption | now apply ymd_real]).
  destruct k as [| [| [|]]]; cbn; auto; lia.
Qed.
Lemma sound_date : sound p_date G_date.
Proof.
  intros i r a H. unfold p_date, p_date_opt in H. apply map_res_inv in H as (x & H & ->).
  apply alt_inv in H as [H | [_ H]].
  - apply date_text_inv in H as (t & -> & G). exists t. split; [reflexivity | now constructor].
  - apply alt_inv in H as [H | [_ H]]; [| discriminate H]. unfold delimited in H.
    apply bind_inv in H as (r1 & u & E & H). apply (reads_char bDQ) in E as ->.
    apply bind_inv in H as (r2 & x & E & H). apply bind_inv in H as (r3 & u' & E2 & H).
    apply (reads_char bDQ) in E2 as ->. inv H. apply date_text_inv in E as (t & -> & G).
    sfin ltac:(apply g_date_quoted; eassumption).
Qed.
Lemma sound_day_fixed : sound p_date_day_fixed G_day_fixed.
Proof.
  ssplit. unfold p_date_day_fixed in H. sd.
  - apply take_mn_inv in H as (-> & L & D); [| lia]. destruct x as [| b [|]]; cbn in L; try lia.
    injection H0 as <-. cbn in D. rewrite andb_true_r in D.
    exists (bs " " ++ [b]). split; [reflexivity |]. apply g_day_1. split; [reflexivity |].
    apply digits_spec. cbn. rewrite D. split; [reflexivity |]. reflexivity.
  - exists t. split; [reflexivity | now constructor].
Qed.
Lemma Some_inj {A} (a b : A) : Some a = Some b -> a = b.
Proof. congruence. Qed.
Lemma sound_zone i r z : p_zone i = ROk r (Some z) ->
  exists t, i = t ++ r /\ G_zone t z /\ (-86400 < z < 86400)%Z.
Proof.
  intros H. unfold p_zone in H. apply bind_inv in H as (r1 & s & E & H).
  assert (S : exists b : bool, s = (if b then "+" else "-")%byte /\ i = [s] ++ r1).
  { apply alt_inv in E as [E | [_ E]]; [exists true |]; [| apply alt_inv in E as [E | [_ E]];
      [exists false | discriminate E]]; apply char_inv in E as [-> ->]; auto. }
  destruct S as (b & -> & ->). clear E.
  apply bind_inv in H as (r2 & a & E & H). apply sound_digit_2 in E as (t & -> & G).
  apply bind_inv in H as (r3 & a0 & E & H). apply sound_digit_2 in E as (t0 & -> & G0).
  apply (f_equal (fun x => match x with ROk r a => Some (r, a) | _ => None end)) in H.
  apply Some_inj, pair_equal_spec in H as [<- H]. unfold offset_opt in H.
  replace (3600 * Z.of_N a + 60 * Z.of_N a0)%Z with (60 * (60 * Z.of_N a + Z.of_N a0))%Z in H by lia.
  destruct b.
  - change (beq "+" "+") with true in H. cbv iota in H.
    destruct (_ && _)%bool eqn:R; [| discriminate]. apply Some_inj in H as <-.
    apply andb_true_iff in R as [R1 R2]. apply Z.ltb_lt in R1, R2.
    exists (bs "+" ++ t ++ t0). split; [now rewrite <- !app_assoc |].
    split; [now apply g_zone_east | now split].
  - change (beq "-" "+") with false in H. cbv iota in H.
    destruct (_ && _)%bool eqn:R; [| discriminate]. apply Some_inj in H as <-.
    apply andb_true_iff in R as [R1 R2]. apply Z.ltb_lt in R1, R2.
    exists (bs "-" ++ t ++ t0). split; [now rewrite <- !app_assoc |].
    split; [now apply g_zone_west | now split].
Qed.
Hint Resolve sound_date sound_day_fixed : soundb.
Lemma sound_date_time : sound p_date_time G_date_time.
Proof.
  ssplit. unfold p_date_time, p_time in H.
  apply bind_inv in H as (r1 & u & E & H). apply (reads_char bDQ) in E as ->.
  apply bind_inv in H as (r2 & d & E & H). apply sound_day_fixed in E as (td & -> & Gd).
  apply bind_inv in H as (r3 & u2 & E & H). apply tag_inv in E as ->.
  apply bind_inv in H as (r4 & m & E & H). apply sound_month in E as (tm & -> & Gm).
  apply bind_inv in H as (r5 & u3 & E & H). apply tag_inv in E as ->.
  apply bind_inv in H as (r6 & y & E & H). apply sound_digit_4 in E as (ty & -> & Gy).
  apply bind_inv in H as (r7 & u4 & E & H). apply reads_sp in E as ->.
  apply bind_inv in H as (r8 & t & E & H).
  apply bind_inv in E as (r9 & hh & E1 & E). apply sound_digit_2 in E1 as (th & -> & Gh).
  apply bind_inv in E as (r10 & u5 & E1 & E). apply tag_inv in E1 as ->.
  apply bind_inv in E as (r11 & mi & E1 & E). apply sound_digit_2 in E1 as (ti & -> & Gi).
  apply bind_inv in E as (r12 & u6 & E1 & E). apply tag_inv in E1 as ->.
  apply bind_inv in E as (r13 & se & E1 & E). apply sound_digit_2 in E1 as (ts & -> & Gs).
  injection E as -> <-.
  apply bind_inv in H as (r14 & u7 & E & H). apply reads_sp in E as ->.
  apply bind_inv in H as (r15 & z & E & H).
  apply bind_inv in H as (r16 & u8 & E2 & H). apply (reads_char bDQ) in E2 as ->.
  destruct (from_ymd_opt y m d) as [date |] eqn:Y; [| discriminate H].
  unfold from_hms_opt in H.
  destruct ((hh <? 24) && (mi <? 60) && (se <? 60))%N%bool eqn:T; [| discriminate H].
  destruct z as [o |]; [| discriminate H].
  destruct ((y <=? 9999)%N && Z.eqb (Z.rem o 60) 0)%bool eqn:V; [| discriminate H].
  apply andb_true_iff in V as [V1 V2]. apply N.leb_le in V1. apply Z.eqb_eq in V2.
  apply sound_zone in E. destruct E as (tz & -> & Gz & Rz). inv H.
  pose proof (from_ymd_inv _ _ _ _ Y) as ->.
  sfin ltac:(eapply g_date_time; try eassumption).
  apply andb_true_iff in T as [T T3]. apply andb_true_iff in T as [T1 T2].
  apply N.ltb_lt in T1, T2, T3.
  split; [now apply ymd_real |]. cbn [dt_hour dt_min dt_sec dt_offset].
  repeat split; try assumption; try lia.
  exists (o ÷ 60)%Z. apply Z.quot_exact; [lia | assumption].
Qed.

(** CONDSTORE, STATUS *)
Lemma sound_attr_flag : sound p_attr_flag G_attr_flag.
Proof.
  intros i r a H. unfold p_attr_flag in H. apply alt_inv in H as [H | [_ H]].
  - apply (sound_name' _ (bs "\\") _ attribute_flag_table AFExtension) in H as (t & -> & G);
      [| apply reads_tag | exact attr_flag_table_ok].
    inversion G as [u b G']; subst. eexists. split; [reflexivity |]. now apply g_af_system.
  - sd. destruct G as [V ->]. exists t. split; [reflexivity | now constructor].
Qed.
Lemma sound_entry_type : sound p_entry_type_req (word entry_type_table).
Proof. ssplit. unfold p_entry_type_req in H. sd; sfin sword. Qed.
Hint Resolve sound_attr_flag sound_entry_type : soundb.
Lemma kw_cons c s k : same_letters k (c :: s) -> lower c = c -> upper c = c ->
  exists k', k = c :: k' /\ same_letters k' s.
Proof.
  intros S L U. inversion S as [| x y xs ys S1 S2]; subst. apply same_letter_spec in S1.
  exists xs. split; [| assumption]. f_equal. revert S1. rewrite L. revert L U.
  assert (H : forall c x, lower c = c -> upper c = c -> lower x = c -> x = c);
    [| intros; now apply H].
  clear. intros c x E1 E2 <-. revert E2. 
  assert (H : forall x, (negb (beq (upper (lower x)) (lower x)) || beq x (lower x))%bool = true)
    by (apply byte_forall; vm_compute; reflexivity).
  specialize (H x). intros E2. rewrite E2, beq_refl in H. now apply beq_eq in H.
Qed.
Lemma sound_modseq_ext : sound p_search_modseq_ext G_modseq_ext.
Proof.
  ssplit. unfold p_search_modseq_ext, p_entry_flag_name in H. sd.
  apply kw_cons in K as (k' & -> & K); [| reflexivity | reflexivity].
  sfin ltac:(constructor; eassumption).
Qed.
Lemma sound_status_att : sound p_status_att (word status_att_table).
Proof.
  ssplit. unfold p_status_att in H. unfold status_att_table. sd; try (sfin sword).
  rewrite Gate. sfin sword.
Qed.
Lemma sound_status_val : sound p_status_att_val G_status_val.
Proof.
  ssplit. unfold p_status_att_val in H.
  assert (W : forall s L f k t n, In (s, (L, f)) status_val_table -> same_letters k s -> L t n ->
    G_status_val (k ++ t) (f n)).
  { intros s L f k t n I S Lt. eapply g_status_val; [econstructor; eassumption | assumption]. }
  unfold status_val_table in W. sd.
  all: rewrite ?Gate in W; sfin ltac:(eapply W; [in_table | eassumption | eassumption]).
Qed.

End SoundCore.

#[export] Hint Resolve sound_number sound_number64 sound_nz sound_valzer sound_modseq_value
  sound_quoted sound_literal sound_literal8 sound_string sound_nstring sound_astring sound_atom
  sound_text sound_tag sound_base64 sound_charset sound_sequence_set sound_mailbox
  sound_list_mailbox sound_flag sound_flag_list sound_flag_fetch sound_flag_perm sound_flag_name
  sound_enable_name sound_date sound_date_time sound_attr_flag sound_modseq_ext sound_status_att
  sound_status_val : soundb.
