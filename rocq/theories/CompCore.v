(** Completeness of the parsers of ParseCore.v. *)

From Verif Require Import Bytes BytesFacts Dec Features Nom Types Utf8 Conv Base64 Date Valid FragSpec FragFacts
  EncodeCtx Encode EncodeFacts ParseCore ParserFacts QuotedFacts OkCore OkResp RtFacts RtTac RtCore
  ValueSpec ValueFacts Grammar SoundTac SoundCore SoundCap CompTac.
Open Scope nat_scope.

Definition ndig := no is_digit.
Definition natom := no is_atom_char.
Definition nastr := no is_astring_char.
Definition nlist := no is_list_char.
Definition is_eol (b : byte) : bool := beq b bCR || beq b bLF.
Definition isb (c : byte) : byte -> bool := fun b => beq b c.

Section CompCore.
Context {F : features}.

Lemma non_of (g : byte -> bool) s : nx (no g) s = true -> non g (hd_error s) = true.
Proof. now destruct s. Qed.
Lemma some_hd f s : nx f s = true -> some (hd_error s) = true.
Proof. now destruct s. Qed.

(** Numbers *)
Lemma num_text max t n : G_num max t n -> t <> [] /\ forallb is_digit t = true /\ parse_max max t = Some n.
Proof.
  intros (N & D & L). apply digits_spec in D as [D <-]. repeat split; auto.
  unfold parse_max. rewrite undec_digits by assumption. now apply N.leb_le in L as ->.
Qed.
Lemma digits_utf8 t : forallb is_digit t = true -> utf8_ok t = true.
Proof.
  intros D. apply utf8_ascii. rewrite forallb_forall in *. intros b I. specialize (D b I).
  revert D. apply byte_impl. vm_compute. reflexivity.
Qed.
Lemma tw1_go g t s : t <> [] -> forallb g t = true -> nx (no g) s = true ->
  take_while1 g (t ++ s) = ROk s t.
Proof. intros N H Hs. unfold take_while1. rewrite nx_span by assumption. now destruct t. Qed.
Lemma comp_digits max : complete (p_digits max) (G_num max) ndig.
Proof.
  intros t n s G N. apply num_text in G as (Ne & D & E). unfold p_digits.
  eapply map_res_go; [| exact E]. eapply expect_go; [now apply tw1_go |].
  now rewrite digits_utf8.
Qed.
Lemma comp_number : complete p_number G_number ndig.
Proof. apply comp_digits. Qed.
Lemma comp_number64 : complete p_number64 G_number64 ndig.
Proof. apply comp_digits. Qed.
Lemma comp_valzer : complete p_mod_sequence_valzer G_number64 ndig.
Proof. apply comp_digits. Qed.
Lemma nonzero_go n : n <> 0%N -> nonzero n = Some n.
Proof. intros H. unfold nonzero. now rewrite (proj2 (N.eqb_neq _ _) H). Qed.
Lemma comp_nz : complete p_nz_number G_nz_number ndig.
Proof.
  intros t n s [G Z] N. eapply map_res_go; [apply comp_number; eassumption | now apply nonzero_go].
Qed.
Lemma comp_modseq_value : complete p_mod_sequence_value G_nz_number64 ndig.
Proof.
  intros t n s [G Z] N. eapply map_res_go; [apply comp_number64; eassumption | now apply nonzero_go].
Qed.
Lemma beg_num max : begins (G_num max) is_digit.
Proof.
  intros t n G. apply num_text in G as (N & D & _). destruct t as [| b t]; [congruence |].
  cbn in *. now apply andb_true_iff in D.
Qed.
Lemma beg_number : begins G_number is_digit.
Proof. apply beg_num. Qed.
Lemma beg_number64 : begins G_number64 is_digit.
Proof. apply beg_num. Qed.
Lemma beg_nz : begins G_nz_number is_digit.
Proof. intros t n [G _]. eapply beg_num; exact G. Qed.
Lemma beg_nz64 : begins G_nz_number64 is_digit.
Proof. intros t n [G _]. eapply beg_num; exact G. Qed.

(** Atoms and the like *)
Lemma beg_some g (X : byte -> Prop) : (forall b, X b -> g b = true) -> begins (fun t a => some_of X t /\ a = t) g.
Proof. intros H t a [[N V] ->]. destruct V; [congruence | cbn; auto]. Qed.
Lemma some_nx (X : byte -> Prop) g t : (forall b, X b -> g b = true) -> some_of X t -> nx g t = true.
Proof. intros H [N V]. destruct V; [congruence | cbn; auto]. Qed.
Lemma atom_nx t : some_of ATOM_CHAR t -> nx is_atom_char t = true.
Proof. apply some_nx. intros b. apply is_atom_char_spec. Qed.
Lemma comp_atom : complete p_atom G_atom natom.
Proof.
  intros t a s [V ->] N. apply atom_ok_spec in V. rewrite <- (dump_W t) at 1.
  apply (P_full _ _ _ _ (P_p_atom t V)). now apply non_of.
Qed.
Lemma comp_text : complete p_text G_text (no is_text_char).
Proof.
  intros t a s [V ->] N. apply text_ok_spec in V. rewrite <- (dump_W t) at 1.
  apply (P_full _ _ _ _ (P_p_text t V)). now apply non_of.
Qed.
Lemma comp_tag : complete p_tag_imap G_tag (no is_tag_char).
Proof.
  intros t a s [V ->] N. apply tag_ok_spec in V. rewrite <- (dump_W t) at 1.
  apply (P_full _ _ _ _ (P_p_tag t V)). now apply non_of.
Qed.
Lemma beg_atom : begins G_atom is_atom_char.
Proof. apply beg_some. intros b. apply is_atom_char_spec. Qed.
Lemma beg_tag : begins G_tag is_tag_char.
Proof. apply beg_some. intros b. apply is_tag_char_spec. Qed.
Lemma beg_text : begins G_text is_text_char.
Proof. apply beg_some. intros b. apply is_text_char_spec. Qed.

(** Strings *)
Lemma quoted_go w s r : quoted_body w s -> many_of TEXT_CHAR s ->
  p_quoted ([bDQ] ++ w ++ [bDQ] ++ r) = ROk r s.
Proof.
  intros B T. apply quoted_body_spec in B as ->. apply quoted_ok_spec in T.
  exact (p_quoted_read s r T).
Qed.
Lemma comp_quoted : complete p_quoted G_quoted yes.
Proof. intros t a s [w x B T] N. flat. now apply quoted_go. Qed.
Lemma beg_quoted : begins G_quoted (isb bDQ).
Proof. now intros t a [w s B T]. Qed.
Lemma comp_lit_mode : complete p_lit_mode G_lit_mode (no (isb "+"%byte)).
Proof.
  intros t a s G N. unfold p_lit_mode. destruct G.
  - cbn [app]. eapply pmap_go; [apply opt_no; fb | reflexivity].
  - eapply pmap_go; [apply opt_go; now apply char_go | reflexivity].
Qed.
Lemma lit_header_go o d n m mode e s : G_number d n -> G_lit_mode m mode -> eol e ->
  p_lit_header o (o ++ d ++ m ++ bs "}" ++ e ++ s) = ROk s (n, mode).
Proof.
  intros D M E. unfold p_lit_header. eapply bind_go; [apply tag_ok' |].
  eapply bind_go; [apply comp_number; [exact D | now destruct M] |].
  eapply bind_go; [apply comp_lit_mode; [exact M | reflexivity] |].
  eapply bind_go; [apply tag_ok' |].
  eapply bind_go; [now apply crlf_go | reflexivity].
Qed.
Lemma found_go n m s : nx yes s = true -> p_lit_found n m s = ROk s tt.
Proof. now destruct s. Qed.
Lemma comp_literal : complete p_literal G_literal yes.
Proof.
  intros t a s [d m mode e x D M E V] N. rewrite <- !app_assoc. unfold p_literal.
  eapply bind_go; [eapply lit_header_go; eassumption |]. cbv beta iota.
  eapply bind_go; [apply found_go; destruct x; [exact N | reflexivity] |].
  eapply bind_go; [apply take_read |]. apply literal_ok_spec in V. now rewrite V.
Qed.
Lemma comp_literal8 : complete p_literal8 G_literal8 yes.
Proof.
  intros t a s [d m mode e x D M E] N. rewrite <- !app_assoc. unfold p_literal8.
  eapply bind_go; [eapply lit_header_go; eassumption |]. cbv beta iota.
  eapply bind_go; [apply found_go; destruct x; [exact N | reflexivity] |].
  eapply bind_go; [apply take_read |]. reflexivity.
Qed.
Lemma beg_literal : begins G_literal (isb "{"%byte).
Proof. now intros t a []. Qed.
Lemma beg_literal8 : begins G_literal8 (isb "~"%byte).
Proof. now intros t a []. Qed.
Definition is_str (b : byte) : bool := beq b bDQ || beq b "{"%byte.
Lemma comp_string : complete p_string G_string yes.
Proof.
  intros t a s G N. unfold p_string. destruct G as [t x G | w x U B V T | t x G].
  - apply alt_here. eapply pmap_go; [apply comp_quoted; eassumption | reflexivity].
  - pose proof B as B'. apply quoted_body_spec in B' as ->.
    assert (V' : utf8_ok x = true) by (now rewrite utf8_escape in V).
    apply alt_skip.
    + apply bind_err. rewrite <- !app_assoc.
      assert (Q : quoted_ok x = false).
      { destruct (quoted_ok x) eqn:E; [| reflexivity]. now apply quoted_ok_spec in E. }
      destruct (Rj_p_quoted x (fun _ => true) Q) as [E _]. specialize (E s eq_refl).
      rewrite dump_quoted in E. exact E.
    + rewrite <- !app_assoc. apply alt_here, gate_go; [assumption |]. eapply pmap_go;
      [exact (p_quoted_utf8_read x s V') | reflexivity].
  - apply alt_skip; [pose proof (beg_literal _ _ G); fb |].
    apply alt_skip; [pose proof (beg_literal _ _ G); fb |].
    eapply (pmap_go _ p_literal); [apply comp_literal; eassumption | reflexivity].
Qed.
Lemma beg_string : begins G_string is_str.
Proof.
  intros t a [? ? G | | ? ? G].
  - eapply nx_weak; [eapply beg_quoted; exact G | reflexivity].
  - reflexivity.
  - eapply nx_weak; [eapply beg_literal; exact G | reflexivity].
Qed.
Hint Resolve comp_number comp_number64 comp_valzer comp_nz comp_modseq_value comp_atom comp_text comp_tag
  comp_quoted comp_literal comp_literal8 comp_string : compdb.
Hint Resolve beg_number beg_number64 beg_nz beg_nz64 beg_atom beg_tag beg_text beg_quoted beg_literal
  beg_literal8 beg_string : begdb.

Definition is_nstr (b : byte) : bool := is_str b || beq b "N"%byte || beq b "n"%byte.
Lemma comp_nstring : complete p_nstring G_nstring yes.
Proof. intros t a s G N. unfold p_nstring. destruct G; unfold G_nil in *; ok. Qed.
Lemma beg_nstring : begins G_nstring is_nstr.
Proof. intros t a G. rewrite <- (app_nil_r t). destruct G; unfold G_nil in *; nxg. Qed.
Definition is_astr (b : byte) : bool := is_str b || is_astring_char b.
Lemma comp_astring : complete p_astring G_astring nastr.
Proof.
  intros t a s G N. unfold p_astring. destruct G as [t V | t x G]; [| ok].
  apply alt_here. eapply pmap_go; [| reflexivity]. apply atom_ext_ok_spec in V.
  rewrite <- (dump_W t) at 1. apply (P_full _ _ _ _ (P_p_atom_ext t V)). now apply non_of.
Qed.
Lemma beg_astring : begins G_astring is_astr.
Proof.
  intros t a [u V | u x G].
  - revert V. apply some_nx. intros b V. apply is_astring_char_spec in V. revert V.
    apply byte_impl. vm_compute. reflexivity.
  - rewrite <- (app_nil_r u). nxg.
Qed.
Definition is_lstr (b : byte) : bool := is_str b || is_list_char b.
Lemma comp_list_mailbox : complete p_list_mailbox G_list_mailbox nlist.
Proof.
  intros t a s G N. unfold p_list_mailbox. destruct G as [t V | t x G]; [| ok].
  apply alt_here. eapply pmap_go; [| reflexivity]. apply list_char_string_ok_spec in V.
  rewrite <- (dump_W t) at 1. apply (P_full _ _ _ _ (P_p_list_char t V)). now apply non_of.
Qed.
Lemma comp_charset : complete p_charset G_charset natom.
Proof.
  intros t a s G N. unfold p_charset. destruct G as [t V | t x G]; [| ok].
  apply alt_here. eapply pmap_go; [| reflexivity]. now apply comp_atom.
Qed.
Definition is_cset (b : byte) : bool := beq b bDQ || is_atom_char b.
Lemma beg_charset : begins G_charset is_cset.
Proof.
  intros t a [u V | u x G].
  - apply atom_nx in V. eapply nx_weak; [exact V | vm_compute; reflexivity].
  - rewrite <- (app_nil_r u). nxg.
Qed.
Lemma twmn_go m g t s : m <= length t -> forallb g t = true ->
  take_while_m_n m (length t) g (t ++ s) = ROk s t.
Proof.
  intros L D. rewrite <- (dump_W t) at 2. now apply (P_full _ _ _ _ (P_twmn m t g any L D)).
Qed.
Lemma quoted_body_one w b : quoted_body w [b] ->
  (w = [b] /\ is_quoted_specials b = false) \/ (w = ["\"%byte; b] /\ is_quoted_specials b = true).
Proof.
  intros Q. inversion Q as [| ? w' ? H E | ? w' ? H E]; subst; inversion E; subst.
  - left. split; [reflexivity |]. destruct (is_quoted_specials b) eqn:S; [| reflexivity].
    apply is_quoted_specials_spec in S. contradiction.
  - right. split; [reflexivity |]. now apply is_quoted_specials_spec.
Qed.
Lemma quoted_char_go w b s : TEXT_CHAR b -> quoted_body w [b] -> p_quoted_char (w ++ s) = ROk s b.
Proof.
  intros T Q. apply is_text_char_spec in T. unfold p_quoted_char.
  eapply (expect_go _ _ _ _ b); [| replace (quoted_char_ok b) with true; [reflexivity |]; symmetry; revert T; apply byte_impl; vm_compute; reflexivity].
  apply quoted_body_one in Q as [[-> S] | [-> S]].
  - apply alt_here. eapply expect_go; [apply (twmn_go 1 _ [b]); [cbn; lia |] | reflexivity].
    cbn. unfold is_any_text_char_except_quoted_specials. now rewrite T, S.
  - apply alt_skip; [cbn [app]; fb |]. eapply (expect_go _ _ _ _ [b]); [| reflexivity].
    cbn [app]. eapply bind_go; [eapply tag_go; reflexivity |].
    apply (twmn_go 1 _ [b]); [cbn; lia |]. cbn. now rewrite S.
Qed.
Lemma comp_base64 : complete p_base64 G_base64 (no (fun b => is_base64_char b || beq b "="%byte)).
Proof.
  intros t p s G N. apply base64_spec, b64_decode_encode in G as ->.
  rewrite <- (dump_W (b64_encode p)). apply (P_full _ _ _ _ (P_p_base64 p)). now apply non_of.
Qed.

(** Sequence sets *)
Definition is_seq (b : byte) : bool := is_digit b || beq b "*"%byte.
Lemma comp_seq_number : complete p_seq_number G_seq_number ndig.
Proof. intros t a s G N. destruct G; flat; ok. Qed.
Lemma beg_seq_number : begins G_seq_number is_seq.
Proof. intros t a G. rewrite <- (app_nil_r t). destruct G; cbn [bs app]; nxg. Qed.
Hint Resolve comp_nstring comp_astring comp_list_mailbox comp_charset comp_base64 comp_seq_number : compdb.
Hint Resolve beg_nstring beg_astring beg_charset beg_seq_number : begdb.
Lemma comp_sequence : complete (alt [p_seq_range; pmap SSingle p_seq_number]) G_sequence
  (no (fun b => is_digit b || beq b ":"%byte)).
Proof. intros t a s G N. destruct G; flat; ok. Qed.
Lemma beg_sequence : begins G_sequence is_seq.
Proof. intros t a G. rewrite <- (app_nil_r t). destruct G; flat; nxg. Qed.
Definition nseq := no (fun b => is_digit b || beq b ":"%byte || beq b ","%byte).
Lemma comp_sequence_set : complete p_sequence_set G_sequence_set nseq.
Proof.
  apply complete_vecn; [| intros t l; apply sep_by_len].
  eapply complete_sep1; [apply comp_sequence | reflexivity | intros; apply (tag_go (bs ",")); reflexivity
    | vm_compute; reflexivity | intros b E; rf].
Qed.
Lemma beg_sequence_set : begins G_sequence_set is_seq.
Proof. apply begins_sep, beg_sequence. Qed.
Hint Resolve comp_sequence_set : compdb.
Hint Resolve beg_sequence_set : begdb.

(** Mailboxes, flags *)
Lemma comp_mailbox : complete p_mailbox G_mailbox nastr.
Proof.
  intros t m s [u a x G H] N. eapply expect_go; [apply comp_astring; eassumption |].
  rewrite bytes_of_astring_eq in H. unfold mailbox_from, mailbox_other_ok.
  pose proof (inbox_spec (astring_bytes a)) as I.
  destruct H as [[-> S] | [-> S]].
  - rewrite (proj2 I S), andb_true_r. now rewrite (eqi_ascii _ (bs "inbox")) by (try apply I; try assumption; reflexivity).
  - destruct (eqi _ _); [destruct S; now apply I |]. now rewrite andb_false_r.
Qed.
Lemma beg_mailbox : begins G_mailbox is_astr.
Proof. intros t m [u a x G H]. eapply beg_astring; exact G. Qed.
(** Names *)
Lemma comp_name {A} (from : bytes -> A) table other : from_table from table other ->
  distinct table = true -> forallb (fun p => atom_ok (fst p)) table = true ->
  complete (pmap from p_atom) (name table other) natom.
Proof.
  intros Hf D T t a s G N. eapply pmap_go.
  - apply comp_atom; [| exact N]. split; [| reflexivity]. apply atom_ok_spec, (name_some _ _ _ _ G T).
  - rewrite Hf. now apply name_look.
Qed.
Lemma beg_name {A} (table : list (bytes * A)) other :
  forallb (fun p => atom_ok (fst p)) table = true -> begins (name table other) is_atom_char.
Proof. intros T t a G. apply atom_nx, atom_ok_spec, (name_some _ _ _ _ G T). Qed.
Lemma comp_name' {A B} (q : parser B) c (from : bytes -> A) table other :
  (forall s, exists u, q (c ++ s) = ROk s u) -> from_table from table other ->
  distinct table = true -> forallb (fun p => atom_ok (fst p)) table = true ->
  complete (pmap from (q ;;; p_atom)) (after c (name table other)) natom.
Proof.
  intros Q Hf D T t a s [u x G] N. rewrite <- app_assoc. destruct (Q (u ++ s)) as [y E].
  eapply pmap_go.
  - eapply bind_go; [exact E |]. apply comp_atom; [| exact N].
    split; [| reflexivity]. apply atom_ok_spec, (name_some _ _ _ _ G T).
  - rewrite Hf. now apply name_look.
Qed.
Definition is_flg (b : byte) : bool := is_atom_char b || beq b bBS.
Lemma comp_flag : complete p_flag G_flag natom.
Proof.
  intros t f s G N. unfold p_flag. destruct G as [t f G | t V].
  - apply alt_here. eapply (comp_name' (char bBS) [bBS] _ flag_table);
      [intros r; eexists; now apply char_go | exact flag_table_ok | reflexivity | reflexivity
      | now constructor | exact N].
  - apply alt_skip; [apply atom_nx in V; fb |]. eapply (pmap_go _ p_atom); [| reflexivity].
    now apply comp_atom.
Qed.
Lemma beg_flag : begins G_flag is_flg.
Proof.
  intros t f [u x G | u V]; [reflexivity |]. eapply nx_weak; [now apply atom_nx | vm_compute; reflexivity].
Qed.
Hint Resolve comp_mailbox comp_flag : compdb.
Hint Resolve beg_mailbox beg_flag : begdb.
Lemma sp_go s : sp (" "%byte :: s) = ROk s bSP.
Proof. reflexivity. Qed.
Lemma open_go s : tag (bs "(") ("("%byte :: s) = ROk s tt.
Proof. reflexivity. Qed.
Lemma close_go s : tag (bs ")") (")"%byte :: s) = ROk s tt.
Proof. reflexivity. Qed.
Lemma closec_go s : char ")" (")"%byte :: s) = ROk s ")"%byte.
Proof. reflexivity. Qed.
Lemma openc_go s : char "(" ("("%byte :: s) = ROk s "("%byte.
Proof. reflexivity. Qed.
Lemma comp_list1 {A} (p : parser A) L f g : complete p L f -> f " "%byte = true -> sub_of g f = true ->
  sub_of g (no (isb " "%byte)) = true -> complete (sep_list1 sp p) (sep_by (bs " ") L) g.
Proof.
  intros C Fs S G. eapply complete_sep1; [exact C | exact Fs | exact sp_go | exact S |].
  intros b E. apply refuses_char. apply (sub_use _ _ _ G) in E. unfold no, isb in E.
  now apply negb_true_iff in E.
Qed.
Lemma comp_list0 {A} (p : parser A) L f : complete p L f -> f " "%byte = true -> f ")"%byte = true ->
  refuses p ")"%byte -> complete (sep_list0 sp p) (list_of (bs " ") L) (isb ")"%byte).
Proof.
  intros C Fs Fc R. eapply complete_sep0; [exact C | exact Fs | exact sp_go | | |].
  - unfold sub_of. rewrite forallb_forall. intros b _. unfold isb. destruct (beq b ")") eqn:E; [| reflexivity].
    apply beq_eq in E as ->. now rewrite Fc.
  - intros b E. apply beq_eq in E as ->. rf.
  - intros b E. now apply beq_eq in E as ->.
Qed.
(** A list in parentheses *)
Lemma comp_plist1 {A} (p : parser A) L f : complete p L f -> f " "%byte = true -> f ")"%byte = true ->
  complete (delimited (tg "(") (sep_list1 sp p) (tg ")")) (in_parens (sep_by (bs " ") L)) yes.
Proof.
  intros C Fs Fc. eapply complete_parens; [apply (comp_list1 p L f (isb ")"%byte)); [exact C | exact Fs | | reflexivity] | reflexivity
    | exact open_go | exact close_go].
  unfold sub_of. rewrite forallb_forall. intros b _. unfold isb. destruct (beq b ")") eqn:E; [| reflexivity].
  apply beq_eq in E as ->. now rewrite Fc.
Qed.
Lemma comp_plist0 {A} (p : parser A) L f : complete p L f -> f " "%byte = true -> f ")"%byte = true ->
  refuses p ")"%byte -> complete (delimited (tg "(") (sep_list0 sp p) (tg ")")) (in_parens (list_of (bs " ") L)) yes.
Proof.
  intros C Fs Fc R. eapply complete_parens; [apply (comp_list0 p L f); assumption | reflexivity
    | exact open_go | exact close_go].
Qed.
Lemma comp_flag_list : complete p_flag_list G_flag_list yes.
Proof. eapply comp_plist0; [apply comp_flag | reflexivity | reflexivity | rf]. Qed.
Lemma comp_flag_fetch : complete p_flag_fetch G_flag_fetch natom.
Proof.
  assert (R : forall t, same_letters t (bs "\Recent") <-> eqi t (bs "\recent") = true)
    by (intros t; rewrite same_letters_spec, eqi_spec; reflexivity).
  intros t f s G N. unfold p_flag_fetch. destruct G as [t S | t f G S].
  - pose proof (proj1 (R t) S) as E. apply (SoundCore.kw_cons bBS (bs "Recent")) in S as (k & -> & S); [| reflexivity ..].
    rewrite sys_read; [now rewrite E | | now apply non_of].
    apply atom_ok_spec. eapply letters_atom; [exact S | reflexivity].
  - assert (E : pmap FFFlag p_flag (t ++ s) = ROk s (FFFlag f)).
    { eapply pmap_go; [apply comp_flag; eassumption | reflexivity]. }
    destruct G as [t f G | t V].
    + change (bs "\" ++ t) with (bBS :: t) in *. rewrite sys_read; [| exact (name_some _ _ _ _ G eq_refl) | now apply non_of].
      destruct (eqi (bBS :: t) (bs "\recent")) eqn:Q; [now apply R in Q | exact E].
    + assert (recognize (char bBS ;;; p_atom) (t ++ s) = RErr) as ->; [| exact E].
      apply atom_nx in V. fb.
Qed.
Lemma beg_flag_fetch : begins G_flag_fetch is_flg.
Proof.
  intros t f [u S | u x G S]; [| eapply beg_flag; exact G].
  rewrite <- (app_nil_r u). nxg.
Qed.
Lemma comp_flag_perm : complete p_flag_perm G_flag_perm natom.
Proof.
  intros t f s G N. unfold p_flag_perm. destruct G as [| t f G]; [flat; ok |].
  apply alt_skip; [| ok]. apply bind_err. destruct G as [t f G | t V].
  - pose proof (beg_name flag_table FExtension eq_refl _ _ G) as B. destruct t as [| b t]; [discriminate |]. cbn in B. cbn.
    replace (beq b "*") with false; [reflexivity |]. symmetry. revert B. generalize b.
    apply byte_no. vm_compute. reflexivity.
  - apply atom_nx in V. fb.
Qed.
Lemma beg_flag_perm : begins G_flag_perm is_flg.
Proof. intros t f [| u x G]; [reflexivity | eapply beg_flag; exact G]. Qed.
Lemma comp_flag_name : complete (pmap flag_name_attribute_from (char bBS ;;; p_atom)) G_flag_name natom.
Proof.
  apply comp_name'; [| exact flag_name_table_ok | reflexivity | reflexivity].
  intros r. eexists. now apply char_go.
Qed.
Lemma beg_flag_name : begins G_flag_name (isb bBS).
Proof. now apply begins_after. Qed.
Hint Resolve comp_flag_list comp_flag_fetch comp_flag_perm comp_flag_name : compdb.
Hint Resolve beg_flag_fetch beg_flag_perm beg_flag_name : begdb.

(** Dates *)
Lemma pow10 s n : digits s n -> (n < 10 ^ N.of_nat (length s))%N.
Proof.
  induction 1 as [| s n b _ IH Hb]; [reflexivity |]. rewrite app_length, Nat.add_comm. cbn [length Nat.add].
  rewrite Nat2N.inj_succ, N.pow_succ_r by lia. lia.
Qed.
Lemma digit_mn_go m k max t n s : m <= k -> (10 ^ N.of_nat k - 1 <= max)%N -> k <> 0 -> G_digits k t n ->
  p_digit_m_n m k max (t ++ s) = ROk s n.
Proof.
  intros L X K [<- D]. pose proof (pow10 _ _ D) as B. apply digits_spec in D as [D V]. unfold p_digit_m_n.
  eapply map_res_go; [eapply expect_go; [now apply twmn_go | now rewrite digits_utf8] |].
  unfold parse_max. rewrite undec_digits by (try assumption; now destruct t).
  rewrite V. rewrite (proj2 (N.leb_le _ _)) by lia. reflexivity.
Qed.
Lemma comp_digit_2 : complete p_digit_2 (G_digits 2) yes.
Proof. intros t n s G _. apply digit_mn_go; auto; discriminate. Qed.
Lemma comp_digit_4 : complete p_digit_4 (G_digits 4) yes.
Proof. intros t n s G _. apply digit_mn_go; auto; discriminate. Qed.
Lemma comp_digit_1_2 k : In k [1; 2] -> complete p_digit_1_2 (G_digits k) ndig.
Proof.
  intros [<- | [<- | []]] t n s G N.
  - destruct G as [L D]. pose proof (pow10 _ _ D) as B. rewrite L in B.
    change (10 ^ N.of_nat 1)%N with 10%N in B. apply digits_spec in D as [D V].
    unfold p_digit_1_2, p_digit_m_n. eapply map_res_go.
    + eapply (expect_go _ _ _ s t t); [| now rewrite digits_utf8].
      destruct t as [| b [|]]; try discriminate. cbn in D. rewrite andb_true_r in D.
      destruct s as [| c s]; [discriminate |]. cbn in N. unfold ndig, no in N. apply negb_true_iff in N.
      unfold take_while_m_n. cbn. rewrite D. cbn. now rewrite N.
    + unfold parse_max. rewrite undec_digits by (try assumption; now destruct t).
      rewrite V. rewrite (proj2 (N.leb_le _ _)) by lia. reflexivity.
  - apply digit_mn_go; auto; discriminate.
Qed.
Lemma comp_month : complete p_date_month (word month_table) yes.
Proof. intros t n s G N. words G; ok. Qed.
Lemma beg_digits k : k <> 0 -> begins (G_digits k) is_digit.
Proof.
  intros K t n [<- D]. apply digits_spec in D as [D _]. destruct t; [now destruct K |].
  cbn in *. now apply andb_true_iff in D.
Qed.
Lemma beg_digits2 : begins (G_digits 2) is_digit.
Proof. now apply beg_digits. Qed.
Lemma beg_digits4 : begins (G_digits 4) is_digit.
Proof. now apply beg_digits. Qed.
Hint Resolve comp_digit_2 comp_digit_4 comp_month : compdb.
Hint Resolve beg_digits2 beg_digits4 : begdb.
Lemma real_ymd y m d : real_date (mkDate y m d) -> from_ymd_opt y m d = Some (mkDate y m d) /\ (y <=? 9999)%N = true.
Proof.
  intros R. apply v_date_spec in R. unfold v_date in R. apply andb_true_iff in R as [R1 R2].
  cbn in *. unfold from_ymd_opt. now rewrite R1.
Qed.
Lemma date_text_go t d s : G_date_text t d -> nx yes s = true -> p_date_text (t ++ s) = ROk s (Some d).
Proof.
  intros [k td d' tm m ty y K Gd Gm Gy R] N. flat. unfold p_date_text.
  eapply bind_go; [apply (comp_digit_1_2 k K); [exact Gd | reflexivity] |].
  eapply bind_go; [ok |]. eapply bind_go; [ok |]. eapply bind_go; [ok |]. eapply bind_go; [ok |].
  apply real_ymd in R as [-> ->]. reflexivity.
Qed.
Lemma beg_date_text : begins G_date_text is_digit.
Proof.
  intros t d [k td d' tm m ty y K Gd Gm Gy R]. apply nx_app. apply (beg_digits k) in Gd; [exact Gd |].
  destruct K as [<- | [<- | []]]; discriminate.
Qed.
Lemma comp_date : complete p_date G_date yes.
Proof.
  intros t d s G N. unfold p_date, p_date_opt. eapply map_res_go; [| reflexivity].
  destruct G as [t d G | t d G].
  - apply alt_here. now apply date_text_go.
  - apply alt_skip; [flat; fb |]. flat. eapply bind_go; [ok |].
    eapply bind_go; [apply date_text_go; [exact G | reflexivity] |]. ok.
Qed.
Definition is_dat (b : byte) : bool := is_digit b || beq b bDQ.
Lemma beg_date : begins G_date is_dat.
Proof.
  intros t d [u x G | u x G]; [| reflexivity]. eapply nx_weak; [eapply beg_date_text; exact G | vm_compute; reflexivity].
Qed.
Lemma comp_day_fixed : complete p_date_day_fixed G_day_fixed yes.
Proof.
  intros t d s [t' d' [L D] | t' d' G] N; unfold p_date_day_fixed; [| flat; ok].
  apply alt_here. destruct t' as [| b [|]]; try discriminate. flat.
  apply digits_spec in D as [D V]. eapply expect_go.
  - eapply bind_go; [ok |]. apply (twmn_go 1 _ [b]); [cbn; lia | exact D].
  - cbn in V |- *. now rewrite <- V.
Qed.
Lemma zone_go t z s : G_zone t z -> (-86400 < z < 86400)%Z -> p_zone (t ++ s) = ROk s (Some z).
Proof.
  intros G R. assert (E : offset_opt z = Some z).
  { unfold offset_opt. now rewrite (proj2 (Z.ltb_lt _ _) (proj1 R)), (proj2 (Z.ltb_lt _ _) (proj2 R)). }
  destruct G as [th h tm m Gh Gm | th h tm m Gh Gm]; flat; unfold p_zone.
  - eapply bind_go; [ok |]. eapply bind_go; [apply digit_mn_go; eauto; discriminate |].
    eapply bind_go; [apply digit_mn_go; eauto; discriminate |]. cbv zeta beta. change (beq "+" "+") with true. cbv iota.
    replace (3600 * Z.of_N h + 60 * Z.of_N m)%Z with (60 * (60 * Z.of_N h + Z.of_N m))%Z by lia. now rewrite E.
  - eapply bind_go; [ok |]. eapply bind_go; [apply digit_mn_go; eauto; discriminate |].
    eapply bind_go; [apply digit_mn_go; eauto; discriminate |]. cbv zeta beta. change (beq "-" "+") with false. cbv iota.
    replace (- (3600 * Z.of_N h + 60 * Z.of_N m))%Z with (- (60 * (60 * Z.of_N h + Z.of_N m)))%Z by lia. now rewrite E.
Qed.
Lemma beg_day_fixed : begins G_day_fixed (fun b => is_digit b || beq b " "%byte).
Proof.
  intros t d [u x G | u x G]; [reflexivity |]. eapply nx_weak; [exact (beg_digits2 _ _ G) | vm_compute; reflexivity].
Qed.
Hint Resolve comp_day_fixed comp_date : compdb.
Hint Resolve beg_day_fixed beg_date : begdb.
Lemma comp_date_time : complete p_date_time G_date_time yes.
Proof.
  intros t a x [td d tm m ty y th h ti i ts s tz z Gd Gm Gy Gh Gi Gs Gz R] N. flat. unfold p_date_time.
  destruct R as (R & Rh & Ri & Rs & Rz & (k & Rk)). cbn [dt_date dt_hour dt_min dt_sec dt_offset] in *.
  apply real_ymd in R as [E1 E2].
  do 7 (eapply bind_go; [ok |]).
  eapply bind_go; [unfold p_time; ok |]. eapply bind_go; [ok |].
  eapply bind_go; [apply zone_go; [exact Gz | exact Rz] |].
  eapply bind_go; [ok |]. cbv beta. rewrite E1, E2. unfold from_hms_opt.
  rewrite !(proj2 (N.ltb_lt _ _)) by assumption. cbn [andb].
  replace (Z.rem z 60) with 0%Z; [reflexivity |]. symmetry. apply Z.rem_divide; [lia |].
  exists k. lia.
Qed.
Lemma beg_date_time : begins G_date_time (isb bDQ).
Proof. now intros t d []. Qed.
(** CONDSTORE, STATUS *)
Lemma comp_attr_flag : complete p_attr_flag G_attr_flag natom.
Proof.
  intros t f s G N. unfold p_attr_flag. destruct G as [t f G | t V].
  - apply alt_here. eapply (comp_name' (tg "\\") (bs "\\") _ attribute_flag_table);
      [intros r; eexists; now apply tag_go | exact attr_flag_table_ok | reflexivity | reflexivity
      | now constructor | exact N].
  - apply alt_skip; [apply atom_nx in V; fb |]. eapply (pmap_go _ p_atom); [| reflexivity].
    now apply comp_atom.
Qed.
Lemma comp_entry_type : complete p_entry_type_req (word entry_type_table) yes.
Proof. intros t n s G N. words G; ok. Qed.
Hint Resolve comp_date_time comp_attr_flag comp_entry_type : compdb.
Hint Resolve beg_date_time : begdb.
Lemma comp_modseq_ext : complete p_search_modseq_ext G_modseq_ext yes.
Proof.
  intros t a s [k t' f u e K G W] N. flat. unfold p_search_modseq_ext, p_entry_flag_name.
  ok.
Qed.
Lemma comp_status_att : complete p_status_att (word status_att_table) (no (isb "-"%byte)).
Proof. intros t n s G N. words G; ok. Qed.
Lemma comp_status_val : complete p_status_att_val G_status_val ndig.
Proof. intros t n s G N. destruct G as [k L f t n W G]. words W; flat; ok. Qed.
Lemma beg_month : begins (word month_table) is_alpha.
Proof. intros t n G. rewrite <- (app_nil_r t). words G; nxg. Qed.
Lemma beg_status_att : begins (word status_att_table) is_alpha.
Proof. intros t n G. rewrite <- (app_nil_r t). words G; nxg. Qed.
Lemma beg_status_val : begins G_status_val is_alpha.
Proof. intros t n [k L f u m W G]. words W; nxg. Qed.
(** Instances *)
Lemma comp_auth : complete (pmap auth_mechanism_from p_atom) G_auth_type natom.
Proof. apply comp_name; [exact auth_table_ok | reflexivity | reflexivity]. Qed.
Lemma comp_resource : complete (pmap resource_from p_atom) G_resource natom.
Proof. apply comp_name; [exact resource_table_ok | reflexivity | reflexivity]. Qed.
Lemma comp_thread_alg : complete (pmap threading_algorithm_from p_atom) G_thread_alg natom.
Proof. apply comp_name; [exact thread_table_ok | reflexivity | reflexivity]. Qed.
Lemma enable_fine : distinct enable_table = true /\ forallb (fun p => atom_ok (fst p)) enable_table = true.
Proof. unfold enable_table. destruct ext_condstore_qresync, ext_metadata, ext_utf8; split; reflexivity. Qed.
Lemma comp_enable : complete (pmap capability_enable_from p_atom) G_enable_name natom.
Proof. apply comp_name; [exact enable_table_ok | apply enable_fine | apply enable_fine]. Qed.
Lemma beg_auth : begins G_auth_type is_atom_char.
Proof. now apply beg_name. Qed.
Lemma beg_resource : begins G_resource is_atom_char.
Proof. now apply beg_name. Qed.
Lemma beg_thread_alg : begins G_thread_alg is_atom_char.
Proof. now apply beg_name. Qed.
Lemma beg_enable : begins G_enable_name is_atom_char.
Proof. apply beg_name, enable_fine. Qed.
Hint Resolve comp_modseq_ext comp_status_att comp_status_val comp_auth comp_resource comp_thread_alg comp_enable : compdb.
Hint Resolve beg_month beg_status_att beg_status_val beg_auth beg_resource beg_thread_alg beg_enable : begdb.
End CompCore.
#[export] Hint Resolve
  comp_number comp_number64 comp_valzer comp_nz comp_modseq_value comp_atom comp_text comp_tag
  comp_quoted comp_literal comp_literal8 comp_string comp_nstring comp_astring comp_list_mailbox
  comp_charset comp_base64 comp_seq_number comp_sequence_set comp_mailbox comp_flag comp_flag_list
  comp_flag_fetch comp_flag_perm comp_flag_name comp_digit_2 comp_digit_4 comp_month
  comp_day_fixed comp_date comp_date_time comp_attr_flag comp_entry_type comp_modseq_ext
  comp_status_att comp_status_val comp_auth comp_resource comp_thread_alg comp_enable : compdb.
#[export] Hint Resolve
  beg_number beg_number64 beg_nz beg_nz64 beg_atom beg_tag beg_text beg_quoted beg_literal
  beg_literal8 beg_string beg_nstring beg_astring beg_charset beg_seq_number beg_sequence_set
  beg_mailbox beg_flag beg_flag_fetch beg_flag_perm beg_flag_name beg_digits2 beg_digits4
  beg_day_fixed beg_date beg_date_time beg_month beg_status_att beg_status_val beg_auth
  beg_resource beg_thread_alg beg_enable : begdb.
