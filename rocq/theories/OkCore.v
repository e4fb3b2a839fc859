(** [ok] for the parsers of ParseCore.v. *)

From Verif Require Import Bytes BytesFacts Dec Features Nom Types Utf8 Conv Base64 Date
  Fragmentizer FragSpec FragFacts ParserFacts QuotedFacts ParseCore Valid OkTac.
Open Scope nat_scope.

Section OkCore.
Context {F : features}.
Notation lv := LDecoded.

Lemma ok_validated k (f : byte -> bool) (valid : bytes -> bool) :
  (forall b, f b = true -> inb 0x00 0x7f b = true) ->
  (forall s, s <> [] -> forallb f s = true -> valid s = true) ->
  ok k valid (validated valid (take_while1 f)).
Proof.
  intros Ha Hv. apply (ok_expect k (fun s => utf8_ok s && valid s)).
  - apply ok_take_while1. intros s N H. rewrite (Hv s N H), andb_true_r.
    apply utf8_ascii. revert H. now apply forallb_impl.
  - intros s H. unfold str_of. rewrite H. exists s. split; [reflexivity |].
    now apply andb_true_iff in H.
Qed.

Lemma ok_p_digits k max : ok k (fun n => N.leb n max) (p_digits max).
Proof.
  apply (ok_map_res k (fun s => utf8_ok s)).
  - apply (ok_expect k utf8_ok).
    + apply ok_take_while1. intros s _ H. apply utf8_ascii. revert H. apply forallb_impl.
      apply byte_impl. vm_compute. reflexivity.
    + intros s H. rewrite H. eauto.
  - intros s n _ H. apply parse_max_some in H as (_ & _ & _ & H). now apply N.leb_le.
Qed.
Lemma ok_p_number k : ok k v_u32 p_number.
Proof. apply ok_p_digits. Qed.
Lemma ok_p_number64 k : ok k v_u64 p_number64.
Proof. apply ok_p_digits. Qed.
Lemma ok_p_nz_number k : ok k v_nz32 p_nz_number.
Proof.
  apply (ok_map_res k v_u32); [apply ok_p_number |]. intros a b V. unfold nonzero.
  destruct (N.eqb a 0) eqn:E; [discriminate |]. intros [= <-]. unfold v_nz32.
  rewrite E. exact V.
Qed.
Lemma ok_p_mod_sequence_valzer k : ok k v_u64 p_mod_sequence_valzer.
Proof. apply ok_p_number64. Qed.
Lemma ok_p_mod_sequence_value k : ok k v_nz64 p_mod_sequence_value.
Proof.
  apply (ok_map_res k v_u64); [apply ok_p_number64 |]. intros a b V. unfold nonzero.
  destruct (N.eqb a 0) eqn:E; [discriminate |]. intros [= <-]. unfold v_nz64.
  rewrite E. exact V.
Qed.

(** *** Quoted strings *)
Lemma escaped_inv normal i r s :
  (forall b, normal b = true -> is_quoted_specials b = false) ->
  escaped normal bBS is_quoted_specials i = ROk r s ->
  exists u, s = escape_quoted u /\ forallb (esc_ok normal) u = true /\ i = s ++ r.
Proof.
  intros N H. unfold escaped in H. rewrite escaped_esc1 in H by lia.
  now apply esc1_ok in H.
Qed.
Lemma escaped_read normal u r :
  (forall b, normal b = true -> is_quoted_specials b = false) ->
  forallb (esc_ok normal) u = true ->
  escaped normal bBS is_quoted_specials (escape_quoted u ++ bDQ :: r)
  = ROk (bDQ :: r) (escape_quoted u).
Proof.
  intros N H. unfold escaped. rewrite escaped_esc1 by lia. now apply esc1_read.
Qed.
Lemma text_esc_ok u : forallb (esc_ok is_any_text_char_except_quoted_specials) u = quoted_ok u.
Proof.
  unfold quoted_ok. induction u as [| b u IH]; [reflexivity |]. cbn. now rewrite IH, esc_ok_text.
Qed.
Lemma any_esc_ok u : forallb (esc_ok (fun b => negb (is_quoted_specials b))) u = true.
Proof. apply forallb_forall. intros b _. apply esc_ok_any. Qed.
Lemma quoted_utf8 u : quoted_ok u = true -> utf8_ok u = true.
Proof.
  intros H. apply utf8_ascii. revert H. apply forallb_impl. apply byte_impl.
  vm_compute. reflexivity.
Qed.

Lemma ok_p_quoted k : ok k quoted_ok p_quoted.
Proof.
  unfold p_quoted. apply (ok_bind k any); [auto with okdb |]. intros _ _.
  apply (ok_bind k (fun s => quoted_ok (unescape_quoted s))).
  - apply (ok_expect k (fun s => utf8_ok s && quoted_ok (unescape_quoted s))).
    + apply ok_escaped. intros i r s H.
      apply esc1_ok in H as (u & -> & Hu & _); [| exact normal_text].
      rewrite text_esc_ok in Hu. now rewrite unescape_escape, utf8_escape, quoted_utf8, Hu.
    + intros s H. apply andb_true_iff in H as [H1 H]. rewrite H1. eauto.
  - intros s Hs. apply (ok_bind k any); [auto with okdb |]. intros _ _.
    apply (ok_expect k quoted_ok); [now apply ok_ret |]. intros a Ha. rewrite Ha. eauto.
Qed.
Lemma ok_p_quoted_utf8 k : ok k utf8_ok p_quoted_utf8.
Proof.
  unfold p_quoted_utf8. apply (ok_bind k any); [auto with okdb |]. intros _ _.
  apply (ok_bind k (fun s => utf8_ok (unescape_quoted s))).
  - apply (ok_map_res k (fun s => implb (utf8_ok s) (utf8_ok (unescape_quoted s)))).
    + apply ok_escaped. intros i r s H.
      apply esc1_ok in H as (u & -> & _ & _); [| exact normal_any].
      rewrite unescape_escape, utf8_escape. now destruct (utf8_ok u).
    + intros a b V. destruct (utf8_ok a); [| discriminate]. intros [= <-]. exact V.
  - intros s Hs. apply (ok_bind k any); [auto with okdb |]. intros _ _. now apply ok_ret.
Qed.

(** What they accept *)
Lemma p_quoted_inv i r s : p_quoted i = ROk r s ->
  quoted_ok s = true /\ i = bDQ :: escape_quoted s ++ bDQ :: r.
Proof.
  intros H. apply bind_inv in H as (r1 & b & H1 & H). apply char_inv in H1 as [-> _].
  apply bind_inv in H as (r2 & e & H2 & H). apply bind_inv in H2 as (r3 & e' & H2 & H3).
  apply escaped_inv in H2 as (u & -> & Hu & ->); [| exact normal_text].
  rewrite text_esc_ok in Hu. rewrite utf8_escape, quoted_utf8 in H3 by exact Hu. inv H3.
  apply bind_inv in H as (r3 & b' & H3 & H). apply char_inv in H3 as [-> _].
  unfold expect, bind, ret in H. rewrite unescape_escape, Hu in H. inv H. auto.
Qed.
Lemma p_quoted_read s r : quoted_ok s = true ->
  p_quoted (bDQ :: escape_quoted s ++ bDQ :: r) = ROk r s.
Proof.
  intros H. unfold p_quoted, bind at 1, dquote, char, sat. rewrite beq_refl.
  unfold expect, bind. rewrite escaped_read; [| exact normal_text | now rewrite text_esc_ok].
  rewrite utf8_escape, quoted_utf8 by exact H. unfold ret. rewrite beq_refl.
  now rewrite unescape_escape, H.
Qed.
Lemma p_quoted_utf8_inv i r s : p_quoted_utf8 i = ROk r s ->
  utf8_ok s = true /\ i = bDQ :: escape_quoted s ++ bDQ :: r.
Proof.
  intros H. apply bind_inv in H as (r1 & b & H1 & H). apply char_inv in H1 as [-> _].
  apply bind_inv in H as (r2 & e & H2 & H). apply bind_inv in H2 as (r3 & e' & H2 & H3).
  apply escaped_inv in H2 as (u & -> & Hu & ->); [| exact normal_any].
  rewrite utf8_escape in H3. destruct (utf8_ok u) eqn:U; [| discriminate]. inv H3.
  apply bind_inv in H as (r3 & b' & H3 & H). apply char_inv in H3 as [-> _].
  inv H. now rewrite unescape_escape.
Qed.
Lemma p_quoted_utf8_read s r : utf8_ok s = true ->
  p_quoted_utf8 (bDQ :: escape_quoted s ++ bDQ :: r) = ROk r s.
Proof.
  intros H. unfold p_quoted_utf8, bind at 1, dquote, char, sat. rewrite beq_refl.
  unfold map_res, bind. rewrite escaped_read; [| exact normal_any | apply any_esc_ok].
  rewrite utf8_escape, H. unfold ret. rewrite beq_refl. now rewrite unescape_escape.
Qed.

(** *** Literals *)
Lemma p_number_inv i r n : p_number i = ROk r n -> exists d,
  i = d ++ r /\ d <> [] /\ forallb is_digit d = true /\ n = dval d /\ (n <= u32_max)%N.
Proof.
  intros H. apply bind_inv in H as (r1 & s & H1 & H).
  apply bind_inv in H1 as (r2 & s' & H1 & H2). apply take_while1_inv in H1 as (-> & N & D & _).
  destruct (utf8_ok s'); [| discriminate]. inv H2.
  destruct (parse_max u32_max s) as [m |] eqn:E; [| discriminate]. inv H.
  apply parse_max_some in E as (_ & _ & E & L). exists s. auto.
Qed.
Lemma p_lit_mode_inv i r m : p_lit_mode i = ROk r m -> i = plus_of m ++ r.
Proof.
  intros H. apply pmap_inv in H as (o & H & ->).
  apply opt_inv in H as [(a & -> & H) | (-> & -> & _)]; [| reflexivity].
  apply char_inv in H as [-> _]. reflexivity.
Qed.
Lemma p_lit_header_inv open i r n m : p_lit_header open i = ROk r (n, m) ->
  exists d eol, i = open ++ d ++ plus_of m ++ bs "}" ++ eol ++ r /\ d <> [] /\
  forallb is_digit d = true /\ n = dval d /\ (n <= u32_max)%N /\
  (eol = [bCR; bLF] \/ quirk_crlf_relaxed = true /\ eol = [bLF]).
Proof.
  intros H. apply bind_inv in H as (r1 & u & H1 & H). apply tag_inv in H1 as ->.
  apply bind_inv in H as (r2 & n' & H2 & H). apply p_number_inv in H2 as (d & -> & Nd & D & E & L).
  apply bind_inv in H as (r3 & m' & H3 & H). apply p_lit_mode_inv in H3 as ->.
  apply bind_inv in H as (r4 & u' & H4 & H). apply tag_inv in H4 as ->.
  apply bind_inv in H as (r5 & u'' & H5 & H). apply crlf_inv in H5 as (eol & -> & He).
  inv H. exists d, eol. auto 10.
Qed.
Lemma ok_p_lit_header k open : ok k (fun nm => v_u32 (fst nm)) (p_lit_header open).
Proof.
  apply (ok_bind k any); [auto with okdb |]. intros _ _.
  apply (ok_bind k v_u32); [apply ok_p_number |]. intros n Hn.
  apply (ok_bind k any).
  { apply (ok_pmap k any); [| reflexivity]. apply (ok_opt k any); auto with okdb. }
  intros m _. apply (ok_bind k any); [auto with okdb |]. intros _ _.
  apply (ok_bind k any); [auto with okdb |]. intros _ _. now apply ok_ret.
Qed.
Lemma ok_lit {A} k pre (w : A -> bool) (f : N * lit_mode -> parser A) :
  (forall nm, v_u32 (fst nm) = true -> ok k w (f nm)) ->
  ok k w (nm <- p_lit_header (pre ++ bs "{") ;; p_lit_found (fst nm) (snd nm) ;;; f nm).
Proof.
  intros Hf i L. unfold ok_at, bind at 1.
  pose proof (ok_p_lit_header k (pre ++ bs "{") i L) as H. unfold ok_at in H.
  destruct (p_lit_header (pre ++ bs "{") i) as [r [n m] | | | [t n m |] |] eqn:E; try tauto.
  - destruct H as ([c ->] & V & X).
    destruct r as [| b r].
    + cbn. split; [reflexivity |]. apply p_lit_header_inv in E as (d & eol & E & R).
      exists pre, d, eol. rewrite !app_nil_r in *. rewrite E, <- !app_assoc.
      split; [reflexivity | tauto].
    + cbn [bind p_lit_found fst snd].
      pose proof (Hf (n, m) V (b :: r) ltac:(rewrite app_length in L; lia)) as G.
      unfold ok_at in G. unfold bind, p_lit_found.
      destruct (f (n, m) (b :: r)) as [r' a | | | [t n' m' |] |] eqn:E2; try tauto.
      * destruct G as ([c' E3] & V' & X'). repeat split; auto.
        -- exists (c ++ c'). now rewrite E3, app_assoc.
        -- intros x Lx. rewrite X by exact Lx. cbn [app]. apply X'. rewrite !app_length in *. lia.
      * intros x Lx. rewrite X by exact Lx. cbn [app]. apply G. rewrite !app_length in *. lia.
      * split; [tauto | now apply announced_app].
      * intros x Lx. rewrite X by exact Lx. cbn [app]. apply G. rewrite !app_length in *. lia.
  - intros x Lx. unfold bind at 1. now rewrite H.
  - intros x Lx. unfold bind at 1. now rewrite H.
Qed.
Lemma ok_p_literal k : ok k (v_literal lv) p_literal.
Proof.
  apply (ok_eq k _ (nm <- p_lit_header ([] ++ bs "{") ;; p_lit_found (fst nm) (snd nm) ;;;
    d <- take (fst nm) ;; if literal_ok d then ret (mkLit d (snd nm)) else pfail)).
  - apply ok_lit. intros [n m] Hn. cbn [fst snd] in *.
    apply (ok_bind k (fun d => N.leb (lenN d) u32_max)).
    + apply ok_take. now intros s ->.
    + intros d Hd. destruct (literal_ok d) eqn:Ld; [| apply ok_pfail].
      apply ok_ret. unfold v_literal. cbn. now rewrite Ld, Hd.
  - intros i _. unfold p_literal, bind at 1 4. cbn [app].
    destruct (p_lit_header _ i) as [r [n m] | | | |]; reflexivity.
Qed.
Lemma ok_p_literal8 k : ok k (v_literal8 lv) p_literal8.
Proof.
  apply (ok_eq k _ (nm <- p_lit_header (bs "~" ++ bs "{") ;; p_lit_found (fst nm) (snd nm) ;;;
    d <- take (fst nm) ;; ret (mkLit8 d (snd nm)))).
  - apply ok_lit. intros [n m] Hn. cbn [fst snd] in *.
    apply (ok_bind k (fun d => N.leb (lenN d) u32_max)).
    + apply ok_take. now intros s ->.
    + intros d Hd. now apply ok_ret.
  - intros i _. unfold p_literal8, bind at 1 4. cbn [app].
    destruct (p_lit_header _ i) as [r [n m] | | | |]; reflexivity.
Qed.

Lemma ok_p_string k : ok k (v_istring lv) p_string.
Proof.
  unfold p_string.
  apply (ok_eq k _ (orp (orp (pmap IQuoted p_quoted) (gate ext_utf8 (pmap IQuotedUtf8 p_quoted_utf8)))
    (pmap ILiteral p_literal))).
  2:{ intros i _. cbn. unfold orp. now destruct (pmap IQuoted p_quoted i). }
  apply ok_orp.
  2:{ apply (ok_pmap k (v_literal lv)); [apply ok_p_literal | auto]. }
  apply (ok_orp2 k _ any).
  - apply (ok_pmap k quoted_ok); [apply ok_p_quoted | auto].
  - apply ok_gate. intros _. apply (ok_pmap k utf8_ok); [apply ok_p_quoted_utf8 | auto].
  - intros i r a L H1 H2. destruct ext_utf8 eqn:U; [| discriminate].
    apply pmap_inv in H2 as (s & H2 & ->). apply p_quoted_utf8_inv in H2 as [U8 ->].
    cbn. rewrite U, U8. cbn. destruct (quoted_ok s) eqn:Q; [exfalso | reflexivity].
    unfold pmap, bind in H1. rewrite p_quoted_read in H1 by exact Q. discriminate.
Qed.

Lemma ok_p_quoted_char k : ok k quoted_char_ok p_quoted_char.
Proof.
  apply (ok_expect k quoted_char_ok).
  2:{ intros a V. rewrite V. eauto. }
  repeat apply ok_alt_cons; [| | apply ok_alt_nil].
  - apply (ok_expect k (fun s => match s with [b] => quoted_char_ok b | _ => false end)).
    + apply ok_take_while_m_n; [lia |]. intros [| b [| c s]] L H; cbn in L; try lia.
      cbn in H. rewrite andb_true_r in H. revert b H L. intros b H _. revert b H.
      apply byte_impl. vm_compute. reflexivity.
    + intros [| b [| c s]] H; try discriminate. cbn. eauto.
  - apply (ok_expect k (fun s => match s with [b] => quoted_char_ok b | _ => false end)).
    + apply (ok_bind k any); [auto with okdb |]. intros _ _.
      apply ok_take_while_m_n; [lia |]. intros [| b [| c s]] L H; cbn in L; try lia.
      cbn in H. rewrite andb_true_r in H. revert b H L. intros b H _. revert b H.
      apply byte_impl. vm_compute. reflexivity.
    + intros [| b [| c s]] H; try discriminate. cbn. eauto.
Qed.

Ltac byte_fact := apply byte_impl; vm_compute; reflexivity.
Lemma ok_p_atom k : ok k atom_ok p_atom.
Proof. apply ok_validated; [byte_fact |]. now intros [| b s]. Qed.
Lemma ok_p_text k : ok k text_ok p_text.
Proof. apply ok_validated; [byte_fact |]. now intros [| b s]. Qed.
Lemma ok_p_tag_imap k : ok k tag_ok p_tag_imap.
Proof. apply ok_validated; [byte_fact |]. now intros [| b s]. Qed.
Lemma ok_p_atom_ext k : ok k atom_ext_ok (validated atom_ext_ok (take_while1 is_astring_char)).
Proof. apply ok_validated; [byte_fact |]. now intros [| b s]. Qed.
Lemma ok_p_list_char k :
  ok k list_char_string_ok (validated list_char_string_ok (take_while1 is_list_char)).
Proof. apply ok_validated; [byte_fact |]. now intros [| b s]. Qed.
Hint Resolve ok_p_number ok_p_number64 ok_p_nz_number ok_p_mod_sequence_value
  ok_p_mod_sequence_valzer ok_p_quoted ok_p_quoted_utf8 ok_p_literal ok_p_literal8 ok_p_string
  ok_p_quoted_char ok_p_atom ok_p_text ok_p_tag_imap ok_p_atom_ext ok_p_list_char : okdb.

Lemma ok_p_astring k : ok k (v_astring lv) p_astring.
Proof. unfold p_astring. oks. Qed.
Lemma ok_p_nil k : ok k any p_nil.
Proof. apply ok_kw. Qed.
Hint Resolve ok_p_astring ok_p_nil : okdb.
Lemma ok_p_nstring k : ok k (v_nstring lv) p_nstring.
Proof. unfold p_nstring, v_nstring. oks. Qed.
Lemma ok_p_charset k : ok k v_charset p_charset.
Proof. unfold p_charset. oks. Qed.
Lemma ok_p_base64 k : ok k any p_base64.
Proof.
  apply (ok_map_res k any); [| reflexivity].
  apply (ok_recognize k any); [| reflexivity].
  apply (ok_bind k any); [apply ok_take_while; reflexivity |]. intros _ _.
  apply (ok_opt k any); auto. oks.
Qed.
Hint Resolve ok_p_nstring ok_p_charset ok_p_base64 : okdb.

(** *** sequence.rs, mailbox.rs, flag.rs *)
Lemma ok_p_seq_number k : ok k v_seq_or_uid p_seq_number.
Proof. unfold p_seq_number. oks. Qed.
Hint Resolve ok_p_seq_number : okdb.
Lemma ok_p_sequence_set k : ok k (v_sequence_set lv) p_sequence_set.
Proof.
  apply (ok_weaken k (v1 v_sequence)).
  - unfold p_sequence_set, p_seq_range. oks.
  - intros s H. unfold v_sequence_set. now rewrite H.
Qed.
Lemma ok_p_list_mailbox k : ok k (v_list_mailbox lv) p_list_mailbox.
Proof. unfold p_list_mailbox. oks. Qed.
Lemma lower_ascii b : inb 0x00 0x7f (lower b) = true -> inb 0x00 0x7f b = true.
Proof. revert b. byte_fact. Qed.
Lemma eqi_ascii s t : forallb (inb 0x00 0x7f) (lowers t) = true -> eqi s t = true ->
  utf8_ok s = true.
Proof.
  intros A E. apply eqi_spec in E. rewrite <- E in A. apply utf8_ascii.
  unfold lowers in A. clear E. induction s as [| b s IH]; [reflexivity |]. cbn [map forallb] in *.
  apply andb_true_iff in A as [A1 A2]. now rewrite (lower_ascii _ A1), IH.
Qed.
Lemma mailbox_from_some a : v_astring lv a = true ->
  exists m, mailbox_from a = Some m /\ v_mailbox lv m = true.
Proof.
  intros V. unfold mailbox_from. destruct (eqi (astring_bytes a) (bs "inbox")) eqn:E.
  - rewrite (eqi_ascii _ (bs "inbox")) by (try assumption; reflexivity). cbn. eauto.
  - rewrite andb_false_r. unfold mailbox_other_ok. rewrite E. cbn [negb].
    eexists. split; [reflexivity |]. cbn. unfold mailbox_other_ok. now rewrite V, E.
Qed.
Lemma ok_p_mailbox k : ok k (v_mailbox lv) p_mailbox.
Proof. apply (ok_expect k (v_astring lv)); [auto with okdb |]. apply mailbox_from_some. Qed.

Ltac chain := repeat match goal with |- context [if ?c then _ else _] =>
  let E := fresh "E" in destruct c eqn:E end.
Lemma v_flag_system a : atom_ok a = true -> v_flag (flag_system a) = true.
Proof.
  intros V. destruct (flag_system a) eqn:E; try reflexivity.
  - assert (a0 = a) as -> by (unfold flag_system in E; cbv zeta in E;
      repeat match type of E with context [if ?c then _ else _] => destruct c end; congruence).
    cbn. now rewrite V, E.
  - unfold flag_system in E; cbv zeta in E.
    repeat match type of E with context [if ?c then _ else _] => destruct c end; discriminate.
Qed.
Lemma ok_p_flag k : ok k v_flag p_flag.
Proof.
  unfold p_flag. apply ok_alt_cons; [| oks].
  eapply ok_pmap; [oks | apply v_flag_system].
Qed.
Hint Resolve ok_p_sequence_set ok_p_list_mailbox ok_p_mailbox ok_p_flag : okdb.
Lemma ok_p_flag_list k : ok k (forallb v_flag) p_flag_list.
Proof. unfold p_flag_list. oks. Qed.
Lemma ok_p_flag_perm k : ok k v_flag_perm p_flag_perm.
Proof. unfold p_flag_perm. oks. Qed.
Lemma v_flag_name_from a : atom_ok a = true -> v_flag_name (flag_name_attribute_from a) = true.
Proof.
  intros V. destruct (flag_name_attribute_from a) eqn:E; try reflexivity.
  assert (a0 = a) as -> by (unfold flag_name_attribute_from in E; cbv zeta in E;
    repeat match type of E with context [if ?c then _ else _] => destruct c end; congruence).
  cbn. now rewrite V, E.
Qed.
Lemma ok_p_mbx_list_flags k : ok k (v1 v_flag_name) p_mbx_list_flags.
Proof.
  unfold p_mbx_list_flags. ok_step; [oks |].
  eapply ok_pmap; [oks | apply v_flag_name_from].
Qed.

(** The fetch flag parser looks twice at its input. *)
Lemma p_atom_inv i r s : p_atom i = ROk r s ->
  i = s ++ r /\ atom_ok s = true /\ exists x r', r = x :: r' /\ is_atom_char x = false.
Proof.
  intros H. apply bind_inv in H as (r1 & s' & H1 & H).
  apply take_while1_inv in H1 as (-> & N & D & R). unfold str_of in H.
  destruct (utf8_ok s' && atom_ok s') eqn:E; [| discriminate]. inv H.
  apply andb_true_iff in E as [_ E]. auto.
Qed.
Lemma ok_p_flag_fetch k : ok k (v_flag_fetch lv) p_flag_fetch.
Proof.
  set (bsatom := char bBS ;;; p_atom).
  assert (Hb : ok k atom_ok bsatom) by (unfold bsatom; oks).
  assert (Hr : ok k any (recognize bsatom)) by (eapply ok_recognize; [exact Hb | reflexivity]).
  assert (Hf : ok k any (pmap FFFlag p_flag)) by (eapply ok_pmap; [apply ok_p_flag | reflexivity]).
  apply (ok_post_intro k _ any).
  - intros i L. unfold ok_at, p_flag_fetch. fold bsatom.
    pose proof (Hr i L) as G. unfold ok_at in G.
    pose proof (Hf i L) as G2. unfold ok_at in G2.
    assert (Hinc : recognize bsatom i = RInc -> pmap FFFlag p_flag i = RInc).
    { intros E. assert (E1 : bsatom i = RInc).
      { unfold recognize in E. destruct (bsatom i); congruence. }
      unfold pmap, bind. unfold p_flag. cbn [alt]. unfold orp, pmap at 1, bind at 1.
      fold bsatom. now rewrite E1. }
    assert (Hlit : forall e, recognize bsatom i = RFail e -> pmap FFFlag p_flag i = RFail e).
    { intros e E. assert (E1 : bsatom i = RFail e).
      { unfold recognize in E. destruct (bsatom i); congruence. }
      unfold pmap, bind. unfold p_flag. cbn [alt]. unfold orp, pmap at 1, bind at 1.
      fold bsatom. now rewrite E1. }
    destruct (recognize bsatom i) as [r s | | | e |] eqn:E; try tauto.
    + destruct G as (S & _ & X). destruct (eqi s (bs "\recent")) eqn:Er.
      * repeat split; auto. intros x Lx. now rewrite X, Er.
      * destruct (pmap FFFlag p_flag i) as [r' a | | | [t n m |] |] eqn:E2; try tauto.
        -- destruct G2 as (S2 & _ & X2). repeat split; auto. intros x Lx. now rewrite X, Er, X2.
        -- intros x Lx. now rewrite X, Er, G2.
        -- intros x Lx. now rewrite X, Er, G2.
    + now rewrite Hinc.
    + destruct (pmap FFFlag p_flag i) as [r' a | | | [t n m |] |] eqn:E2; try tauto.
      * destruct G2 as (S2 & _ & X2). repeat split; auto. intros x Lx. now rewrite G, X2.
      * intros x Lx. now rewrite G, G2.
      * intros x Lx. now rewrite G, G2.
    + rewrite (Hlit e eq_refl) in *. destruct e as [t n m |]; [tauto |].
      intros x Lx. rewrite G, G2; auto.
  - intros i r a L. unfold p_flag_fetch. fold bsatom.
    destruct (recognize bsatom i) as [r' s | | | e |] eqn:E; try discriminate.
    + destruct (eqi s (bs "\recent")) eqn:Er; [now intros [= <- <-] |]. intros H.
      apply pmap_inv in H as (f & H & ->). cbn. rewrite (ok_post (ok_p_flag k) i r f L H). cbn.
      destruct f as [| | | | | at' | at']; try reflexivity.
      unfold p_flag in H. cbn [alt] in H. apply orp_inv in H as [H | [_ H]].
      2:{ apply pmap_inv in H as (x & _ & H). discriminate. }
      apply pmap_inv in H as (x & H & Hx). fold bsatom in H.
      assert (x = at').
      { symmetry in Hx. unfold flag_system in Hx; cbv zeta in Hx.
        repeat match type of Hx with context [if ?c then _ else _] => destruct c end; congruence. }
      subst x. assert (Hi : exists c, i = (bBS :: c) ++ r /\ c = at').
      { unfold bsatom in H. apply bind_inv in H as (r1 & c & H1 & H).
        apply char_inv in H1 as [-> ->]. apply p_atom_inv in H as (-> & _ & _).
        exists at'. split; reflexivity. }
      destruct Hi as (c & -> & ->). rewrite (recognize_eq _ _ _ _ H) in E. inv E.
      change (eqi (bBS :: at') (bs "\recent")) with (eqi at' (bs "recent")) in Er.
      exact (f_equal negb Er).
    + intros H. apply pmap_inv in H as (f & H & ->). unfold p_flag in H. cbn [alt] in H.
      unfold recognize in E. destruct (bsatom i) eqn:E2; try discriminate.
      apply orp_inv in H as [H | [H _]]; fold bsatom in H; unfold pmap, bind in H;
        rewrite E2 in H; discriminate.
    + intros H. apply pmap_inv in H as (f & H & ->). cbn.
      rewrite (ok_post (ok_p_flag k) i r f L H). unfold p_flag in H. cbn [alt] in H.
      unfold recognize in E. destruct (bsatom i) eqn:E2; try discriminate.
      apply orp_inv in H as [H | [_ H]].
      * fold bsatom in H. unfold pmap, bind in H. rewrite E2 in H. discriminate.
      * apply pmap_inv in H as (x & _ & ->). reflexivity.
    + intros H. apply pmap_inv in H as (f & H & ->). unfold p_flag in H. cbn [alt] in H.
      unfold recognize in E. destruct (bsatom i) eqn:E2; try discriminate.
      apply orp_inv in H as [H | [H _]]; fold bsatom in H; unfold pmap, bind in H;
        rewrite E2 in H; discriminate.
Qed.
Hint Resolve ok_p_flag_list ok_p_flag_perm ok_p_mbx_list_flags ok_p_flag_fetch : okdb.

(** *** datetime.rs *)
Lemma ok_p_digit_m_n k m n max (w : N -> bool) : m <= n ->
  (forall s x, m <= length s <= n -> parse_max max s = Some x -> w x = true) ->
  ok k w (p_digit_m_n m n max).
Proof.
  intros L Hw. apply (ok_map_res k (fun s => Nat.leb m (length s) && Nat.leb (length s) n)).
  - apply (ok_expect k (fun s => utf8_ok s && (Nat.leb m (length s) && Nat.leb (length s) n))).
    + apply ok_take_while_m_n; [exact L |]. intros s Ls H. rewrite utf8_ascii.
      * apply andb_true_iff. split; [reflexivity |].
        apply andb_true_iff. split; apply Nat.leb_le; lia.
      * revert H. apply forallb_impl. byte_fact.
    + intros s H. apply andb_true_iff in H as [H1 H]. rewrite H1. eauto.
  - intros s x H E. apply andb_true_iff in H as [H1 H2]. apply Nat.leb_le in H1, H2.
    eapply Hw; eauto.
Qed.
Lemma ok_p_digit_1_2 k : ok k any p_digit_1_2.
Proof. apply ok_p_digit_m_n; [lia | reflexivity]. Qed.
Lemma ok_p_digit_2 k : ok k any p_digit_2.
Proof. apply ok_p_digit_m_n; [lia | reflexivity]. Qed.
Lemma dval_lt s : forallb is_digit s = true -> (dval s < 10 ^ lenN s)%N.
Proof.
  induction s as [| b s IH] using rev_ind; [reflexivity |].
  rewrite forallb_app, lenN_app. intros H. apply andb_true_iff in H as [H1 H2].
  rewrite dval_snoc. specialize (IH H1). rewrite N.pow_add_r.
  change (10 ^ lenN [b])%N with 10%N.
  assert (digit_val b < 10)%N; [| lia].
  cbn in H2. rewrite andb_true_r in H2. apply N.ltb_lt. revert b H2. byte_fact.
Qed.
Lemma ok_p_digit_4 k : ok k (fun y => N.leb y 9999) p_digit_4.
Proof.
  apply ok_p_digit_m_n; [lia |]. intros s x L E. apply parse_max_some in E as (_ & D & -> & _).
  apply dval_lt in D. assert (lenN s = 4)%N as Els by (unfold lenN; lia). rewrite Els in D.
  apply N.leb_le. change (10 ^ 4)%N with 10000%N in D. lia.
Qed.
Hint Resolve ok_p_digit_1_2 ok_p_digit_2 ok_p_digit_4 : okdb.
Lemma ok_p_date_month k : ok k any p_date_month.
Proof. unfold p_date_month. oks. Qed.
Hint Resolve ok_p_date_month : okdb.
Lemma ok_p_date_text k : ok k (vopt v_date) p_date_text.
Proof.
  unfold p_date_text. oks. unfold from_ymd_opt.
  destruct (ymd_ok a3 a1 a) eqn:Y; [| oks].
  cbn beta in *. rewrite H3 in *. apply ok_ret. cbn. unfold v_date. cbn. now rewrite Y, H3.
Qed.
Hint Resolve ok_p_date_text : okdb.
Lemma ok_p_date k : ok k v_date p_date.
Proof.
  apply (ok_map_res k (vopt v_date)).
  - unfold p_date_opt. oks.
  - intros [d |] b V; [now intros [= <-] | discriminate].
Qed.
Lemma ok_p_time k : ok k (vopt (fun '(h, m, s) => N.ltb h 24 && N.ltb m 60 && N.ltb s 60)) p_time.
Proof.
  unfold p_time. oks. apply ok_ret. unfold from_hms_opt.
  destruct (_ && _) eqn:E; [exact E | reflexivity].
Qed.
Lemma ok_p_date_day_fixed k : ok k any p_date_day_fixed.
Proof.
  unfold p_date_day_fixed. apply ok_alt_cons; [| oks].
  eapply (ok_expect k (fun s => nonempty s)).
  - eapply ok_bind; [oks |]. intros _ _.
    apply ok_take_while_m_n; [lia |]. intros [| b s] L H; [cbn in L; lia | reflexivity].
  - intros [| b s] H; [discriminate |]. eexists. split; reflexivity.
Qed.
Lemma ok_p_zone k : ok k (vopt (fun o =>
  Z.ltb (-86400) o && Z.ltb o 86400 && Z.eqb (Z.rem o 60) 0)) p_zone.
Proof.
  unfold p_zone. eapply (ok_bind k any); [oks |]. intros sg _.
  eapply ok_bind; [oks |]. intros hh _. eapply ok_bind; [oks |]. intros mm _. cbv zeta.
  apply ok_ret. unfold offset_opt.
  set (o := (3600 * Z.of_N hh + 60 * Z.of_N mm)%Z).
  assert (R : Z.rem o 60 = 0%Z).
  { unfold o. replace (3600 * Z.of_N hh + 60 * Z.of_N mm)%Z
      with ((60 * Z.of_N hh + Z.of_N mm) * 60)%Z by lia. apply Z.rem_mul. discriminate. }
  assert (R' : Z.rem (- o) 60 = 0%Z) by (rewrite Z.rem_opp_l by discriminate; lia).
  destruct (beq sg "+"%byte).
  - destruct (_ && _) eqn:E; [| reflexivity]. cbn. now rewrite E, R.
  - destruct (_ && _) eqn:E; [| reflexivity]. cbn. now rewrite E, R'.
Qed.
Hint Resolve ok_p_date ok_p_time ok_p_date_day_fixed ok_p_zone : okdb.
Lemma ok_p_date_time k : ok k v_date_time p_date_time.
Proof.
  unfold p_date_time.
  eapply ok_bind; [oks |]. intros _ _. eapply ok_bind; [oks |]. intros d _.
  eapply ok_bind; [oks |]. intros _ _. eapply ok_bind; [oks |]. intros m _.
  eapply ok_bind; [oks |]. intros _ _. eapply ok_bind; [oks |]. intros y Hy.
  eapply ok_bind; [oks |]. intros _ _. eapply ok_bind; [oks |]. intros t Ht.
  eapply ok_bind; [oks |]. intros _ _. eapply ok_bind; [oks |]. intros z Hz.
  eapply ok_bind; [oks |]. intros _ _. cbn beta in Hy.
  unfold from_ymd_opt. destruct (ymd_ok y m d) eqn:Y; [| oks].
  destruct t as [[[hh mm] ss] |]; [| oks]. destruct z as [o |]; [| oks].
  cbn in Ht, Hz. apply andb_true_iff in Hz as [Hz1 Hz2]. apply andb_true_iff in Hz1 as [Hz0 Hz1].
  apply andb_true_iff in Ht as [Ht1 Ht2]. apply andb_true_iff in Ht1 as [Ht0 Ht1].
  rewrite Hy, Hz2. cbn [andb]. apply ok_ret. unfold v_date_time, v_date. cbn [dt_date d_year
    d_month d_day dt_hour dt_min dt_sec dt_offset]. now rewrite Y, Hy, Ht0, Ht1, Ht2, Hz0, Hz1, Hz2.
Qed.

(** *** extensions/condstore_qresync.rs, status.rs *)
Lemma ok_p_search_sort_mod_seq k : ok k v_nz64 p_search_sort_mod_seq.
Proof. unfold p_search_sort_mod_seq. oks. Qed.
Lemma v_attribute_flag_system a : atom_ok a = true ->
  v_attribute_flag (attribute_flag_system a) = true.
Proof.
  intros V. destruct (attribute_flag_system a) eqn:E; try reflexivity.
  - assert (a0 = a) as -> by (unfold attribute_flag_system in E; cbv zeta in E;
      repeat match type of E with context [if ?c then _ else _] => destruct c end; congruence).
    cbn. now rewrite V, E.
  - unfold attribute_flag_system in E; cbv zeta in E.
    repeat match type of E with context [if ?c then _ else _] => destruct c end; discriminate.
Qed.
Lemma ok_p_attr_flag k : ok k v_attribute_flag p_attr_flag.
Proof.
  unfold p_attr_flag. apply ok_alt_cons; [| oks].
  eapply ok_pmap; [oks | apply v_attribute_flag_system].
Qed.
Hint Resolve ok_p_date_time ok_p_search_sort_mod_seq ok_p_attr_flag : okdb.
Lemma ok_p_entry_type_req k : ok k any p_entry_type_req.
Proof. unfold p_entry_type_req. oks. Qed.
Lemma ok_p_entry_flag_name k : ok k v_attribute_flag p_entry_flag_name.
Proof. unfold p_entry_flag_name. oks. Qed.
Hint Resolve ok_p_entry_type_req ok_p_entry_flag_name : okdb.
Lemma ok_p_search_modsequence k : ext_condstore_qresync = true ->
  ok k (fun x => v_search_tree lv x && Nat.eqb (search_depth x) 1) p_search_modsequence.
Proof.
  intros X. unfold p_search_modsequence, p_search_modseq_ext.
  eapply ok_bind; [oks |]. intros _ _.
  apply (ok_bind k (vopt (vpair v_attribute_flag (fun _ => true)))).
  - apply ok_opt_v. oks.
  - intros e He. oks.
Qed.
Lemma ok_p_status_att k : ok k v_status_name p_status_att.
Proof. unfold p_status_att. oks. Qed.
Lemma ok_p_status_att_val k : ok k v_status_item p_status_att_val.
Proof. unfold p_status_att_val. oks. Qed.
Hint Resolve ok_p_status_att ok_p_status_att_val : okdb.
Lemma ok_p_status_att_list k : ok k (v1 v_status_item) p_status_att_list.
Proof. unfold p_status_att_list. oks. Qed.

End OkCore.

#[export] Hint Resolve ok_p_number ok_p_number64 ok_p_nz_number ok_p_mod_sequence_value
  ok_p_mod_sequence_valzer ok_p_quoted ok_p_quoted_utf8 ok_p_literal ok_p_literal8 ok_p_string
  ok_p_quoted_char ok_p_atom ok_p_text ok_p_tag_imap ok_p_atom_ext ok_p_list_char
  ok_p_astring ok_p_nil ok_p_nstring ok_p_charset ok_p_base64 ok_p_seq_number
  ok_p_sequence_set ok_p_list_mailbox ok_p_mailbox ok_p_flag ok_p_flag_list ok_p_flag_perm
  ok_p_mbx_list_flags ok_p_flag_fetch ok_p_date ok_p_date_time ok_p_search_sort_mod_seq
  ok_p_attr_flag ok_p_status_att ok_p_status_att_val ok_p_status_att_list : okdb.
