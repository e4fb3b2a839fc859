(** The encoders write what the documented syntax allows. First the tools and the tokens. *)

From Verif Require Import Bytes BytesFacts Dec Features Nom Types Utf8 Conv SeqSet SeqFacts Base64 Date EncodeCtx Encode EncodeFacts
  Valid ValidFacts QuotedFacts EncFragFacts ValueSpec ValueFacts GrowSeq RoundTripSpec AbnfSpec AbnfFacts SentSpec.
Open Scope N_scope.
Open Scope abnf_scope.

(** What [regular] says of a single operation *)
Definition okop (o : op) : Prop :=
  match o with B b => bN b <> 0 /\ b <> bCR /\ b <> bLF | Lit _ _ d => lenN d < 4294967296 end.

Lemma snoc2_inj (t u : bytes) x y a b : t ++ [x; y] = u ++ [a; b] -> t = u.
Proof.
  change [x; y] with ([x] ++ [y]). change [a; b] with ([a] ++ [b]). rewrite !app_assoc. intros H.
  apply app_inj_tail in H as [H _]. now apply app_inj_tail in H as [H _].
Qed.
Lemma header_end is8 m n : exists u, lit_header is8 m n = u ++ [bCR; bLF].
Proof.
  unfold lit_header. eexists ((if is8 then ["~"%byte] else []) ++ "{"%byte :: dec n ++
    match m with Sync => [] | NonSync => ["+"%byte] end ++ ["}"%byte]).
  rewrite <- !app_assoc. cbn [app]. rewrite <- !app_assoc. reflexivity.
Qed.
Lemma regular_ok o : regular (fragments (o ++ e_crlf)) -> Forall okop o.
Proof.
  rewrite fragments_frags.
  enough (X : forall acc, regular (frags acc (o ++ e_crlf)) ->
    Forall (fun b => bN b <> 0 /\ b <> bCR /\ b <> bLF) acc /\ Forall okop o) by now intros H; apply X in H.
  induction o as [| [b | is8 m d] o IH]; intros acc H.
  - split; [| constructor]. cbn [app e_crlf W map frags] in H. rewrite <- app_assoc in H. cbn [app] in H.
    assert (K : plain_line (acc ++ [bCR; bLF])) by (destruct acc; inversion H; assumption).
    destruct K as (t & E & K). now apply snoc2_inj in E as ->.
  - cbn [app frags] in H. apply IH in H as [H1 H2]. apply Forall_app in H1 as [H1 H3].
    split; [assumption |]. constructor; [now inversion H3 | assumption].
  - cbn [app frags] in H. inversion H as [| ? ? H1 H2]; subst. inversion H2 as [| ? ? H3 H4]; subst. apply IH in H4 as [_ H4].
    split; [| now constructor]. destruct H1 as (t & E & K). destruct (header_end is8 m (lenN d)) as [u U]. rewrite U, app_assoc in E.
    apply snoc2_inj in E as <-. now apply Forall_app in K as [K _].
Qed.

Section Sent.
Context {F : features}.
Local Notation D := (derives false false).

(** [Sent a o]: what the operations [o] write is a text of [a]. *)
Definition Sent (a : abnf) (o : list op) : Prop := Forall okop o -> D a (dump o).
(** A sequence of rules; [z] is the end of the message. *)
Definition cats (l : list abnf) : abnf := fold_right Cat Eps l.
Definition Sents (z : list op) (l : list abnf) (o : list op) : Prop := Forall okop o -> D (cats l) (dump (o ++ z)).

Lemma s_enter a o : Sents [] [a] (o ++ []) -> Sent a o.
Proof.
  intros H K. rewrite app_nil_r in H. specialize (H K). rewrite app_nil_r in H. cbn [cats fold_right] in H.
  apply D_cat in H as (u & v & -> & H & G). apply D_eps in G as ->. now rewrite app_nil_r.
Qed.
Lemma s_message a o : Sents e_crlf [a] (o ++ []) -> regular (fragments (o ++ e_crlf)) -> D a (dump (o ++ e_crlf)).
Proof.
  rewrite app_nil_r. intros H K. specialize (H (regular_ok _ K)). cbn [cats fold_right] in H.
  apply D_cat in H as (u & v & -> & H & G). apply D_eps in G as ->. now rewrite app_nil_r.
Qed.
Lemma s_end : Sents [] [] [].
Proof. intros _. constructor. Qed.
Lemma s_crlf : Sents e_crlf [Ref CRLF] [].
Proof.
  intros _. cbn [cats fold_right app]. rewrite <- (app_nil_r (dump e_crlf)). apply d_cat; [| constructor].
  apply d_ref. cbn [rules]. apply d_or_l, d_str. change (dump e_crlf) with [bCR; bLF]. now apply letters_fixed.
Qed.
Section Steps.
Context (z : list op).
Notation S := (Sents z).
Lemma s_cat a b l o : S (a :: b :: l) o -> S (Cat a b :: l) o.
Proof.
  intros H K. specialize (H K). cbn [cats fold_right] in *. apply D_cat in H as (u & v & -> & H & G).
  apply D_cat in G as (w & x & -> & G & I). rewrite app_assoc. apply d_cat; [now apply d_cat | assumption].
Qed.
Lemma s_sub a a' l o : (forall t, D a t -> D a' t) -> S (a :: l) o -> S (a' :: l) o.
Proof.
  intros M H K. specialize (H K). cbn [cats fold_right] in *. apply D_cat in H as (u & v & -> & H & G).
  apply d_cat; auto.
Qed.
Lemma s_or_l a b l o : S (a :: l) o -> S (Or a b :: l) o.
Proof. apply s_sub. intros t. apply d_or_l. Qed.
Lemma s_or_r a b l o : S (b :: l) o -> S (Or a b :: l) o.
Proof. apply s_sub. intros t. apply d_or_r. Qed.
Lemma s_none a l o : S l o -> S (opt a :: l) o.
Proof.
  intros H K. specialize (H K). cbn [cats fold_right]. change (dump (o ++ z)) with ([] ++ dump (o ++ z)).
  apply d_cat; [apply d_or_l, d_eps | assumption].
Qed.
Lemma s_opt a l o : S (a :: l) o -> S (opt a :: l) o.
Proof. apply s_or_r. Qed.
Lemma s_many0 a l o : S l o -> S (Many a :: l) o.
Proof.
  intros H K. specialize (H K). cbn [cats fold_right]. change (dump (o ++ z)) with ([] ++ dump (o ++ z)).
  apply d_cat; [apply d_none | assumption].
Qed.
Lemma s_ref r l o : S (rules r :: l) o -> S (Ref r :: l) o.
Proof. apply s_sub. intros t. apply d_ref. Qed.
Lemma s_feature b a l o : b = true -> S (a :: l) o -> S (Feature b a :: l) o.
Proof. intros E. apply s_sub. intros t. now apply d_feature. Qed.
Lemma s_limit P a l o : S (a :: l) o -> S (Limit P a :: l) o.
Proof. apply s_sub. intros t H. now apply d_limit. Qed.
Lemma s_deeper n f l o : (forall m, S (f m :: l) o) -> S (deeper n f :: l) o.
Proof.
  intros H. destruct n as [| n]; cbn [deeper]; [| apply H]. generalize (H O). apply s_sub. intros t. now apply d_beyond.
Qed.
Lemma s_str0 l o : S l o -> S (Str [] :: l) o.
Proof.
  intros H K. specialize (H K). cbn [cats fold_right]. change (dump (o ++ z)) with ([] ++ dump (o ++ z)).
  apply d_cat; [apply d_str; constructor | assumption].
Qed.
Lemma s_str1 x s y l o : lower y = lower x -> S (Str s :: l) o -> S (Str (x :: s) :: l) (B y :: o).
Proof.
  intros E H K. inversion K as [| ? ? _ K']; subst. specialize (H K'). cbn [cats fold_right app] in *. rewrite dump_B.
  apply D_cat in H as (u & v & -> & H & G). apply D_str in H. change (y :: u ++ v) with ((y :: u) ++ v).
  apply d_cat; [| assumption]. apply d_str. constructor; [now apply same_letter_spec | assumption].
Qed.
Lemma s_leaf a l x o : Sent a x -> S l o -> S (a :: l) (x ++ o).
Proof.
  intros H G K. apply Forall_app in K as [K1 K2]. cbn [cats fold_right]. rewrite <- app_assoc, dump_app. apply d_cat; auto.
Qed.
End Steps.

(** ** Lists *)
Lemma l_join {A} a s (e : A -> list op) l : forallb no_letter s = true -> Forall (fun x => Sent a (e x)) l -> l <> [] ->
  Sent (a ^ Many (Str s ^ a)) (join (W s) e l).
Proof.
  intros NL. induction 1 as [| x l H Hl IH]; [easy |]. intros _. cbn [join]. destruct l as [| y l].
  - intros K. rewrite <- (app_nil_r (dump _)). apply d_cat; [auto | apply d_none].
  - change (match l with [] => e y | _ :: _ => _ end) with (join (W s) e (y :: l)). 
    intros K. apply Forall_app in K as [K1 K]. apply Forall_app in K as [_ K]. specialize (IH ltac:(discriminate) K).
    rewrite !dump_app, dump_W. apply D_cat in IH as (u & v & -> & U & V). apply d_cat; [auto |].
    rewrite app_assoc. apply d_more; [| assumption]. apply d_cat; [| assumption]. apply d_str. now apply letters_fixed.
Qed.
Lemma forallb_Sent {A} (v : A -> bool) a (e : A -> list op) l : forallb v l = true -> (forall x, v x = true -> Sent a (e x)) ->
  Forall (fun x => Sent a (e x)) l.
Proof. intros H G. rewrite forallb_forall in H. apply Forall_forall. auto. Qed.
Lemma nonempty_ne {A} (l : list A) : nonempty l = true -> l <> [].
Proof. now destruct l. Qed.
Lemma l_joinsp {A} a (e : A -> list op) l : Forall (fun x => Sent a (e x)) l -> l <> [] -> Sent (a ^ Many (SP ^ a)) (joinsp e l).
Proof. intros. now apply (l_join a (bs " ")). Qed.
Lemma l_joinsp1 {A} (v : A -> bool) a (e : A -> list op) l : v1 v l = true -> (forall x, v x = true -> Sent a (e x)) ->
  Sent (a ^ Many (SP ^ a)) (joinsp e l).
Proof. intros H G. apply andb_prop in H as [N H]. apply l_joinsp; [now apply (forallb_Sent v) | now apply nonempty_ne]. Qed.
Lemma l_joinsp0 {A} (v : A -> bool) a (e : A -> list op) l : forallb v l = true -> (forall x, v x = true -> Sent a (e x)) ->
  Sent (opt (a ^ Many (SP ^ a))) (joinsp e l).
Proof.
  intros H G. destruct l as [| x l]; [intros _; apply d_or_l, d_eps |].
  intros K. apply d_or_r. apply (l_joinsp a e (x :: l)); [now apply (forallb_Sent v) | discriminate | assumption].
Qed.
(** [1*(SP a)] *)
Lemma s_some z l {A} a (e : A -> list op) xs o : Sent (a ^ Many (SP ^ a)) (joinsp e xs) -> Sents z l o ->
  Sents z (some (SP ^ a) :: l) (B bSP :: joinsp e xs ++ o).
Proof.
  intros H G. change (B bSP :: joinsp e xs ++ o) with ((W (bs " ") ++ joinsp e xs) ++ o). apply s_leaf; [| assumption].
  intros K. apply Forall_app in K as [_ K]. specialize (H K). rewrite dump_app, dump_W.
  apply D_cat in H as (u & v & -> & U & V). rewrite app_assoc. unfold some. apply d_cat; [| assumption].
  apply d_cat; [| assumption]. apply d_str. now apply letters_fixed.
Qed.
Lemma l_flat {A} a (e : A -> list op) l : Forall (fun x => Sent a (e x)) l -> Sent (Many a) (flat_map e l).
Proof.
  induction 1 as [| x l H _ IH]; [intros _; apply d_none |]. cbn [flat_map]. intros K. apply Forall_app in K as [K1 K2].
  rewrite dump_app. apply d_more; auto.
Qed.
Lemma l_some_flat {A} a (e : A -> list op) l : Forall (fun x => Sent a (e x)) l -> l <> [] -> Sent (some a) (flat_map e l).
Proof.
  intros H N. destruct H as [| x l H Hl]; [easy |]. cbn [flat_map]. intros K. apply Forall_app in K as [K1 K2].
  rewrite dump_app. apply d_cat; [auto |]. now apply l_flat.
Qed.
Lemma l_some2_flat {A} a (e : A -> list op) l : Forall (fun x => Sent a (e x)) l -> atleast2 l = true ->
  Sent (a ^ some a) (flat_map e l).
Proof.
  intros H N. destruct H as [| x l H Hl]; [easy |]. cbn [flat_map]. intros K. apply Forall_app in K as [K1 K2].
  rewrite dump_app. apply d_cat; [auto |]. apply l_some_flat; [assumption | now destruct l | assumption].
Qed.
(** [*(SP a)] *)
Lemma l_flat_sp {A} (v : A -> bool) a (e : A -> list op) l : forallb v l = true -> (forall x, v x = true -> Sent a (e x)) ->
  Sent (Many (SP ^ a)) (flat_map (fun x => spc ++ e x) l).
Proof.
  intros H G. apply l_flat. apply (forallb_Sent v); [assumption |]. intros x V K. apply Forall_app in K as [_ K].
  rewrite dump_app. apply d_cat; [apply d_str; now apply letters_fixed | now apply G].
Qed.

(** ** Tokens *)
Lemma l_chars r X s : rules r = some (Chr X) -> some_of X s -> Sent (Ref r) (W s).
Proof.
  intros E H _. rewrite dump_W. apply d_ref. rewrite E. destruct H as [N H].
  destruct H as [| b s Hb H]; [easy |]. change (b :: s) with ([b] ++ s). apply d_cat; [now apply d_chr |].
  clear N. induction H as [| c s Hc H IH]; [apply d_none |]. change (c :: s) with ([c] ++ s). apply d_more; [now apply d_chr | assumption].
Qed.
Lemma D_some X s : some_of X s -> D (some (Chr X)) s.
Proof.
  intros [N H]. destruct H as [| b s Hb H]; [easy |]. change (b :: s) with ([b] ++ s). apply d_cat; [now apply d_chr |].
  clear N. induction H as [| c s Hc H IH]; [apply d_none |]. change (c :: s) with ([c] ++ s). apply d_more; [now apply d_chr | assumption].
Qed.
Lemma l_atom s : atom_ok s = true -> Sent Atom (W s).
Proof. intros H. apply (l_chars _ ATOM_CHAR); [reflexivity | now apply atom_ok_spec]. Qed.
Lemma l_atom' s : atom_ok s = true -> Sent Atom (e_bytes s).
Proof. apply l_atom. Qed.
Lemma l_tag s : tag_ok s = true -> Sent Tag (e_bytes s).
Proof. intros H. apply (l_chars _ TAG_CHAR); [reflexivity | now apply tag_ok_spec]. Qed.
Lemma l_text s : text_ok s = true -> Sent Text (e_bytes s).
Proof. intros H. apply (l_chars _ TEXT_CHAR); [reflexivity | now apply text_ok_spec]. Qed.

Lemma D_digits s : s <> [] -> forallb is_digit s = true -> D (some DIGIT) s.
Proof.
  intros N H. apply D_some. split; [assumption |]. rewrite forallb_forall in H. apply Forall_forall. intros b I.
  now apply is_digit_spec, H.
Qed.
Lemma dec_is n : digits (dec n) n.
Proof. apply digits_spec. split; [apply dec_digits | apply dval_dec]. Qed.
Lemma D_dec (P : N -> Prop) n : P n -> D (Where (value P) (some DIGIT)) (dec n).
Proof.
  intros H. apply d_where; [apply D_digits; [apply dec_nonempty | apply dec_digits] |]. exists n. split; [apply dec_is | assumption].
Qed.
Lemma l_num n : v_u32 n = true -> Sent Number (e_num n).
Proof.
  intros H _. unfold e_num. rewrite dump_W. apply d_ref. cbn [rules]. apply D_dec. apply N.leb_le in H. unfold u32_max in H. lia.
Qed.
Lemma l_num64 n : in63 n -> Sent Number64 (e_num n).
Proof. intros H _. unfold e_num. rewrite dump_W. apply d_ref. cbn [rules]. apply d_or_l. now apply D_dec. Qed.
Lemma nz_split n m : negb (N.eqb n 0) && N.leb n m = true -> 0 < n <= m.
Proof. intros H. apply andb_prop in H as [H G]. apply negb_true_iff, N.eqb_neq in H. apply N.leb_le in G. lia. Qed.
Lemma l_nz64 n : v_nz64 n = true -> Sent ModSequenceValue (e_num n).
Proof.
  intros H _. apply nz_split in H. unfold u64_max in H. unfold e_num. rewrite dump_W. apply d_ref. cbn [rules]. apply D_dec. lia.
Qed.
Lemma l_valzer n : v_u64 n = true -> Sent ModSequenceValzer (e_num n).
Proof.
  intros H K. apply N.leb_le in H. apply d_ref. cbn [rules]. destruct (N.eq_dec n 0) as [-> | N].
  - apply d_or_l, d_or_l, d_str. now apply letters_fixed.
  - apply d_or_l, d_or_r. apply l_nz64; [| assumption]. unfold v_nz64. apply N.eqb_neq in N. rewrite N. now apply N.leb_le.
Qed.
Lemma dec_head n : n <> 0 -> exists b t, dec n = b :: t /\ 0x31 <= bN b <= 0x39 /\ forallb is_digit t = true.
Proof.
  intros N. pose proof (dec_digits n) as H. pose proof (dec_is n) as I. destruct (dec n) as [| b t] eqn:E; [now destruct (dec_nonempty n) |].
  cbn [forallb] in H. apply andb_prop in H as [B H]. exists b, t. split; [reflexivity |]. split; [| assumption].
  apply is_digit_spec in B. destruct (N.eq_dec (bN b) 0x30) as [Z | Z]; [| lia].
  exfalso. assert (b = "0"%byte) as -> by now apply bN_eq.
  apply digits_spec in I as [_ I]. change (dval ("0"%byte :: t)) with (dval t) in I.
  destruct t as [| c t]; [now apply N |].
  assert (G : digits (c :: t) n) by now apply digits_spec.
  apply dec_length in G; [| discriminate]. rewrite E in G. cbn [length] in G. lia.
Qed.
Lemma l_nz n : v_nz32 n = true -> Sent NzNumber (e_num n).
Proof.
  intros H _. apply nz_split in H. unfold u32_max in H. unfold e_num. rewrite dump_W. apply d_ref. cbn [rules]. apply d_or_l.
  apply d_where; [| exists n; split; [apply dec_is | lia]].
  destruct (dec_head n) as (b & t & -> & B & T); [lia |]. change (b :: t) with ([b] ++ t). apply d_cat; [now apply d_chr |].
  induction t as [| c t IH]; [apply d_none |]. cbn [forallb] in T. apply andb_prop in T as [C T].
  change (c :: t) with ([c] ++ t). apply d_more; [apply d_chr; now apply is_digit_spec | auto].
Qed.

(** Strings *)
Lemma D_quoted_chars s : many_of TEXT_CHAR s -> D (Many QuotedChar) (escape_quoted s).
Proof.
  intros H. pose proof (proj2 (quoted_body_spec (escape_quoted s) s) eq_refl) as Q. revert H. induction Q as [| b w s N Q IH | b w s N Q IH]; intros H.
  - apply d_none.
  - inversion H; subst. change (b :: w) with ([b] ++ w). apply d_more; [| auto]. apply d_ref. cbn [rules]. apply d_or_l. now apply d_chr.
  - inversion H; subst. change ("\"%byte :: b :: w) with ((bs "\" ++ [b]) ++ w). apply d_more; [| auto]. apply d_ref. cbn [rules]. apply d_or_r.
    apply d_cat; [apply d_str; now apply letters_fixed | now apply d_chr].
Qed.
Lemma dump_e_quoted s : dump (e_quoted s) = [bDQ] ++ escape_quoted s ++ [bDQ].
Proof. unfold e_quoted. rewrite dump_B, dump_app, dump_W. reflexivity. Qed.
Lemma D_dq : D DQUOTE [bDQ].
Proof. apply d_str. now apply letters_fixed. Qed.
Lemma l_quoted s : quoted_ok s = true -> Sent Quoted (e_quoted s).
Proof.
  intros H _. rewrite dump_e_quoted. apply d_ref. cbn [rules]. apply d_cat; [apply D_dq |]. apply d_cat; [| apply D_dq].
  now apply D_quoted_chars, quoted_ok_spec.
Qed.
Lemma header_text (is8 : bool) m (d : bytes) X : Forall X d -> lenN d < 4294967296 ->
  literal_text (if is8 then bs "~{" else bs "{") crlf_text X (lit_header is8 m (lenN d) ++ d).
Proof.
  intros H L. exists (dec (lenN d)), (match m with Sync => [] | NonSync => bs "+" end), [bCR; bLF], d. unfold lit_header. repeat split.
  - destruct is8; cbn [app bs]; rewrite <- !app_assoc; cbn [app]; rewrite <- ?app_assoc; reflexivity.
  - apply dec_nonempty.
  - apply dec_is.
  - assumption.
  - destruct m; auto.
  - assumption.
Qed.
Lemma l_literal lv l : v_literal lv l = true -> Sent Literal (e_literal l).
Proof.
  intros H K. apply andb_prop in H as [H _]. inversion K as [| ? ? L _]; subst. cbn [okop] in L. unfold e_literal. cbn [dump flat_map dump_op].
  rewrite app_nil_r. apply d_ref. cbn [rules]. apply d_or_l, d_prose. apply (header_text false); [now apply literal_ok_spec | assumption].
Qed.
Lemma l_literal8 l : Sent Literal8 (e_literal8 l).
Proof.
  intros K. inversion K as [| ? ? L _]; subst. cbn [okop] in L. unfold e_literal8. cbn [dump flat_map dump_op].
  rewrite app_nil_r. apply d_ref. cbn [rules]. apply d_or_l, d_prose. apply (header_text true); [| assumption].
  apply Forall_forall. auto.
Qed.
Lemma quoted_Forall (X : byte -> Prop) w s : quoted_body w s -> Forall X w -> Forall X s.
Proof.
  induction 1 as [| b w s N Q IH | b w s N Q IH]; intros G; [constructor | |]; inversion G as [| ? ? G1 G2]; subst; [constructor; auto |].
  inversion G2; subst. constructor; auto.
Qed.
Lemma l_istring lv s : v_istring lv s = true -> Sent String_ (e_istring s).
Proof.
  intros H K. apply d_ref. cbn [rules]. destruct s as [s | s | l]; cbn [v_istring e_istring] in *.
  - apply d_or_l, d_or_l, d_or_l. now apply l_quoted.
  - apply d_or_l, d_or_r. apply andb_prop in H as [H _]. apply andb_prop in H as [E U]. apply d_feature; [assumption |].
    rewrite dump_e_quoted. apply d_cat; [apply D_dq |]. apply d_cat; [| apply D_dq]. apply d_prose. split; [now rewrite utf8_escape |].
    exists s. pose proof (proj2 (quoted_body_spec (escape_quoted s) s) eq_refl) as Q. split; [assumption |].
    apply (quoted_Forall _ _ _ Q). unfold e_quoted in K. inversion K as [| ? ? _ K']; subst. apply Forall_app in K' as [K' _].
    apply (proj1 (Forall_map B okop (escape_quoted s))) in K'. revert K'. apply Forall_impl. cbn [okop]. unfold CHAR8. tauto.
  - apply d_or_l, d_or_l, d_or_r. now apply (l_literal lv).
Qed.
Lemma l_nstring lv n : v_nstring lv n = true -> Sent Nstring (e_nstring n).
Proof.
  intros H K. apply d_ref. cbn [rules]. destruct n as [s |]; cbn [v_nstring vopt e_nstring] in *.
  - apply d_or_l. now apply (l_istring lv).
  - apply d_or_r, d_ref, d_str. cbn [dump W map flat_map]. apply same_letters_spec. reflexivity.
Qed.
Lemma l_astring lv a : v_astring lv a = true -> Sent Astring (e_astring a).
Proof.
  intros H K. apply d_ref. cbn [rules]. destruct a as [s | s]; cbn [v_astring e_astring] in *.
  - apply d_or_l. unfold e_bytes. rewrite dump_W. apply D_some. now apply atom_ext_ok_spec.
  - apply d_or_r. now apply (l_istring lv).
Qed.
Lemma l_charset c : v_charset c = true -> Sent Charset (e_charset c).
Proof.
  intros H K. apply d_ref. cbn [rules]. destruct c as [s | s]; cbn [v_charset e_charset] in *.
  - apply d_or_l. now apply l_atom'.
  - apply d_or_r. now apply l_quoted.
Qed.
Lemma l_nstring8 lv n : v_nstring8 lv n = true -> Sent Value (e_nstring8 n).
Proof.
  intros H K. apply d_ref. cbn [rules]. destruct n as [s | s]; cbn [v_nstring8 e_nstring8] in *.
  - apply d_or_l. now apply (l_nstring lv).
  - apply d_or_r. now apply l_literal8.
Qed.
Lemma l_quoted_char c : quoted_char_ok c = true -> Sent QuotedChar (e_quoted_char c).
Proof.
  intros H _. apply d_ref. cbn [rules]. destruct (is_quoted_specials c) eqn:Q.
  - assert (E : dump (e_quoted_char c) = bs "\" ++ [c]).
    { unfold is_quoted_specials in Q. apply orb_true_iff in Q as [Q | Q]; apply beq_eq in Q; subst; reflexivity. }
    rewrite E. apply d_or_r, d_cat; [apply d_str; now apply letters_fixed | apply d_chr; now apply is_quoted_specials_spec].
  - assert (E : dump (e_quoted_char c) = [c]).
    { unfold e_quoted_char. unfold is_quoted_specials in Q. apply orb_false_iff in Q as [Q1 Q2].
      destruct (beq c bBS) eqn:E1; [apply beq_eq in E1; subst; discriminate |].
      destruct (beq c bDQ) eqn:E2; [apply beq_eq in E2; subst; discriminate |]. reflexivity. }
    rewrite E. apply d_or_l, d_chr. unfold quoted_char_ok in H. apply andb_prop in H as [_ H].
    assert (N : ~ quoted_specials c) by (rewrite <- is_quoted_specials_spec, Q; discriminate). split; [| assumption].
    apply orb_true_iff in H as [H | H]; [apply orb_true_iff in H as [H | H] |].
    + apply andb_prop in H as [H _]. now apply is_text_char_spec.
    + apply beq_eq in H. subst. discriminate.
    + apply beq_eq in H. subst. discriminate.
Qed.
Lemma D_b64 p : D AbnfSpec.Base64 (b64_encode p).
Proof.
  apply d_ref. cbn [rules]. apply d_limit; [| discriminate]. pose proof (base64_encode p) as H.
  assert (C : forall c v, b64_value c v -> D Base64Char [c]).
  { intros c v G. constructor. cbn [rules]. apply d_chr. eauto. }
  induction H.
  - change (@nil byte) with (@nil byte ++ []). apply d_cat; [apply d_none | apply d_or_l, d_eps].
  - change [c1; c2; "="%byte; "="%byte] with ([] ++ [c1] ++ [c2] ++ bs "=="). apply d_cat; [apply d_none |].
    apply d_or_r. constructor. cbn [rules]. apply d_or_l. repeat apply d_cat; eauto. apply D_str. now apply letters_fixed.
  - change [c1; c2; c3; "="%byte] with ([] ++ [c1] ++ [c2] ++ [c3] ++ bs "="). apply d_cat; [apply d_none |].
    apply d_or_r. constructor. cbn [rules]. apply d_or_r. repeat apply d_cat; eauto. apply D_str. now apply letters_fixed.
  - apply D_cat in IHbase64 as (u & v & -> & U & V).
    change (c1 :: c2 :: c3 :: c4 :: u ++ v) with ((([c1] ++ [c2] ++ [c3] ++ [c4] ++ []) ++ u) ++ v).
    apply d_cat; [| assumption]. apply d_more; [| assumption]. cbn [times]. repeat apply d_cat; eauto. constructor.
Qed.
Lemma l_b64 p : Sent AbnfSpec.Base64 (W (b64_encode p)).
Proof. intros _. rewrite dump_W. apply D_b64. Qed.
End Sent.
