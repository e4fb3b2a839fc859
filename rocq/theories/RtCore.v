(** Reading back tokens: the parsers of ParseCore.v against the encoders of Encode.v. *)

From Verif Require Import Bytes Dec Features Nom Types Utf8 Conv SeqSet Base64 Date ParseCore
  EncodeCtx Encode Valid BytesFacts EncodeFacts ParserFacts QuotedFacts OkTac OkCore RtFacts RtTac.
From Verif Require FragFacts.
Notation utf8_ascii := FragFacts.utf8_ascii.
Open Scope nat_scope.

(** Validity hypotheses into atoms *)
Ltac vs :=
  repeat match goal with
  | H : (_ && _)%bool = true |- _ => apply andb_true_iff in H as [? ?]
  | H : vpair _ _ _ = true |- _ => unfold vpair in H; cbn [fst snd] in H
  | H : negb _ = true |- _ => apply negb_true_iff in H
  end.

(** Delimiters after most tokens *)
Definition is_dl (b : byte) : bool := beq b bSP || beq b ")"%byte || beq b bCR || beq b bLF.
Definition dl : follow := on is_dl.

Section Rt.
Context {F : features}.
Notation lv := LExact.

(** *** Numbers *)
Lemma digits_utf8 x : forallb is_digit x = true -> utf8_ok x = true.
Proof. intros H. apply utf8_ascii. revert H. apply forallb_impl. byte_fact. Qed.
Lemma P_p_digits max n : N.leb n max = true -> P (p_digits max) (e_num n) n nd.
Proof.
  intros H. apply (P_map_res _ _ _ (dec n)); [now apply parse_max_dec, N.leb_le |].
  apply (P_expect _ _ _ (dec n)); [now rewrite digits_utf8 by apply dec_digits |].
  apply P_take_while1; [apply dec_nonempty | apply dec_digits].
Qed.
Lemma P_p_number n : v_u32 n = true -> P p_number (e_num n) n nd.
Proof. apply P_p_digits. Qed.
Lemma P_p_number64 n : v_u64 n = true -> P p_number64 (e_num n) n nd.
Proof. apply P_p_digits. Qed.
Lemma P_p_nz_number n : v_nz32 n = true -> P p_nz_number (e_num n) n nd.
Proof.
  intros H. unfold v_nz32 in H. vs. apply (P_map_res _ _ _ n); [| now apply P_p_digits].
  unfold nonzero. now rewrite H.
Qed.
Lemma P_p_valzer n : v_u64 n = true -> P p_mod_sequence_valzer (e_num n) n nd.
Proof. apply P_p_digits. Qed.
Lemma P_p_msv n : v_nz64 n = true -> P p_mod_sequence_value (e_num n) n nd.
Proof.
  intros H. unfold v_nz64 in H. vs. apply (P_map_res _ _ _ n); [| now apply P_p_digits].
  unfold nonzero. now rewrite H.
Qed.
Lemma L_num n : lead1 (on is_digit) (e_num n).
Proof. apply lead1_Wall; [apply dec_digits | apply dec_nonempty]. Qed.
Hint Resolve P_p_number P_p_number64 P_p_nz_number P_p_valzer P_p_msv : rtdb.
Hint Resolve L_num : leaddb.

(** *** Strings *)
Lemma dump_quoted s r : dump (e_quoted s) ++ r = bDQ :: escape_quoted s ++ bDQ :: r.
Proof. unfold e_quoted. rewrite dump_B, dump_app, dump_W. cbn. now rewrite <- app_assoc. Qed.
Lemma noLit_quoted s : noLit (e_quoted s) = true.
Proof. unfold e_quoted. cbn. unfold noLit. rewrite forallb_app. now rewrite noLit_W. Qed.
Lemma P_p_quoted s : quoted_ok s = true -> P p_quoted (e_quoted s) s any.
Proof.
  intros H. apply P_tok'; [apply noLit_quoted |]. intros r _. rewrite dump_quoted.
  now apply p_quoted_read.
Qed.
Lemma P_p_quoted_utf8 s : utf8_ok s = true -> P p_quoted_utf8 (e_quoted s) s any.
Proof.
  intros H. apply P_tok'; [apply noLit_quoted |]. intros r _. rewrite dump_quoted.
  now apply p_quoted_utf8_read.
Qed.
Notation esct := (esc1 is_any_text_char_except_quoted_specials is_quoted_specials bBS).
Lemma esc1_stop u r : quoted_ok u = false -> exists b x u1,
  esct (escape_quoted u ++ r) = ROk (b :: x) (escape_quoted u1) /\ quoted_ok u1 = true /\
  beq b bDQ = false.
Proof.
  rewrite escape_quoted_flat. unfold quoted_ok. induction u as [|b u IH]; [discriminate |].
  cbn [forallb flat_map]. intros H. unfold esc_char at 1.
  destruct (is_text_char b) eqn:T.
  - destruct (IH H) as (c & x & u1 & E & Q & D).
    exists c, x, (b :: u1). rewrite escape_quoted_flat in E |- *. cbn [flat_map forallb].
    unfold esc_char at 2. rewrite T, Q. split; [| auto]. destruct (is_quoted_specials b) eqn:S.
    + cbn [app esc1]. unfold is_any_text_char_except_quoted_specials at 1.
      change (is_text_char bBS && _)%bool with false. cbv beta iota.
      rewrite beq_refl, S. rewrite E. reflexivity.
    + cbn [app esc1]. unfold is_any_text_char_except_quoted_specials at 1. rewrite T, S.
      cbn [andb negb]. rewrite E. reflexivity.
  - assert (S : is_quoted_specials b = false).
    { revert b T H. clear. intros b T _. destruct (is_quoted_specials b) eqn:S; [| reflexivity].
      revert T. apply orb_true_iff in S as [S | S]; apply beq_eq in S; subst; discriminate. }
    rewrite S. cbn [app esc1]. unfold is_any_text_char_except_quoted_specials at 1. rewrite T.
    cbn [andb]. apply orb_false_iff in S as [S1 S2]. rewrite S2.
    exists b, (flat_map esc_char u ++ r), []. auto.
Qed.
Lemma Rj_p_quoted s f : quoted_ok s = false -> Rj p_quoted (e_quoted s) f.
Proof.
  intros H. split.
  - intros r _. rewrite dump_quoted. unfold p_quoted, bind at 1, dquote, char, sat.
    rewrite beq_refl. unfold expect, bind, escaped. rewrite escaped_esc1 by lia.
    destruct (esc1_stop s (bDQ :: r) H) as (b & x & u1 & -> & Q & D).
    rewrite utf8_escape, quoted_utf8 by exact Q. unfold ret. now rewrite D.
  - intros pre is8 m d post E. destruct (noLit_cut _ _ _ _ _ _ (noLit_quoted s) E).
Qed.

(** Literals *)
Definition open_of (is8 : bool) : bytes := if is8 then bs "~{" else bs "{".
Lemma P_p_lit_header is8 n m : v_u32 n = true ->
  P (p_lit_header (open_of is8)) (W (lit_header is8 m n)) (n, m) any.
Proof.
  intros H. unfold p_lit_header, lit_header.
  assert (E : forall (q : unit -> parser (N * lit_mode)) o v f, P (q tt) o v f ->
    P (bind (tag (open_of is8)) q)
      (W ((if is8 then ["~"%byte] else []) ++ ["{"%byte]) ++ o) v f : Prop).
  { intros q o v f Hq. destruct is8; (eapply P_tg; [reflexivity | exact Hq]). }
  assert (A : forall d, (if is8 then ["~"%byte] else []) ++ "{"%byte :: d
    = ((if is8 then ["~"%byte] else []) ++ ["{"%byte]) ++ d).
  { intros d. now rewrite <- app_assoc. }
  rewrite A, W_app. apply E. rewrite W_app.
  eapply P_bind; [now apply P_p_number | destruct m; cbn; reflexivity |].
  unfold p_lit_mode, pmap. apply P_assoc. destruct m.
  - nrm. apply P_opt_skip; [rj |]. apply P_retb. rt.
  - change (W _) with ([B "+"%byte] ++ [B "}"%byte; B bCR; B bLF]).
    eapply P_optb; [apply P_charl with (f := any) | ld |]. apply P_retb. rt.
Qed.
Lemma lit_header_read is8 n m s : v_u32 n = true ->
  p_lit_header (open_of is8) (lit_header is8 m n ++ s) = ROk s (n, m).
Proof.
  intros H. pose proof (P_full _ _ _ _ (P_p_lit_header is8 n m H) s eq_refl) as E.
  now rewrite dump_W in E.
Qed.
Lemma take_read d s : take (lenN d) (d ++ s) = ROk s d.
Proof.
  unfold take. rewrite lenN_app, lenN_to_nat.
  assert (N.leb (lenN d) (lenN d + lenN s) = true) as -> by (apply N.leb_le; lia).
  now rewrite skipn_app_exact, firstn_app_exact.
Qed.
Lemma one_lit is8 m d pre is8' m' d' post :
  [Lit is8 m d] = pre ++ Lit is8' m' d' :: post -> pre = [] /\ is8 = is8' /\ m = m' /\ d = d'.
Proof.
  destruct pre as [| x pre]; cbn; intros E.
  - injection E as -> -> -> _. auto.
  - destruct pre; discriminate E.
Qed.
Lemma P_p_literal l : v_literal lv l = true -> P p_literal (e_literal l) l some.
Proof.
  unfold v_literal. cbn [only_rt]. intros H. vs. destruct l as [d m]. cbn [lit_data] in *.
  unfold e_literal. cbn [lit_mode_of lit_data]. split.
  - intros s Hs. rewrite dump_Lit, dump_nil, app_nil_r, <- app_assoc.
    unfold p_literal, bind at 1. change (bs "{") with (open_of false).
    rewrite lit_header_read by assumption. unfold bind at 1, p_lit_found.
    destruct (d ++ s) eqn:E; [destruct d, s; discriminate |]. rewrite <- E.
    unfold bind. rewrite take_read, H. reflexivity.
  - intros pre is8 m' d' post E. destruct (one_lit _ _ _ _ _ _ _ _ E) as (-> & <- & <- & <-).
    unfold upto_lit. rewrite dump_nil. cbn [app].
    rewrite <- (app_nil_r (lit_header _ _ _)). unfold p_literal, bind at 1.
    change (bs "{") with (open_of false). rewrite lit_header_read by assumption. reflexivity.
Qed.
Lemma P_p_literal8 l : v_literal8 lv l = true -> P p_literal8 (e_literal8 l) l some.
Proof.
  unfold v_literal8. cbn [only_rt]. intros H. vs. destruct l as [d m]. cbn [lit8_data] in *.
  unfold e_literal8. cbn [lit8_mode_of lit8_data]. split.
  - intros s Hs. rewrite dump_Lit, dump_nil, app_nil_r, <- app_assoc.
    unfold p_literal8, bind at 1. change (bs "~{") with (open_of true).
    rewrite lit_header_read by assumption. unfold bind at 1, p_lit_found.
    destruct (d ++ s) eqn:E; [destruct d, s; discriminate |]. rewrite <- E.
    unfold bind. rewrite take_read. reflexivity.
  - intros pre is8 m' d' post E. destruct (one_lit _ _ _ _ _ _ _ _ E) as (-> & <- & <- & <-).
    unfold upto_lit. rewrite dump_nil. cbn [app].
    rewrite <- (app_nil_r (lit_header _ _ _)). unfold p_literal8, bind at 1.
    change (bs "~{") with (open_of true). rewrite lit_header_read by assumption. reflexivity.
Qed.
Hint Resolve P_p_quoted P_p_quoted_utf8 P_p_literal P_p_literal8 : rtdb.

Definition is_str1 (b : byte) : bool := beq b bDQ || beq b "{"%byte.
Lemma L_quoted s : lead1 (on (fun b => beq b bDQ)) (e_quoted s).
Proof. now apply lead1_B. Qed.
Lemma L_literal l : lead1 (on (fun b => beq b "{"%byte)) (e_literal l).
Proof. now apply lead1_Lit. Qed.
Lemma L_literal8 l : lead1 (on (fun b => beq b "~"%byte)) (e_literal8 l).
Proof. now apply lead1_Lit. Qed.
Lemma L_istring s : lead1 (on is_str1) (e_istring s).
Proof. destruct s; [now apply lead1_B | now apply lead1_B | now apply lead1_Lit]. Qed.
Hint Resolve L_quoted L_literal L_literal8 L_istring : leaddb.

Lemma P_p_string s : v_istring lv s = true -> P p_string (e_istring s) s some.
Proof.
  intros V. unfold p_string. destruct s as [s | s | l]; cbn in V; vs; cbn [e_istring].
  - apply P_alt_here. eapply P_pmap'; [reflexivity |]. eapply P_weak; [| now apply P_p_quoted].
    intros; reflexivity.
  - apply P_alt_skip; [apply Rj_bind; now apply Rj_p_quoted |]. apply P_alt_here.
    apply P_gate; [assumption |]. eapply P_pmap'; [reflexivity |].
    eapply P_weak; [| now apply P_p_quoted_utf8]. intros; reflexivity.
  - rt.
Qed.
Hint Resolve P_p_string : rtdb.

(** Words of one character class *)
Lemma P_validated (g : byte -> bool) (valid : bytes -> bool) s :
  (forall b, g b = true -> inb 0x00 0x7f b = true) ->
  (valid s = true -> s <> [] /\ forallb g s = true) -> valid s = true ->
  P (validated valid (take_while1 g)) (W s) s (non g).
Proof.
  intros A H V. destruct (H V) as [N G]. apply (P_expect _ _ _ s).
  - unfold str_of. rewrite V, utf8_ascii; [reflexivity |]. revert G. now apply forallb_impl.
  - now apply P_take_while1.
Qed.
Lemma ne_forallb (g : byte -> bool) s :
  match s with [] => false | _ => forallb g s end = true -> s <> [] /\ forallb g s = true.
Proof. destruct s; [discriminate |]. intros H. split; [discriminate | exact H]. Qed.
Lemma P_p_atom s : atom_ok s = true -> P p_atom (W s) s na.
Proof. apply P_validated; [byte_fact | apply ne_forallb]. Qed.
Lemma P_p_text s : text_ok s = true -> P p_text (W s) s (non is_text_char).
Proof. apply P_validated; [byte_fact | apply ne_forallb]. Qed.
Lemma P_p_tag s : tag_ok s = true -> P p_tag_imap (W s) s (non is_tag_char).
Proof. apply P_validated; [byte_fact | apply ne_forallb]. Qed.
Lemma P_p_atom_ext s : atom_ext_ok s = true ->
  P (validated atom_ext_ok (take_while1 is_astring_char)) (W s) s nas.
Proof. apply P_validated; [byte_fact | apply ne_forallb]. Qed.
Lemma P_p_list_char s : list_char_string_ok s = true ->
  P (validated list_char_string_ok (take_while1 is_list_char)) (W s) s nlc.
Proof. apply P_validated; [byte_fact | apply ne_forallb]. Qed.
Lemma L_atom s : atom_ok s = true -> lead1 (on is_atom_char) (W s).
Proof. intros H. apply ne_forallb in H as [N H]. now apply lead1_Wall. Qed.
Lemma L_text s : text_ok s = true -> lead1 (on is_text_char) (W s).
Proof. intros H. apply ne_forallb in H as [N H]. now apply lead1_Wall. Qed.
Lemma L_tag s : tag_ok s = true -> lead1 (on is_tag_char) (W s).
Proof. intros H. apply ne_forallb in H as [N H]. now apply lead1_Wall. Qed.
Lemma L_atom_ext s : atom_ext_ok s = true -> lead1 (on is_astring_char) (W s).
Proof. intros H. apply ne_forallb in H as [N H]. now apply lead1_Wall. Qed.
Lemma L_list_char s : list_char_string_ok s = true -> lead1 (on is_list_char) (W s).
Proof. intros H. apply ne_forallb in H as [N H]. now apply lead1_Wall. Qed.
Hint Resolve P_p_atom P_p_text P_p_tag P_p_atom_ext P_p_list_char : rtdb.
Hint Resolve L_atom L_text L_tag L_atom_ext L_list_char : leaddb.

Definition is_astr1 (b : byte) : bool := is_astring_char b || is_str1 b.
Definition is_nstr1 (b : byte) : bool := beq b "N"%byte || is_str1 b.
Lemma L_astring a : v_astring lv a = true -> lead1 (on is_astr1) (e_astring a).
Proof. destruct a; cbn; intros H; [apply L_atom_ext in H |]; l1. Qed.
Hint Resolve L_astring : leaddb.
Lemma P_p_astring a : v_astring lv a = true -> P p_astring (e_astring a) a nas.
Proof. intros V. unfold p_astring. destruct a; cbn in V; cbn [e_astring]; rt. Qed.
Lemma L_nstring n : lead1 (on is_nstr1) (e_nstring n).
Proof. destruct n; cbn [e_nstring]; nrm; l1. Qed.
Lemma P_p_nstring n : v_nstring lv n = true -> P p_nstring (e_nstring n) n some.
Proof.
  intros V. unfold p_nstring, p_nil. unfold v_nstring in V.
  destruct n; cbn in V; cbn [e_nstring]; rt.
Qed.
Lemma L_nil : lead1 (on is_nstr1) (W (bs "NIL")).
Proof. nrm; l1. Qed.
Hint Resolve P_p_astring P_p_nstring : rtdb.
Hint Resolve L_nstring : leaddb.
Lemma P_p_charset c : v_charset c = true -> P p_charset (e_charset c) c na.
Proof. intros V. unfold p_charset. destruct c; cbn in V; cbn [e_charset]; rt. Qed.
Lemma L_charset c : v_charset c = true ->
  lead1 (on (fun b => is_atom_char b || beq b bDQ)) (e_charset c).
Proof. destruct c; cbn; intros H; [apply L_atom in H |]; l1. Qed.
Hint Resolve P_p_charset : rtdb.
Hint Resolve L_charset : leaddb.

(** *** Base64 *)
Lemma N_below (Q : N -> bool) k : forallb Q (map N.of_nat (seq 0 k)) = true ->
  forall n, (n < N.of_nat k)%N -> Q n = true.
Proof.
  intros H n L. rewrite forallb_forall in H. apply H. apply in_map_iff.
  exists (N.to_nat n). split; [apply N2Nat.id |]. apply in_seq. lia.
Qed.
Lemma val_sym n : (n < 64)%N -> b64_val (b64_sym n) = Some n.
Proof.
  intros L. pose proof (N_below (fun n => match b64_val (b64_sym n) with
    | Some m => N.eqb m n | None => false end) 64 eq_refl n L) as H. cbv beta in H.
  destruct (b64_val (b64_sym n)); [| discriminate]. apply N.eqb_eq in H. congruence.
Qed.
Lemma sym_char n : (n < 64)%N -> is_base64_char (b64_sym n) = true.
Proof. apply (N_below (fun n => is_base64_char (b64_sym n)) 64). reflexivity. Qed.
Lemma byte_of_bN a : byte_of (bN a) = a.
Proof. unfold byte_of, bN. now rewrite Byte.of_to_N. Qed.
Lemma byte_ofN n a : n = bN a -> byte_of n = a.
Proof. intros ->. apply byte_of_bN. Qed.

Section B64.
Open Scope N_scope.
Ltac divlia := Z.to_euclidean_division_equations; lia.
Ltac nlt := zify; divlia.
Lemma triple (P : bytes -> Prop) : P [] -> (forall a, P [a]) -> (forall a b, P [a; b]) ->
  (forall a b c s, P s -> P (a :: b :: c :: s)) -> forall s, P s.
Proof.
  intros H0 H1 H2 H3. fix IH 1. intros [| a [| b [| c s]]]; [exact H0 | apply H1 | apply H2 | apply H3, IH].
Qed.
Lemma b64_roundtrip s : b64_decode (b64_encode s) = Some s.
Proof.
  induction s as [| a | a b | a b c s IH] using triple; [reflexivity | ..].
  - cbn [b64_encode b64_decode]. pose proof (bN_lt a) as La.
    rewrite !val_sym by nlt. change (b64_val "="%byte) with (@None N).
    change (beq "="%byte b64_pad) with true. cbn [andb].
    assert (N.eqb ((bN a * 65536 / 4096 mod 64) mod 16) 0 = true) as ->
      by (apply N.eqb_eq; nlt).
    do 2 f_equal. apply byte_ofN. nlt.
  - cbn [b64_encode b64_decode]. pose proof (bN_lt a) as La. pose proof (bN_lt b) as Lb.
    rewrite !val_sym by nlt. change (b64_val "="%byte) with (@None N).
    change (beq "="%byte b64_pad) with true. cbn [andb].
    assert (N.eqb (((bN a * 65536 + bN b * 256) / 64 mod 64) mod 4) 0 = true) as ->
      by (apply N.eqb_eq; nlt).
    do 2 f_equal; [| do 1 f_equal]; apply byte_ofN; nlt.
  - cbn [b64_encode b64_decode]. pose proof (bN_lt a) as La. pose proof (bN_lt b) as Lb.
    pose proof (bN_lt c) as Lc. rewrite !val_sym by nlt. rewrite IH.
    do 2 f_equal; [| do 1 f_equal; [| do 1 f_equal]]; apply byte_ofN; nlt.
Qed.
Lemma b64_shape s : exists x pad, b64_encode s = x ++ pad /\ forallb is_base64_char x = true /\
  (pad = [] \/ pad = bs "=" \/ pad = bs "==") .
Proof.
  induction s as [| a | a b | a b c s (x & pad & E & Hx & Hp)] using triple.
  - exists [], []. auto.
  - cbn [b64_encode]. pose proof (bN_lt a) as La. do 2 eexists.
    split; [apply (app_assoc [_; _] [] _) |]. cbn [forallb app].
    rewrite !sym_char by nlt. split; [reflexivity | auto].
  - cbn [b64_encode]. pose proof (bN_lt a) as La. pose proof (bN_lt b) as Lb. do 2 eexists.
    split; [apply (app_assoc [_; _; _] [] _) |]. cbn [forallb app].
    rewrite !sym_char by nlt. split; [reflexivity | auto].
  - cbn [b64_encode]. pose proof (bN_lt a) as La. pose proof (bN_lt b) as Lb.
    pose proof (bN_lt c) as Lc. rewrite E. do 2 eexists.
    split; [apply (app_assoc (_ :: _ :: _ :: _ :: _) [] pad) |]. cbn [app].
    cbn [forallb]. rewrite !sym_char by nlt. rewrite app_nil_r. auto.
Qed.
End B64.

Definition nb64 : follow := non (fun b => is_base64_char b || beq b "="%byte).
Lemma recognize_read {A} (p : parser A) x s a : p (x ++ s) = ROk s a ->
  recognize p (x ++ s) = ROk s x.
Proof.
  intros H. unfold recognize. rewrite H, app_length.
  replace (length x + length s - length s) with (length x) by lia.
  now rewrite firstn_app_exact.
Qed.
Lemma P_p_base64 d : P p_base64 (W (b64_encode d)) d nb64.
Proof.
  apply (P_map_res _ _ _ (b64_encode d)); [apply b64_roundtrip |].
  apply P_tok. intros s Hs.
  destruct (b64_shape d) as (x & pad & E & Hx & Hp).
  assert (K : P (take_while is_base64_char ;;; opt (alt [tg "=="; tg "="])) (W x ++ W pad)
    (match pad with [] => None | _ => Some tt end) nb64).
  { eapply P_bind; [now apply P_take_while | |].
    - destruct Hp as [-> | [-> | ->]]; cbn [W bs map]; [| ld ..].
      unfold nb64, non; cbn [leads]; sub.
    - destruct Hp as [-> | [-> | ->]]; cbn [W bs map].
      + apply P_opt_none. rj.
      + apply P_opt_some. apply P_alt_skip; [rj |]. apply P_alt_here. pstep.
      + apply P_opt_some. apply P_alt_here. pstep. }
  destruct K as [K _]. rewrite <- W_app, <- E in K.
  specialize (K s Hs). rewrite dump_W in K. eapply recognize_read, K.
Qed.
Hint Resolve P_p_base64 : rtdb.

(** *** Sequence sets *)
Definition ns : follow := non (fun b => is_digit b || beq b ":"%byte || beq b ","%byte).
Definition is_seq1 (b : byte) : bool := is_digit b || beq b "*"%byte.
Lemma L_seq_or_uid s : lead1 (on is_seq1) (e_seq_or_uid s).
Proof. destruct s; cbn [e_seq_or_uid]; nrm; l1. Qed.
Hint Resolve L_seq_or_uid : leaddb.
Lemma P_p_seq_number s : v_seq_or_uid s = true -> P p_seq_number (e_seq_or_uid s) s nd.
Proof. intros V. unfold p_seq_number. destruct s; cbn in V; cbn [e_seq_or_uid]; rt. Qed.
Hint Resolve P_p_seq_number : rtdb.
Definition e_seq_raw (s : sequence) : list op :=
  match s with
  | SSingle a => e_seq_or_uid a
  | SRange a b => e_seq_or_uid a ++ W (bs ":") ++ e_seq_or_uid b
  end.
Definition nc : follow := non (fun b => is_digit b || beq b ":"%byte).
Lemma P_p_seq s : v_sequence s = true ->
  P (alt [p_seq_range; pmap SSingle p_seq_number]) (e_seq_raw s) s nc.
Proof.
  intros V. unfold p_seq_range. destruct s; cbn in V; vs; cbn [e_seq_raw].
  - apply P_alt_skip.
    + eapply Rj_seql; [now apply P_p_seq_number | unfold nc; ld |]. rj.
    + unfold nc. rt.
  - unfold nc. rt.
Qed.
Lemma join_map {A C} sep (e : A -> list op) (g : C -> A) l :
  join sep e (map g l) = join sep (fun x => e (g x)) l.
Proof.
  induction l as [| x [| y l] IH]; [reflexivity .. |].
  change (e (g x) ++ sep ++ join sep e (map g (y :: l)) = e (g x) ++ sep ++ join sep (fun x => e (g x)) (y :: l)).
  now rewrite IH.
Qed.
Lemma join_ext {A} sep (e e' : A -> list op) l : (forall x, e x = e' x) -> join sep e l = join sep e' l.
Proof.
  intros H. induction l as [| x [| y l] IH]; [reflexivity | cbn; apply H |].
  change (e x ++ sep ++ join sep e (y :: l) = e' x ++ sep ++ join sep e' (y :: l)).
  now rewrite IH, H.
Qed.
Lemma e_sequence_set_raw s : e_sequence_set s =
  join (W (bs ",")) e_seq_raw (if quirk_always_normalize_sequence_sets then norm_set s else s).
Proof.
  unfold e_sequence_set, norm_set. destruct quirk_always_normalize_sequence_sets eqn:Q.
  - rewrite join_map. apply join_ext. intros x. unfold e_sequence. now rewrite Q.
  - apply join_ext. intros x. unfold e_sequence. now rewrite Q.
Qed.
Lemma seq_or_uid_eqb_eq a b : seq_or_uid_eqb a b = true -> a = b.
Proof. destruct a, b; cbn; try discriminate; [| reflexivity]. now intros ->%N.eqb_eq. Qed.
Lemma sequence_eqb_eq a b : sequence_eqb a b = true -> a = b.
Proof.
  destruct a, b; cbn; try discriminate; intros H; vs;
  repeat match goal with H : _ = true |- _ => apply seq_or_uid_eqb_eq in H end; congruence.
Qed.
Lemma sequence_set_eqb_eq a : forall b, sequence_set_eqb a b = true -> a = b.
Proof.
  induction a as [| x a IH]; intros [| y b]; cbn; try discriminate; [reflexivity |].
  intros H. vs. f_equal; [now apply sequence_eqb_eq | auto].
Qed.
Lemma e_sequence_set_exact s : v_sequence_set lv s = true ->
  e_sequence_set s = join (W (bs ",")) e_seq_raw s /\ v1 v_sequence s = true.
Proof.
  unfold v_sequence_set. cbn [only_exact]. intros H. vs. split; [| assumption].
  rewrite e_sequence_set_raw. destruct quirk_always_normalize_sequence_sets; [| reflexivity].
  cbn in H0. unfold normal_set in H0. now apply sequence_set_eqb_eq in H0 as ->.
Qed.
Lemma L_seq_raw s : lead1 (on is_seq1) (e_seq_raw s).
Proof. destruct s; cbn [e_seq_raw]; l1. Qed.
Lemma L_sequence_set s : v_sequence_set lv s = true -> lead1 (on is_seq1) (e_sequence_set s).
Proof.
  intros H. destruct (e_sequence_set_exact s H) as [-> V].
  apply lead1_join; [eapply nonempty_v1, V |]. intros. apply L_seq_raw.
Qed.
Lemma P_p_sequence_set s : v_sequence_set lv s = true ->
  P p_sequence_set (e_sequence_set s) s ns.
Proof.
  intros H. destruct (e_sequence_set_exact s H) as [-> V]. unfold p_sequence_set.
  assert (V' := V). apply andb_true_iff in V' as [N V'].
  apply P_vec1; [exact N |]. rewrite forallb_forall in V'.
  eapply (P_sep1 _ _ (bs ",") tt _ _ nc); [now destruct s | discriminate | | reflexivity | | | ].
  - cbn [W bs map]. pstep.
  - intros x Hx. now apply P_p_seq, V'.
  - unfold ns, nc. sub.
  - unfold ns. rj.
Qed.
Hint Resolve P_p_sequence_set : rtdb.
Hint Resolve L_sequence_set : leaddb.

(** *** Mailboxes *)
Lemma L_mailbox m : v_mailbox lv m = true -> lead1 (on is_astr1) (e_mailbox m).
Proof. destruct m; cbn; intros H; vs; nrm; l1. Qed.
Lemma P_p_mailbox m : v_mailbox lv m = true -> P p_mailbox (e_mailbox m) m nas.
Proof.
  intros V. unfold p_mailbox. destruct m as [| a]; cbn in V; vs; cbn [e_mailbox].
  - apply (P_expect _ _ _ (AAtom (bs "INBOX"))); [reflexivity |].
    apply (P_p_astring (AAtom (bs "INBOX"))). reflexivity.
  - apply (P_expect _ _ _ a); [| now apply P_p_astring].
    unfold mailbox_from. unfold mailbox_other_ok in *. vs.
    destruct (eqi (astring_bytes a) (bs "inbox")); [discriminate |]. now rewrite andb_false_r.
Qed.
Lemma P_p_list_mailbox m : v_list_mailbox lv m = true -> P p_list_mailbox (e_list_mailbox m) m nlc.
Proof. intros V. unfold p_list_mailbox. destruct m; cbn in V; cbn [e_list_mailbox]; rt. Qed.
Lemma L_list_mailbox m : v_list_mailbox lv m = true ->
  lead1 (on (fun b => is_list_char b || is_str1 b)) (e_list_mailbox m).
Proof. destruct m; cbn; intros H; [apply L_list_char in H |]; l1. Qed.
Hint Resolve P_p_mailbox P_p_list_mailbox : rtdb.
Hint Resolve L_mailbox L_list_mailbox : leaddb.

(** *** Flags *)
Definition is_flag1 (b : byte) : bool := beq b bBS || is_atom_char b.
Lemma L_flag f : v_flag f = true -> lead1 (on is_flag1) (e_flag f).
Proof.
  unfold e_flag. destruct f; cbn [flag_str]; intros V; cbn in V; vs; nrm; try l1.
Qed.
Lemma flag_system_ext a : is_flag_extension (flag_system a) = true -> flag_system a = FExtension a.
Proof. unfold flag_system. chain; try discriminate; reflexivity. Qed.
Lemma P_p_flag f : v_flag f = true -> P p_flag (e_flag f) f na.
Proof.
  intros V. unfold p_flag, e_flag.
  assert (S : forall a, atom_ok a = true -> P (char bBS ;;; p_atom) (B bBS :: W a) a na).
  { intros a Ha. rt. }
  destruct f; cbn [flag_str]; cbn in V; vs;
    try (apply P_alt_here; eapply P_pmap'; [| apply S; reflexivity]; reflexivity).
  - apply P_alt_here. eapply P_pmap'; [| now apply S]. symmetry. now apply flag_system_ext.
  - rt.
Qed.
Hint Resolve P_p_flag : rtdb.
Hint Resolve L_flag : leaddb.

Lemma P_tok_pmap {A T} (g : A -> T) (p : parser A) x v f : P p (W x) v f ->
  forall s, f (hd_error s) = true -> pmap g p (x ++ s) = ROk s (g v).
Proof.
  intros H s Hs. pose proof (P_full _ _ _ _ (P_pmap g _ _ _ _ H) s Hs) as E.
  now rewrite dump_W in E.
Qed.
Lemma sys_read a s : atom_ok a = true -> na (hd_error s) = true ->
  recognize (char bBS ;;; p_atom) ((bBS :: a) ++ s) = ROk s (bBS :: a).
Proof.
  intros Ha Hs. eapply recognize_read with (a := a).
  assert (K : P (char bBS ;;; p_atom) (W (bBS :: a)) a na) by rt.
  pose proof (P_full _ _ _ _ K s Hs) as E. now rewrite dump_W in E.
Qed.
Lemma L_flag_fetch f : v_flag_fetch lv f = true -> lead1 (on is_flag1) (e_flag_fetch f).
Proof. destruct f; cbn; intros V; vs; [| nrm]; l1. Qed.
Lemma P_p_flag_fetch f : v_flag_fetch lv f = true -> P p_flag_fetch (e_flag_fetch f) f na.
Proof.
  intros V. destruct f as [f |]; cbn in V; vs; cbn [e_flag_fetch].
  2:{ apply P_tok. intros s Hs. unfold p_flag_fetch.
      change (bs "\Recent") with (bBS :: bs "Recent"). now rewrite sys_read. }
  unfold e_flag. apply P_tok. intros s Hs. unfold p_flag_fetch.
  pose proof (P_tok_pmap FFFlag _ _ _ _ (P_p_flag f H) s Hs) as E.
  destruct f as [| | | | | a | a]; cbn [flag_str] in *; cbn in H; vs;
    try (match goal with |- context [bs ?x] => 
         match x with ByteStr (_ :: ?t) => change (bs x) with (bBS :: t) in * end end;
         rewrite sys_read by (reflexivity || assumption); exact E).
  - rewrite sys_read by assumption.
    destruct (eqi (bBS :: a) (bs "\recent")) eqn:R; [| exact E].
    change (eqi a (bs "recent") = true) in R. cbn [bs] in R. congruence.
  - assert (recognize (char bBS ;;; p_atom) (a ++ s) = RErr) as ->; [| exact E].
    destruct a as [| b a]; [discriminate |]. cbn [app]. apply refuses_recognize.
    unfold atom_ok in H. cbn in H. vs. rf.
Qed.
Lemma atom_cons a : atom_ok a = true -> exists b x, a = b :: x /\ is_atom_char b = true /\
  forallb is_atom_char x = true.
Proof.
  destruct a as [| b x]; [discriminate |]. unfold atom_ok. cbn. intros H. vs. eauto.
Qed.
Lemma P_p_flag_perm f : v_flag_perm f = true -> P p_flag_perm (e_flag_perm f) f na.
Proof.
  intros V. unfold p_flag_perm. destruct f as [f |]; cbn in V; cbn [e_flag_perm].
  - apply P_alt_skip.
    + apply Rj_bind. unfold e_flag. destruct f; cbn [flag_str]; cbn in V; vs; nrm; try rj.
      apply atom_cons in H as (b & x & -> & Hb & _). nrm.
      split.
      * intros s _. cbn. destruct (beq_spec b "*"%byte) as [-> |]; [discriminate | reflexivity].
      * intros pre is8 m d post E. exfalso. 
        change (B bBS :: B b :: W x) with (W (bBS :: b :: x)) in E.
        eapply noLit_cut; [apply noLit_W | exact E].
    + rt.
  - rt.
Qed.
Lemma L_flag_perm f : v_flag_perm f = true -> lead1 (on is_flag1) (e_flag_perm f).
Proof. destruct f; cbn; intros V; vs; [| nrm]; l1. Qed.
Lemma refuses_flag_fetch b : refuses (char bBS ;;; p_atom) b -> refuses p_flag b ->
  refuses p_flag_fetch b.
Proof.
  intros H H' s. unfold p_flag_fetch, recognize. rewrite H. unfold pmap, bind. now rewrite H'.
Qed.
Lemma flag_name_ext a : is_name_extension (flag_name_attribute_from a) = true ->
  flag_name_attribute_from a = FNExtension a.
Proof. unfold flag_name_attribute_from. chain; try discriminate; reflexivity. Qed.
Lemma L_flag_name f : lead1 (on (fun b => beq b bBS)) (e_flag_name f).
Proof. unfold e_flag_name. destruct f; cbn [flag_name_attribute_str]; nrm; l1. Qed.
Lemma P_p_flag_name f : v_flag_name f = true ->
  P (pmap flag_name_attribute_from (char bBS ;;; p_atom)) (e_flag_name f) f na.
Proof.
  intros V. unfold e_flag_name.
  assert (S : forall a, atom_ok a = true -> P (char bBS ;;; p_atom) (B bBS :: W a) a na).
  { intros a Ha. rt. }
  destruct f; cbn [flag_name_attribute_str]; cbn in V; vs;
    try (eapply P_pmap'; [| apply S; reflexivity]; reflexivity).
  eapply P_pmap'; [| now apply S]. symmetry. now apply flag_name_ext.
Qed.
Hint Resolve P_p_flag_fetch P_p_flag_perm P_p_flag_name : rtdb.
Hint Resolve L_flag_fetch L_flag_perm L_flag_name : leaddb.
Hint Extern 1 (refuses p_flag_fetch _) => apply refuses_flag_fetch; rf : rfdb.

Lemma P_p_flag_list l : forallb v_flag l = true ->
  P p_flag_list (paren (joinsp e_flag l)) l any.
Proof.
  intros V. unfold p_flag_list, delimited. nrm. pstep.
  eapply P_bind with (f1 := on (fun b => beq b ")"%byte)); [| ld | pstep; pstep].
  eapply P_joinsp0 with (v := v_flag) (fe := na); [exact V | exact P_p_flag | reflexivity | ld | rj | rj].
Qed.
Lemma P_p_mbx_list_flags l : v1 v_flag_name l = true ->
  P p_mbx_list_flags (joinsp e_flag_name l) l (on (fun b => beq b ")"%byte)).
Proof.
  intros V. unfold p_mbx_list_flags.
  eapply P_joinsp with (v := v_flag_name) (fe := na); [exact V | exact P_p_flag_name | reflexivity | ld | rj].
Qed.
Hint Resolve P_p_flag_list P_p_mbx_list_flags : rtdb.

(** *** Dates *)
Lemma span_firstn g x s : forallb g x = true ->
  match span g (x ++ s) with
  | Some (a, _) => length x <= length a /\ (length a = length x -> a = x)
  | None => True
  end.
Proof.
  induction x as [| b x IH]; cbn [app]; intros H.
  - destruct (span g s) as [[a r] |]; [| auto]. cbn. split; [lia |]. now destruct a.
  - cbn in H. vs. cbn [span]. rewrite H. specialize (IH H0).
    destruct (span g (x ++ s)) as [[a r] |]; [| auto]. cbn [length]. destruct IH as [L E].
    split; [lia |]. intros Le. now rewrite E by lia.
Qed.
Lemma P_twmn m x g f : m <= length x -> forallb g x = true ->
  P (take_while_m_n m (length x) g) (W x) x f.
Proof.
  intros L H. apply P_tok. intros s _. unfold take_while_m_n.
  pose proof (span_firstn g x s H) as S.
  rewrite skipn_app_exact, firstn_app_exact.
  destruct (span g (x ++ s)) as [[a r] |].
  - destruct S as [S1 S2]. destruct (Nat.leb_spec m (length a)); [| lia].
    destruct (Nat.leb_spec (length a) (length x)); [| reflexivity].
    assert (length a = length x) as E by lia. rewrite S2 by exact E.
    now rewrite skipn_app_exact.
  - destruct (Nat.leb_spec (length x) (length (x ++ s))); [reflexivity |].
    rewrite app_length in *. lia.
Qed.
Definition dec2_ok (n : N) : bool := forallb is_digit (dec2 n) &&
  match parse_max 255 (dec2 n) with Some m => N.eqb m n | None => false end.
Definition dec4_ok (n : N) : bool := forallb is_digit (dec4 n) &&
  match parse_max 65535 (dec4 n) with Some m => N.eqb m n | None => false end.
Lemma dec2_all n : (n < 100)%N -> dec2_ok n = true.
Proof. apply (N_below dec2_ok 100). vm_compute. reflexivity. Qed.
Lemma dec4_all n : (n <= 9999)%N -> dec4_ok n = true.
Proof.
  intros L. apply (N_below dec4_ok (Z.to_nat 10000)); [vm_compute; reflexivity | lia].
Qed.
Lemma L_dec2 n : (n < 100)%N -> lead1 (on is_digit) (W (dec2 n)).
Proof.
  intros L. apply dec2_all in L. unfold dec2_ok in L. vs. now apply lead1_Wall.
Qed.
Lemma P_dec2 m n f : m <= 2 -> (n < 100)%N -> P (p_digit_m_n m 2 255) (W (dec2 n)) n f.
Proof.
  intros Lm L. apply dec2_all in L. unfold dec2_ok in L. vs.
  destruct (parse_max 255 (dec2 n)) as [k |] eqn:E; [| discriminate].
  apply N.eqb_eq in H0 as ->. apply (P_map_res _ _ _ (dec2 n)); [exact E |].
  apply (P_expect _ _ _ (dec2 n)); [now rewrite digits_utf8 |].
  now apply (P_twmn m (dec2 n)).
Qed.
Lemma P_dec4 n f : (n <= 9999)%N -> P p_digit_4 (W (dec4 n)) n f.
Proof.
  intros L. apply dec4_all in L. unfold dec4_ok in L. vs.
  destruct (parse_max 65535 (dec4 n)) as [k |] eqn:E; [| discriminate].
  apply N.eqb_eq in H0 as ->. apply (P_map_res _ _ _ (dec4 n)); [exact E |].
  apply (P_expect _ _ _ (dec4 n)); [now rewrite digits_utf8 |].
  apply (P_twmn 4 (dec4 n)); [cbn; lia | assumption].
Qed.
Lemma P_p_month m : (1 <= m <= 12)%N -> P p_date_month (W (month_str m)) m any.
Proof.
  intros L. unfold p_date_month.
  assert (m = 1 \/ m = 2 \/ m = 3 \/ m = 4 \/ m = 5 \/ m = 6 \/ m = 7 \/ m = 8 \/ m = 9 \/
    m = 10 \/ m = 11 \/ m = 12)%N as C by lia.
  repeat destruct C as [-> | C]; try subst m; cbn [month_str]; rt.
Qed.
Lemma days_lt y m : (days_in_month y m < 100)%N.
Proof.
  unfold days_in_month. repeat match goal with |- context [match ?x with _ => _ end] => destruct x end;
  reflexivity.
Qed.
Lemma v_date_bounds d : v_date d = true ->
  (d_day d < 100 /\ 1 <= d_month d <= 12 /\ d_year d <= 9999)%N /\
  ymd_ok (d_year d) (d_month d) (d_day d) = true.
Proof.
  unfold v_date. intros H. vs. split; [| assumption]. unfold ymd_ok in H. vs.
  repeat match goal with H : N.leb _ _ = true |- _ => apply N.leb_le in H end.
  pose proof (days_lt (d_year d) (d_month d)). lia.
Qed.
Lemma P_p_date d : v_date d = true -> P p_date (e_date d) d any.
Proof.
  intros V. destruct (v_date_bounds d V) as ((Ld & Lm & Ly) & Y).
  apply (P_map_res _ _ _ (Some d)); [reflexivity |]. unfold p_date_opt, e_date, format_date.
  rewrite !W_app. nrm. apply P_alt_skip; [rj |]. apply P_alt_here. pstep. pstep.
  unfold p_date_text. apply P_assoc.
  eapply P_bind with (f1 := any); [apply P_dec2; [lia | exact Ld] | apply leads_any |]. pstep. pstep. pstep.
  eapply P_bind; [now apply P_p_month | ld |]. cbv beta. do 3 pstep.
  eapply P_bind with (f1 := any); [now apply P_dec4 | ld |].
  unfold from_ymd_opt. rewrite Y. apply N.leb_le in Ly. rewrite Ly. pstep. 
  destruct d as [y m d]; cbn [d_year d_month d_day]. pstep. pstep.
Qed.
Lemma L_date d : lead1 (on (fun b => beq b bDQ)) (e_date d).
Proof. now apply lead1_B. Qed.
Lemma L_date_time d : lead1 (on (fun b => beq b bDQ)) (e_date_time d).
Proof. now apply lead1_B. Qed.
Lemma zone_facts o : (-86400 < o < 86400)%Z -> Z.rem o 60 = 0%Z ->
  let h := Z.to_N (Z.abs o / 3600) in let m := Z.to_N (Z.abs o / 60 mod 60) in
  (h < 100)%N /\ (m < 100)%N /\ (3600 * Z.of_N h + 60 * Z.of_N m)%Z = Z.abs o.
Proof.
  intros L R h m. subst h m. Z.to_euclidean_division_equations. lia.
Qed.
Lemma P_p_date_time d : v_date_time d = true -> P p_date_time (e_date_time d) d any.
Proof.
  unfold v_date_time. intros V. vs.
  repeat match goal with H : N.ltb _ _ = true |- _ => apply N.ltb_lt in H end.
  repeat match goal with H : Z.ltb _ _ = true |- _ => apply Z.ltb_lt in H end.
  destruct (v_date_bounds _ H) as ((Ld & Lm & Ly) & Y).
  apply Z.eqb_eq in H0.
  destruct (zone_facts (dt_offset d) ltac:(lia) H0) as (Lh & Lmm & Ez).
  unfold p_date_time, e_date_time, format_date_time, format_date, format_zone.
  rewrite !W_app. nrm. pstep.
  eapply P_bind with (f1 := any); [| ld |].
  { unfold p_date_day_fixed. apply P_alt_skip.
    - eapply Rj_starts; [apply lead1_leads'; now apply L_dec2 |]. intros ? ?. rf.
    - apply P_alt_here. apply P_dec2; [lia | exact Ld]. }
  cbv beta. pstep.
  eapply P_bind; [now apply P_p_month | ld |]. cbv beta. pstep.
  eapply P_bind with (f1 := any); [now apply P_dec4 | ld |]. cbv beta. pstep.
  unfold p_time. do 1 pstep.
  eapply P_bind with (f1 := any); [apply P_dec2; [lia |]; lia | apply leads_any |]. repeat pstep.
  eapply P_bind with (f1 := any); [apply P_dec2; [lia |]; lia | apply leads_any |]. repeat pstep.
  eapply P_bind with (f1 := any); [apply P_dec2; [lia |]; lia | apply leads_any |]. repeat pstep.
  unfold p_zone.
  assert (Hof : offset_opt (dt_offset d) = Some (dt_offset d)).
  { unfold offset_opt. now rewrite (proj2 (Z.ltb_lt _ _) H2), (proj2 (Z.ltb_lt _ _) H1). }
  assert (Hms : from_hms_opt (dt_hour d) (dt_min d) (dt_sec d) = Some (dt_hour d, dt_min d, dt_sec d)).
  { unfold from_hms_opt. now rewrite !(proj2 (N.ltb_lt _ _)) by assumption. }
  assert (Fin : from_ymd_opt (d_year (dt_date d)) (d_month (dt_date d)) (d_day (dt_date d)) =
     Some (dt_date d)).
  { unfold from_ymd_opt. rewrite Y. now destruct (dt_date d). }
  pstep. cbv zeta.
  destruct (Z.ltb_spec (dt_offset d) 0); nrm.
  - change (B "-"%byte :: ?o) with ([B "-"%byte] ++ o).
    eapply P_bind with (v := "-"%byte) (f1 := any); [| ld |].
    { apply P_alt_skip; [rj |]. apply P_alt_here. apply P_charl. }
    cbv beta. pstep.
    eapply P_bind with (f1 := any); [apply P_dec2; [lia |]; lia | apply leads_any |]. pstep.
    eapply P_bind with (f1 := any); [apply P_dec2; [lia |]; lia | apply leads_any |]. cbv beta.
    rewrite Ez. change (beq "-"%byte "+"%byte) with false. cbv iota.
    replace (- Z.abs (dt_offset d))%Z with (dt_offset d) by lia.
    rewrite Hof, Hms, Fin. repeat pstep. cbv beta iota. rewrite H0. apply N.leb_le in Ly.
    rewrite Ly. cbn [andb Z.eqb]. destruct d; pstep.
  - change (B "+"%byte :: ?o) with ([B "+"%byte] ++ o).
    eapply P_bind with (v := "+"%byte) (f1 := any); [| ld |].
    { apply P_alt_here. apply P_charl. }
    cbv beta. pstep.
    eapply P_bind with (f1 := any); [apply P_dec2; [lia |]; lia | apply leads_any |]. pstep.
    eapply P_bind with (f1 := any); [apply P_dec2; [lia |]; lia | apply leads_any |]. cbv beta.
    rewrite Ez. change (beq "+"%byte "+"%byte) with true. cbv iota.
    replace (Z.abs (dt_offset d))%Z with (dt_offset d) by lia.
    rewrite Hof, Hms, Fin. repeat pstep. cbv beta iota. rewrite H0. apply N.leb_le in Ly.
    rewrite Ly. cbn [andb Z.eqb]. destruct d; pstep.
Qed.
Hint Resolve P_p_date P_p_date_time : rtdb.
Hint Resolve L_date L_date_time : leaddb.

(** *** CONDSTORE *)
Lemma P_p_search_sort_mod_seq n : v_nz64 n = true ->
  P p_search_sort_mod_seq (W (bs "(MODSEQ ") ++ e_num n ++ W (bs ")")) n any.
Proof. intros V. unfold p_search_sort_mod_seq. rt. Qed.
Lemma attr_ext a : is_attr_extension (attribute_flag_system a) = true ->
  attribute_flag_system a = AFExtension a.
Proof. unfold attribute_flag_system. chain; try discriminate; reflexivity. Qed.
Lemma P_p_attr_flag f : v_attribute_flag f = true ->
  P p_attr_flag (W (attribute_flag_str f)) f na.
Proof.
  intros V. unfold p_attr_flag.
  assert (S : forall a, atom_ok a = true -> P (tg "\\" ;;; p_atom) (B bBS :: B bBS :: W a) a na).
  { intros a Ha. rt. }
  destruct f; cbn [attribute_flag_str]; cbn in V; vs;
    try (apply P_alt_here; eapply P_pmap'; [| apply S; reflexivity]; reflexivity).
  - apply P_alt_here. eapply P_pmap'; [| now apply S]. symmetry. now apply attr_ext.
  - rt.
Qed.
Lemma L_attr f : v_attribute_flag f = true -> lead1 (on is_flag1) (W (attribute_flag_str f)).
Proof.
  destruct f; cbn [attribute_flag_str]; intros V; cbn in V; vs; nrm; try l1.
Qed.
Lemma P_p_entry_type_req t : P p_entry_type_req (W (entry_type_req_str t)) t any.
Proof. unfold p_entry_type_req. destruct t; cbn [entry_type_req_str]; rt. Qed.
Hint Resolve P_p_attr_flag P_p_entry_type_req : rtdb.
Lemma P_p_search_modsequence e n :
  vopt (vpair v_attribute_flag (fun _ => true)) e = true -> v_u64 n = true ->
  P p_search_modsequence (e_search_key (KModSequence e n)) (KModSequence e n) nd.
Proof.
  intros V Hn. unfold p_search_modsequence. cbn [e_search_key].
  destruct e as [[a t] |]; cbn in V; vs.
  - rewrite !W_app. nrm. pstep.
    unfold p_search_modseq_ext. 
    change (B " "%byte :: B bDQ :: ?x ++ ?y) with ((B " "%byte :: B bDQ :: x) ++ y) || idtac.
    match goal with |- P _ ?o _ _ => 
      replace o with ((W (bs " " ++ [bDQ] ++ bs "/flags/" ++ attribute_flag_str a ++ [bDQ] ++ bs " " ++ entry_type_req_str t)) ++ (B bSP :: e_num n)) end.
    2:{ rewrite !W_app. nrm. reflexivity. }
    eapply P_optb with (v := (a, t)) (f1 := any); [| ld |].
    + rewrite !W_app. nrm. pstep. unfold p_entry_flag_name. rt.
    + rt.
  - nrm. pstep. apply P_opt_skip; [unfold p_search_modseq_ext; rj |]. rt.
Qed.

(** *** STATUS *)
Lemma P_p_status_att s : v_status_name s = true -> P p_status_att (e_status_name s) s dl.
Proof. intros V. unfold p_status_att. destruct s; cbn in V; cbn [e_status_name]; rt. Qed.
Lemma P_p_status_att_val s : v_status_item s = true -> P p_status_att_val (e_status_item s) s nd.
Proof. intros V. unfold p_status_att_val. destruct s; cbn in V; vs; cbn [e_status_item]; rt. Qed.
Lemma P_p_status_att_list l : v1 v_status_item l = true ->
  P p_status_att_list (joinsp e_status_item l) l (on (fun b => beq b ")"%byte)).
Proof.
  intros V. unfold p_status_att_list.
  eapply P_joinsp with (v := v_status_item) (fe := nd);
    [exact V | exact P_p_status_att_val | reflexivity | ld | rj].
Qed.
End Rt.

#[export] Hint Resolve P_p_number P_p_number64 P_p_nz_number P_p_valzer P_p_msv
  P_p_quoted P_p_quoted_utf8 P_p_literal P_p_literal8 P_p_string
  P_p_atom P_p_text P_p_tag P_p_atom_ext P_p_list_char P_p_astring P_p_nstring P_p_charset
  P_p_base64 P_p_seq_number P_p_sequence_set P_p_mailbox P_p_list_mailbox P_p_flag
  P_p_flag_fetch P_p_flag_perm P_p_flag_name P_p_flag_list P_p_mbx_list_flags P_p_date P_p_date_time
  P_p_attr_flag P_p_entry_type_req P_p_status_att P_p_status_att_val P_p_status_att_list : rtdb.
#[export] Hint Resolve L_num L_quoted L_literal L_literal8 L_istring
  L_atom L_text L_tag L_atom_ext L_list_char L_astring L_nstring L_charset L_seq_or_uid
  L_sequence_set L_mailbox L_list_mailbox L_flag L_flag_fetch L_flag_perm L_flag_name
  L_date L_date_time L_attr : leaddb.
#[export] Hint Extern 1 (refuses p_flag_fetch _) => apply refuses_flag_fetch; rf : rfdb.
