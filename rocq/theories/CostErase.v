(** Counting steps does not change results: every parser of Cost*.v returns what the parser
    of the same name in Parse*.v returns. *)

From Verif Require Import Bytes Dec Features Nom Types Utf8 Conv Base64 Date ParseCore ParseBody
  ParseCmd ParseResp.
From Verif Require CostNom CostCore.
From Verif Require Import CostBody CostCmd CostResp.
From Verif Require Import Decode.

Definition er {A} (q : CostNom.parser A) (p : parser A) : Prop := forall i, fst (q i) = p i.

(** [E : er q p] rewritten at [q i] as [fst (q i) = ..] *)
Ltac er_at H i :=
  let E := fresh "E" in
  pose proof (H i) as E;
  match type of E with fst ?t = _ => destruct t as [? ?]; cbn [fst] in E; rewrite <- E; clear E end.

Section Er.
Context {A B C : Type}.

Lemma er_bind (q : CostNom.parser A) p (g : A -> CostNom.parser B) f :
  er q p -> (forall a, er (g a) (f a)) -> er (CostNom.bind q g) (bind p f).
Proof.
  intros H K i. unfold CostNom.bind, bind. er_at H i. destruct r; try reflexivity.
  rewrite <- (K a rest). destruct (g a rest); reflexivity.
Qed.
Lemma er_ret (a : A) : er (CostNom.ret a) (ret a).
Proof. intros i; reflexivity. Qed.
Lemma er_perr : er (@CostNom.perr A) perr.
Proof. intros i; reflexivity. Qed.
Lemma er_pfail : er (@CostNom.pfail A) pfail.
Proof. intros i; reflexivity. Qed.
Lemma er_panic : er (@CostNom.panic A) (fun _ => RPanic).
Proof. intros i; reflexivity. Qed.
Lemma er_work n (q : CostNom.parser B) p :
  er q p -> er (CostNom.bind (CostNom.work n) (fun _ => q)) p.
Proof. intros H i. unfold CostNom.bind, CostNom.work. er_at H i. reflexivity. Qed.
Lemma er_pmap (f : A -> B) q p : er q p -> er (CostNom.pmap f q) (pmap f p).
Proof.
  intros H i. unfold CostNom.pmap, CostNom.conv, pmap, bind. er_at H i. destruct r; reflexivity.
Qed.
Lemma er_value (b : B) (q : CostNom.parser A) p : er q p -> er (CostNom.value b q) (value b p).
Proof.
  intros H i. unfold CostNom.value, CostNom.bind, value, bind. er_at H i. destruct r; reflexivity.
Qed.
Lemma er_map_res (f : A -> option B) q p : er q p -> er (CostNom.map_res q f) (map_res p f).
Proof.
  intros H i. unfold CostNom.map_res, CostNom.conv, map_res, bind. er_at H i.
  destruct r; try reflexivity. cbn. destruct (f a); reflexivity.
Qed.
Lemma er_expect (f : A -> option B) q p : er q p -> er (CostCore.expect q f) (expect p f).
Proof.
  intros H i. unfold CostCore.expect, CostNom.conv, expect, bind. er_at H i.
  destruct r; try reflexivity. cbn. destruct (f a); reflexivity.
Qed.
Lemma er_vecn n (q : CostNom.parser (list A)) p : er q p -> er (CostCore.vecn n q) (vecn n p).
Proof.
  intros H i. unfold CostCore.vecn, CostNom.bind, vecn, expect, bind. er_at H i.
  destruct r; try reflexivity. destruct (Nat.leb n (length a)); reflexivity.
Qed.
Lemma er_gate b (q : CostNom.parser A) p : er q p -> er (CostCore.gate b q) (gate b p).
Proof. intros H i. destruct b; [apply H|reflexivity]. Qed.
Lemma er_orp (q q' : CostNom.parser A) p p' :
  er q p -> er q' p' -> er (CostNom.orp q q') (orp p p').
Proof.
  intros H K i. unfold CostNom.orp, orp. er_at H i. destruct r; try reflexivity.
  er_at K i. reflexivity.
Qed.
Lemma er_alt (qs : list (CostNom.parser A)) ps :
  Forall2 er qs ps -> er (CostNom.alt qs) (alt ps).
Proof.
  intros H; induction H as [|q p qs ps Hp Hps IH]; [exact er_perr|].
  destruct qs, ps; try (inversion Hps; fail); [exact Hp|].
  change (er (CostNom.orp q (CostNom.alt (p0 :: qs))) (orp p (alt (p1 :: ps)))).
  now apply er_orp.
Qed.
Lemma er_opt (q : CostNom.parser A) p : er q p -> er (CostNom.opt q) (opt p).
Proof. intros H i. unfold CostNom.opt, opt. er_at H i. destruct r; reflexivity. Qed.
Lemma er_peek (q : CostNom.parser A) p : er q p -> er (CostNom.peek q) (peek p).
Proof. intros H i. unfold CostNom.peek, peek. er_at H i. destruct r; reflexivity. Qed.
Lemma er_recognize (q : CostNom.parser A) p : er q p -> er (CostNom.recognize q) (recognize p).
Proof. intros H i. unfold CostNom.recognize, recognize. er_at H i. destruct r; reflexivity. Qed.
Lemma er_many0_f (q : CostNom.parser A) p : er q p ->
  forall n, er (CostNom.many0_f n q) (many0_f n p).
Proof.
  intros H n; induction n as [|n IH]; intros i; [reflexivity|].
  cbn [CostNom.many0_f many0_f]. er_at H i. destruct r; try reflexivity.
  destruct (Nat.ltb (length rest) (length i)); [|reflexivity].
  er_at IH rest. destruct r; reflexivity.
Qed.
Lemma er_many0 (q : CostNom.parser A) p : er q p -> er (CostNom.many0 q) (many0 p).
Proof. intros H i. now apply er_many0_f. Qed.
Lemma er_many_m (q : CostNom.parser A) p : er q p -> forall m, er (CostNom.many_m m q) (many_m m p).
Proof.
  intros H m; induction m as [|m IH]; [now apply er_many0|]. intros i.
  cbn [CostNom.many_m many_m]. er_at H i. destruct r; try reflexivity.
  destruct (Nat.ltb (length rest) (length i)); [|reflexivity].
  er_at IH rest. destruct r; reflexivity.
Qed.
Lemma er_sep_loop_f (s : CostNom.parser C) s' (q : CostNom.parser A) p : er s s' -> er q p ->
  forall n, er (CostNom.sep_loop_f n s q) (sep_loop_f n s' p).
Proof.
  intros K H n; induction n as [|n IH]; intros i; [reflexivity|].
  cbn [CostNom.sep_loop_f sep_loop_f]. er_at K i. destruct r; try reflexivity.
  destruct (Nat.ltb (length rest) (length i)); [|reflexivity].
  er_at H rest. destruct r; try reflexivity.
  destruct (Nat.leb (length rest0) (length rest)); [|reflexivity].
  er_at IH rest0. destruct r; reflexivity.
Qed.
Lemma er_sep_loop (s : CostNom.parser C) s' (q : CostNom.parser A) p : er s s' -> er q p ->
  er (CostNom.sep_loop s q) (sep_loop s' p).
Proof. intros K H i. now apply er_sep_loop_f. Qed.
Lemma er_sep_list0 (s : CostNom.parser C) s' (q : CostNom.parser A) p : er s s' -> er q p ->
  er (CostNom.sep_list0 s q) (sep_list0 s' p).
Proof.
  intros K H i. unfold CostNom.sep_list0, sep_list0. er_at H i. destruct r; try reflexivity.
  pose proof (er_sep_loop _ _ _ _ K H rest) as E. destruct (CostNom.sep_loop s q rest).
  cbn [fst] in E. rewrite <- E. destruct r; reflexivity.
Qed.
End Er.

Lemma er_many1 {A} (q : CostNom.parser A) p : er q p -> er (CostNom.many1 q) (many1 p).
Proof.
  intros H. apply er_bind; [exact H|]. intros a. apply er_bind; [now apply er_many0|].
  intros l. apply er_ret.
Qed.
Lemma er_sep_list1 {A C} (s : CostNom.parser C) s' (q : CostNom.parser A) p : er s s' -> er q p ->
  er (CostNom.sep_list1 s q) (sep_list1 s' p).
Proof.
  intros K H. apply er_bind; [exact H|]. intros a. apply er_bind; [now apply er_sep_loop|].
  intros l. apply er_ret.
Qed.
Lemma er_tag t : er (CostNom.tag t) (tag t).
Proof.
  induction t as [|c t IH]; intros i; [reflexivity|]. destruct i as [|x i]; [reflexivity|].
  cbn. destruct (beq x c); [|reflexivity]. rewrite <- IH. destruct (CostNom.tag t i); reflexivity.
Qed.
Lemma er_tag_no_case t : er (CostNom.tag_no_case t) (tag_no_case t).
Proof.
  induction t as [|c t IH]; intros i; [reflexivity|]. destruct i as [|x i]; [reflexivity|].
  cbn. destruct (beq (lower x) (lower c)); [|reflexivity]. rewrite <- IH.
  destruct (CostNom.tag_no_case t i); reflexivity.
Qed.
Lemma er_sat f : er (CostNom.sat f) (sat f).
Proof. intros [|x i]; [reflexivity|]. cbn. destruct (f x); reflexivity. Qed.
Lemma er_char c : er (CostNom.char c) (char c).
Proof. apply er_sat. Qed.
Lemma er_take_while f : er (CostNom.take_while f) (take_while f).
Proof. intros i; reflexivity. Qed.
Lemma er_take_while1 f : er (CostNom.take_while1 f) (take_while1 f).
Proof. intros i; reflexivity. Qed.
Lemma er_take_while_m_n m n f : er (CostNom.take_while_m_n m n f) (take_while_m_n m n f).
Proof. intros i; reflexivity. Qed.
Lemma er_take n : er (CostNom.take n) (take n).
Proof. intros i; reflexivity. Qed.
Lemma er_take_until2 a b : er (CostNom.take_until2 a b) (take_until2 a b).
Proof.
  intros i. unfold CostNom.take_until2, take_until2. destruct (find2 a b i) as [[? ?]|]; reflexivity.
Qed.
Lemma er_escaped_f f c g n : er (CostNom.escaped_f n f c g) (escaped_f n f c g).
Proof.
  induction n as [|n IH]; intros i; [reflexivity|]. cbn [CostNom.escaped_f escaped_f].
  destruct i as [|x i]; [reflexivity|]. pose proof (er_take_while1 f (x :: i)) as E.
  destruct (CostNom.take_while1 f (x :: i)) as [r d]. cbn [fst] in E. rewrite <- E.
  destruct r; try reflexivity.
  - destruct rest; [reflexivity|]. er_at IH (b :: rest). destruct r; reflexivity.
  - destruct (beq x c); [|reflexivity]. destruct i as [|y i]; [reflexivity|].
    destruct (g y); [|reflexivity]. destruct i; [reflexivity|]. er_at IH (b :: i).
    destruct r; reflexivity.
Qed.
Lemma er_escaped f c g : er (CostNom.escaped f c g) (escaped f c g).
Proof. intros i. apply er_escaped_f. Qed.
Lemma er_sp : er CostNom.sp sp.
Proof. apply er_char. Qed.
Lemma er_dquote : er CostNom.dquote dquote.
Proof. apply er_char. Qed.
Lemma er_crlf `{features} : er CostNom.crlf crlf.
Proof.
  unfold CostNom.crlf, crlf. destruct quirk_crlf_relaxed; [|apply er_tag].
  apply er_bind; [apply er_opt, er_char|]. intros ?. apply er_bind; [apply er_char|].
  intros ?. apply er_ret.
Qed.

Create HintDb er.
#[global] Hint Resolve er_ret er_perr er_pfail er_panic er_tag er_tag_no_case er_char er_sat
  er_take_while er_take_while1 er_take_while_m_n er_take er_take_until2 er_escaped er_sp er_dquote
  er_crlf : er.

(** One combinator at a time, then what is known of the named parsers *)
Ltac er_step :=
  first
    [ solve [eauto 2 with er nocore]
    | lazymatch goal with
      | |- er (CostNom.bind (CostNom.work _) _) _ => apply er_work
      | |- er (CostNom.bind _ _) _ => apply er_bind; [|intros ?]
      | |- er (CostCore.delimited _ _ _) _ => apply er_bind; [|intros ?]
      | |- er (CostCore.terminated _ _) _ => apply er_bind; [|intros ?]
      | |- er (CostNom.pmap _ _) _ => apply er_pmap
      | |- er (CostNom.value _ _) _ => apply er_value
      | |- er (CostNom.map_res _ _) _ => apply er_map_res
      | |- er (CostCore.expect _ _) _ => apply er_expect
      | |- er (CostCore.validated _ _) _ => apply er_expect
      | |- er (CostCore.vecn _ _) _ => apply er_vecn
      | |- er (CostCore.vec1 _) _ => apply er_vecn
      | |- er (CostCore.vec2 _) _ => apply er_vecn
      | |- er (CostCore.gate _ _) _ => apply er_gate
      | |- er (CostNom.opt _) _ => apply er_opt
      | |- er (CostNom.peek _) _ => apply er_peek
      | |- er (CostNom.recognize _) _ => apply er_recognize
      | |- er (CostNom.many1 _) _ => apply er_many1
      | |- er (CostNom.many0 _) _ => apply er_many0
      | |- er (CostNom.many_m _ _) _ => apply er_many_m
      | |- er (CostNom.sep_list1 _ _) _ => apply er_sep_list1
      | |- er (CostNom.sep_list0 _ _) _ => apply er_sep_list0
      | |- er (CostNom.alt _) _ =>
        apply er_alt; repeat (apply Forall2_cons; [|]); try apply Forall2_nil
      | |- er (if ?b then _ else _) (if ?b then _ else _) => destruct b
      | |- er (match ?x with _ => _ end) (match ?x with _ => _ end) => destruct x
      end ].
Ltac er :=
  repeat er_step.

Section Erase.
Context {F : features}.

Lemma er_digits : forall max, er (CostCore.q_digits max) (p_digits max).
Proof. intros; unfold CostCore.q_digits, p_digits; er. Qed.
#[local] Hint Resolve er_digits : er.
Lemma er_number : er (CostCore.q_number) (p_number).
Proof. unfold CostCore.q_number, p_number; er. Qed.
#[local] Hint Resolve er_number : er.
Lemma er_number64 : er (CostCore.q_number64) (p_number64).
Proof. unfold CostCore.q_number64, p_number64; er. Qed.
#[local] Hint Resolve er_number64 : er.
Lemma er_nz_number : er (CostCore.q_nz_number) (p_nz_number).
Proof. unfold CostCore.q_nz_number, p_nz_number; er. Qed.
#[local] Hint Resolve er_nz_number : er.
Lemma er_quoted : er (CostCore.q_quoted) (p_quoted).
Proof. unfold CostCore.q_quoted, p_quoted; er. Qed.
#[local] Hint Resolve er_quoted : er.
Lemma er_quoted_utf8 : er (CostCore.q_quoted_utf8) (p_quoted_utf8).
Proof. unfold CostCore.q_quoted_utf8, p_quoted_utf8; er. Qed.
#[local] Hint Resolve er_quoted_utf8 : er.
Lemma er_lit_mode : er (CostCore.q_lit_mode) (p_lit_mode).
Proof. unfold CostCore.q_lit_mode, p_lit_mode; er. Qed.
#[local] Hint Resolve er_lit_mode : er.
Lemma er_lit_header : forall open, er (CostCore.q_lit_header open) (p_lit_header open).
Proof. intros; unfold CostCore.q_lit_header, p_lit_header; er. Qed.
#[local] Hint Resolve er_lit_header : er.
Lemma er_lit_found : forall n m, er (CostCore.q_lit_found n m) (p_lit_found n m).
Proof. intros n m i. destruct i; reflexivity. Qed.
#[local] Hint Resolve er_lit_found : er.
Lemma er_literal : er (CostCore.q_literal) (p_literal).
Proof. unfold CostCore.q_literal, p_literal; er. Qed.
#[local] Hint Resolve er_literal : er.
Lemma er_literal8 : er (CostCore.q_literal8) (p_literal8).
Proof. unfold CostCore.q_literal8, p_literal8; er. Qed.
#[local] Hint Resolve er_literal8 : er.
Lemma er_string : er (CostCore.q_string) (p_string).
Proof. unfold CostCore.q_string, p_string; er. Qed.
#[local] Hint Resolve er_string : er.
Lemma er_quoted_char : er (CostCore.q_quoted_char) (p_quoted_char).
Proof. unfold CostCore.q_quoted_char, p_quoted_char; er. Qed.
#[local] Hint Resolve er_quoted_char : er.
Lemma er_astring : er (CostCore.q_astring) (p_astring).
Proof. unfold CostCore.q_astring, p_astring; er. Qed.
#[local] Hint Resolve er_astring : er.
Lemma er_atom : er (CostCore.q_atom) (p_atom).
Proof. unfold CostCore.q_atom, p_atom; er. Qed.
#[local] Hint Resolve er_atom : er.
Lemma er_nil : er (CostCore.q_nil) (p_nil).
Proof. unfold CostCore.q_nil, p_nil; er. Qed.
#[local] Hint Resolve er_nil : er.
Lemma er_nstring : er (CostCore.q_nstring) (p_nstring).
Proof. unfold CostCore.q_nstring, p_nstring; er. Qed.
#[local] Hint Resolve er_nstring : er.
Lemma er_text : er (CostCore.q_text) (p_text).
Proof. unfold CostCore.q_text, p_text; er. Qed.
#[local] Hint Resolve er_text : er.
Lemma er_base64 : er (CostCore.q_base64) (p_base64).
Proof. unfold CostCore.q_base64, p_base64; er. Qed.
#[local] Hint Resolve er_base64 : er.
Lemma er_charset : er (CostCore.q_charset) (p_charset).
Proof. unfold CostCore.q_charset, p_charset; er. Qed.
#[local] Hint Resolve er_charset : er.
Lemma er_tag_imap : er (CostCore.q_tag_imap) (p_tag_imap).
Proof. unfold CostCore.q_tag_imap, p_tag_imap; er. Qed.
#[local] Hint Resolve er_tag_imap : er.
Lemma er_seq_number : er (CostCore.q_seq_number) (p_seq_number).
Proof. unfold CostCore.q_seq_number, p_seq_number; er. Qed.
#[local] Hint Resolve er_seq_number : er.
Lemma er_seq_range : er (CostCore.q_seq_range) (p_seq_range).
Proof. unfold CostCore.q_seq_range, p_seq_range; er. Qed.
#[local] Hint Resolve er_seq_range : er.
Lemma er_sequence_set : er (CostCore.q_sequence_set) (p_sequence_set).
Proof. unfold CostCore.q_sequence_set, p_sequence_set; er.
Qed.
#[local] Hint Resolve er_sequence_set : er.
Lemma er_list_mailbox : er (CostCore.q_list_mailbox) (p_list_mailbox).
Proof. unfold CostCore.q_list_mailbox, p_list_mailbox; er. Qed.
#[local] Hint Resolve er_list_mailbox : er.
Lemma er_mailbox : er (CostCore.q_mailbox) (p_mailbox).
Proof. unfold CostCore.q_mailbox, p_mailbox; er. Qed.
#[local] Hint Resolve er_mailbox : er.
Lemma er_flag : er (CostCore.q_flag) (p_flag).
Proof. unfold CostCore.q_flag, p_flag; er. Qed.
#[local] Hint Resolve er_flag : er.
Lemma er_flag_list : er (CostCore.q_flag_list) (p_flag_list).
Proof. unfold CostCore.q_flag_list, p_flag_list; er. Qed.
#[local] Hint Resolve er_flag_list : er.
Lemma er_flag_fetch : er (CostCore.q_flag_fetch) (p_flag_fetch).
Proof.
  intros i. unfold CostCore.q_flag_fetch, p_flag_fetch.
  assert (H : er (CostNom.recognize (CostNom.bind (CostNom.char bBS) (fun _ => CostCore.q_atom)))
                 (recognize (char bBS ;;; p_atom))) by er.
  er_at H i. assert (K : er (CostNom.pmap FFFlag CostCore.q_flag) (pmap FFFlag p_flag)) by er.
  destruct r; cbn [fst]; try reflexivity.
  - destruct (eqi a (bs "\recent")); [reflexivity|]. er_at K i. reflexivity.
  - er_at K i. reflexivity.
  - er_at K i. reflexivity.
  - er_at K i. reflexivity.
Qed.
#[local] Hint Resolve er_flag_fetch : er.
Lemma er_flag_perm : er (CostCore.q_flag_perm) (p_flag_perm).
Proof. unfold CostCore.q_flag_perm, p_flag_perm; er. Qed.
#[local] Hint Resolve er_flag_perm : er.
Lemma er_mbx_list_flags : er (CostCore.q_mbx_list_flags) (p_mbx_list_flags).
Proof. unfold CostCore.q_mbx_list_flags, p_mbx_list_flags; er. Qed.
#[local] Hint Resolve er_mbx_list_flags : er.
Lemma er_digit_m_n : forall m n max, er (CostCore.q_digit_m_n m n max) (p_digit_m_n m n max).
Proof. intros; unfold CostCore.q_digit_m_n, p_digit_m_n; er. Qed.
#[local] Hint Resolve er_digit_m_n : er.
Lemma er_digit_1_2 : er (CostCore.q_digit_1_2) (p_digit_1_2).
Proof. unfold CostCore.q_digit_1_2, p_digit_1_2; er. Qed.
#[local] Hint Resolve er_digit_1_2 : er.
Lemma er_digit_2 : er (CostCore.q_digit_2) (p_digit_2).
Proof. unfold CostCore.q_digit_2, p_digit_2; er. Qed.
#[local] Hint Resolve er_digit_2 : er.
Lemma er_digit_4 : er (CostCore.q_digit_4) (p_digit_4).
Proof. unfold CostCore.q_digit_4, p_digit_4; er. Qed.
#[local] Hint Resolve er_digit_4 : er.
Lemma er_date_month : er (CostCore.q_date_month) (p_date_month).
Proof. unfold CostCore.q_date_month, p_date_month; er. Qed.
#[local] Hint Resolve er_date_month : er.
Lemma er_date_text : er (CostCore.q_date_text) (p_date_text).
Proof. unfold CostCore.q_date_text, p_date_text; er. Qed.
#[local] Hint Resolve er_date_text : er.
Lemma er_date_opt : er (CostCore.q_date_opt) (p_date_opt).
Proof. unfold CostCore.q_date_opt, p_date_opt; er. Qed.
#[local] Hint Resolve er_date_opt : er.
Lemma er_date : er (CostCore.q_date) (p_date).
Proof. unfold CostCore.q_date, p_date; er. Qed.
#[local] Hint Resolve er_date : er.
Lemma er_time : er (CostCore.q_time) (p_time).
Proof. unfold CostCore.q_time, p_time; er. Qed.
#[local] Hint Resolve er_time : er.
Lemma er_date_day_fixed : er (CostCore.q_date_day_fixed) (p_date_day_fixed).
Proof. unfold CostCore.q_date_day_fixed, p_date_day_fixed; er. Qed.
#[local] Hint Resolve er_date_day_fixed : er.
Lemma er_zone : er (CostCore.q_zone) (p_zone).
Proof. unfold CostCore.q_zone, p_zone; er. Qed.
#[local] Hint Resolve er_zone : er.
Lemma er_date_time : er (CostCore.q_date_time) (p_date_time).
Proof. unfold CostCore.q_date_time, p_date_time; er. Qed.
#[local] Hint Resolve er_date_time : er.
Lemma er_mod_sequence_valzer : er (CostCore.q_mod_sequence_valzer) (p_mod_sequence_valzer).
Proof. unfold CostCore.q_mod_sequence_valzer, p_mod_sequence_valzer; er. Qed.
#[local] Hint Resolve er_mod_sequence_valzer : er.
Lemma er_mod_sequence_value : er (CostCore.q_mod_sequence_value) (p_mod_sequence_value).
Proof. unfold CostCore.q_mod_sequence_value, p_mod_sequence_value; er. Qed.
#[local] Hint Resolve er_mod_sequence_value : er.
Lemma er_search_sort_mod_seq : er (CostCore.q_search_sort_mod_seq) (p_search_sort_mod_seq).
Proof. unfold CostCore.q_search_sort_mod_seq, p_search_sort_mod_seq; er. Qed.
#[local] Hint Resolve er_search_sort_mod_seq : er.
Lemma er_attr_flag : er (CostCore.q_attr_flag) (p_attr_flag).
Proof. unfold CostCore.q_attr_flag, p_attr_flag; er. Qed.
#[local] Hint Resolve er_attr_flag : er.
Lemma er_entry_flag_name : er (CostCore.q_entry_flag_name) (p_entry_flag_name).
Proof. unfold CostCore.q_entry_flag_name, p_entry_flag_name; er. Qed.
#[local] Hint Resolve er_entry_flag_name : er.
Lemma er_entry_type_req : er (CostCore.q_entry_type_req) (p_entry_type_req).
Proof. unfold CostCore.q_entry_type_req, p_entry_type_req; er. Qed.
#[local] Hint Resolve er_entry_type_req : er.
Lemma er_search_modseq_ext : er (CostCore.q_search_modseq_ext) (p_search_modseq_ext).
Proof. unfold CostCore.q_search_modseq_ext, p_search_modseq_ext; er. Qed.
#[local] Hint Resolve er_search_modseq_ext : er.
Lemma er_search_modsequence : er (CostCore.q_search_modsequence) (p_search_modsequence).
Proof. unfold CostCore.q_search_modsequence, p_search_modsequence; er. Qed.
#[local] Hint Resolve er_search_modsequence : er.
Lemma er_status_att : er (CostCore.q_status_att) (p_status_att).
Proof. unfold CostCore.q_status_att, p_status_att; er. Qed.
#[local] Hint Resolve er_status_att : er.
Lemma er_status_att_val : er (CostCore.q_status_att_val) (p_status_att_val).
Proof. unfold CostCore.q_status_att_val, p_status_att_val; er. Qed.
#[local] Hint Resolve er_status_att_val : er.
Lemma er_status_att_list : er (CostCore.q_status_att_list) (p_status_att_list).
Proof. unfold CostCore.q_status_att_list, p_status_att_list; er. Qed.
#[local] Hint Resolve er_status_att_list : er.

Lemma er_address : er (q_address) (p_address).
Proof. unfold q_address, p_address; er. Qed.
#[local] Hint Resolve er_address : er.
Lemma er_addresses : er (q_addresses) (p_addresses).
Proof. unfold q_addresses, p_addresses; er. Qed.
#[local] Hint Resolve er_addresses : er.
Lemma er_envelope : er (q_envelope) (p_envelope).
Proof. unfold q_envelope, p_envelope; er. Qed.
#[local] Hint Resolve er_envelope : er.
Lemma er_pair : er (q_pair) (p_pair).
Proof. unfold q_pair, p_pair; er. Qed.
#[local] Hint Resolve er_pair : er.
Lemma er_body_fld_param : er (q_body_fld_param) (p_body_fld_param).
Proof. unfold q_body_fld_param, p_body_fld_param; er. Qed.
#[local] Hint Resolve er_body_fld_param : er.
Lemma er_body_fld_enc : er (q_body_fld_enc) (p_body_fld_enc).
Proof. unfold q_body_fld_enc, p_body_fld_enc; er. Qed.
#[local] Hint Resolve er_body_fld_enc : er.
Lemma er_body_fld_octets : er (q_body_fld_octets) (p_body_fld_octets).
Proof. unfold q_body_fld_octets, p_body_fld_octets; er. Qed.
#[local] Hint Resolve er_body_fld_octets : er.
Lemma er_body_fields : er (q_body_fields) (p_body_fields).
Proof. unfold q_body_fields, p_body_fields; er. Qed.
#[local] Hint Resolve er_body_fields : er.
Lemma er_body_extension : forall n, er (q_body_extension n) (p_body_extension n).
Proof.
  intros n; induction n as [|n IH]; cbn [q_body_extension p_body_extension]; er.
Qed.
#[local] Hint Resolve er_body_extension : er.
Lemma er_body_fld_dsp : er (q_body_fld_dsp) (p_body_fld_dsp).
Proof. unfold q_body_fld_dsp, p_body_fld_dsp; er. Qed.
#[local] Hint Resolve er_body_fld_dsp : er.
Lemma er_body_fld_lang : er (q_body_fld_lang) (p_body_fld_lang).
Proof. unfold q_body_fld_lang, p_body_fld_lang; er. Qed.
#[local] Hint Resolve er_body_fld_lang : er.
Lemma er_location : er (q_location) (p_location).
Proof. unfold q_location, p_location; er. Qed.
#[local] Hint Resolve er_location : er.
Lemma er_language : er (q_language) (p_language).
Proof. unfold q_language, p_language; er. Qed.
#[local] Hint Resolve er_language : er.
Lemma er_disposition : er (q_disposition) (p_disposition).
Proof. unfold q_disposition, p_disposition; er. Qed.
#[local] Hint Resolve er_disposition : er.
Lemma er_body_ext_1part : er (q_body_ext_1part) (p_body_ext_1part).
Proof. unfold q_body_ext_1part, p_body_ext_1part; er. Qed.
#[local] Hint Resolve er_body_ext_1part : er.
Lemma er_body_ext_mpart : er (q_body_ext_mpart) (p_body_ext_mpart).
Proof. unfold q_body_ext_mpart, p_body_ext_mpart; er. Qed.
#[local] Hint Resolve er_body_ext_mpart : er.
Lemma er_body_type_basic : er (q_body_type_basic) (p_body_type_basic).
Proof. unfold q_body_type_basic, p_body_type_basic; er. Qed.
#[local] Hint Resolve er_body_type_basic : er.
Lemma er_media_message : er (q_media_message) (p_media_message).
Proof. unfold q_media_message, p_media_message; er. Qed.
#[local] Hint Resolve er_media_message : er.
Lemma er_media_text : er (q_media_text) (p_media_text).
Proof. unfold q_media_text, p_media_text; er. Qed.
#[local] Hint Resolve er_media_text : er.
Lemma er_body_type_text : er (q_body_type_text) (p_body_type_text).
Proof. unfold q_body_type_text, p_body_type_text; er. Qed.
#[local] Hint Resolve er_body_type_text : er.
Lemma er_body_type_msg qb pb : (forall n, er (qb n) (pb n)) ->
  er (q_body_type_msg qb) (p_body_type_msg pb).
Proof. intros H; unfold q_body_type_msg, p_body_type_msg; er. Qed.
Lemma er_body_type_1part qb pb n : (forall n, er (qb n) (pb n)) ->
  er (q_body_type_1part qb n) (p_body_type_1part pb n).
Proof.
  intros H. pose proof (er_body_type_msg _ _ H).
  unfold q_body_type_1part, p_body_type_1part; er.
Qed.
Lemma er_body_type_mpart qb pb n : (forall n, er (qb n) (pb n)) ->
  er (q_body_type_mpart qb n) (p_body_type_mpart pb n).
Proof. intros H; unfold q_body_type_mpart, p_body_type_mpart; er. Qed.
Lemma er_body_f : forall fuel n, er (q_body_f fuel n) (p_body_f fuel n).
Proof.
  intros fuel; induction fuel as [|fuel IH]; intros n; cbn [q_body_f p_body_f]; [er|].
  pose proof (fun n => er_body_type_1part _ _ n IH) as H1.
  pose proof (fun n => er_body_type_mpart _ _ n IH) as H2. er.
Qed.
Lemma er_body : forall n, er (q_body n) (p_body n).
Proof. intros n i. apply er_body_f. Qed.
#[local] Hint Resolve er_body : er.
Lemma er_header_list : er (q_header_list) (p_header_list).
Proof. unfold q_header_list, p_header_list; er. Qed.
#[local] Hint Resolve er_header_list : er.
Lemma er_section_part : er (q_section_part) (p_section_part).
Proof. unfold q_section_part, p_section_part; er. Qed.
#[local] Hint Resolve er_section_part : er.
Lemma er_section_msgtext : er (q_section_msgtext) (p_section_msgtext).
Proof. unfold q_section_msgtext, p_section_msgtext; er. Qed.
#[local] Hint Resolve er_section_msgtext : er.
Lemma er_section_text : er (q_section_text) (p_section_text).
Proof. unfold q_section_text, p_section_text; er. Qed.
#[local] Hint Resolve er_section_text : er.
Lemma er_section_spec : er (q_section_spec) (p_section_spec).
Proof. unfold q_section_spec, p_section_spec; er. Qed.
#[local] Hint Resolve er_section_spec : er.
Lemma er_section : er (q_section) (p_section).
Proof. unfold q_section, p_section; er. Qed.
#[local] Hint Resolve er_section : er.
Lemma er_section_binary : er (q_section_binary) (p_section_binary).
Proof. unfold q_section_binary, p_section_binary; er. Qed.
#[local] Hint Resolve er_section_binary : er.
Lemma er_partial : er (q_partial) (p_partial).
Proof. unfold q_partial, p_partial; er. Qed.
#[local] Hint Resolve er_partial : er.
Lemma er_fetch_att : er (q_fetch_att) (p_fetch_att).
Proof. unfold q_fetch_att, p_fetch_att; er. Qed.
#[local] Hint Resolve er_fetch_att : er.
Lemma er_msg_att_dynamic : er (q_msg_att_dynamic) (p_msg_att_dynamic).
Proof. unfold q_msg_att_dynamic, p_msg_att_dynamic; er. Qed.
#[local] Hint Resolve er_msg_att_dynamic : er.
Lemma er_nstring8 : er (q_nstring8) (p_nstring8).
Proof. unfold q_nstring8, p_nstring8; er. Qed.
#[local] Hint Resolve er_nstring8 : er.
Lemma er_msg_att_static : er (q_msg_att_static) (p_msg_att_static).
Proof. unfold q_msg_att_static, p_msg_att_static; er. Qed.
#[local] Hint Resolve er_msg_att_static : er.
Lemma er_msg_att : er (q_msg_att) (p_msg_att).
Proof. unfold q_msg_att, p_msg_att; er. Qed.
#[local] Hint Resolve er_msg_att : er.
Lemma er_search_key : forall n, er (q_search_key n) (p_search_key n).
Proof.
  intros n; induction n as [|n IH]; cbn [q_search_key p_search_key]; er.
Qed.
#[local] Hint Resolve er_search_key : er.
Lemma er_search_keys : er (q_search_keys) (p_search_keys).
Proof. unfold q_search_keys, p_search_keys; er. Qed.
#[local] Hint Resolve er_search_keys : er.
Lemma er_search : er (q_search) (p_search).
Proof. unfold q_search, p_search; er. Qed.
#[local] Hint Resolve er_search : er.
Lemma er_search_criteria : er (q_search_criteria) (p_search_criteria).
Proof. unfold q_search_criteria, p_search_criteria; er. Qed.
#[local] Hint Resolve er_search_criteria : er.

Lemma er_id_param : er (q_id_param) (p_id_param).
Proof. unfold q_id_param, p_id_param; er. Qed.
#[local] Hint Resolve er_id_param : er.
Lemma er_id_params_list : er (q_id_params_list) (p_id_params_list).
Proof. unfold q_id_params_list, p_id_params_list; er. Qed.
#[local] Hint Resolve er_id_params_list : er.
Lemma er_id : er (q_id) (p_id).
Proof. unfold q_id, p_id; er. Qed.
#[local] Hint Resolve er_id : er.
Lemma er_idle : er (q_idle) (p_idle).
Proof. unfold q_idle, p_idle; er. Qed.
#[local] Hint Resolve er_idle : er.
Lemma er_idle_done : er (q_idle_done) (p_idle_done).
Proof. unfold q_idle_done, p_idle_done; er. Qed.
#[local] Hint Resolve er_idle_done : er.
Lemma er_capability_enable : er (q_capability_enable) (p_capability_enable).
Proof. unfold q_capability_enable, p_capability_enable; er. Qed.
#[local] Hint Resolve er_capability_enable : er.
Lemma er_enable : er (q_enable) (p_enable).
Proof. unfold q_enable, p_enable; er. Qed.
#[local] Hint Resolve er_enable : er.
Lemma er_compress : er (q_compress) (p_compress).
Proof. unfold q_compress, p_compress; er. Qed.
#[local] Hint Resolve er_compress : er.
Lemma er_getquota : er (q_getquota) (p_getquota).
Proof. unfold q_getquota, p_getquota; er. Qed.
#[local] Hint Resolve er_getquota : er.
Lemma er_getquotaroot : er (q_getquotaroot) (p_getquotaroot).
Proof. unfold q_getquotaroot, p_getquotaroot; er. Qed.
#[local] Hint Resolve er_getquotaroot : er.
Lemma er_resource_name : er (q_resource_name) (p_resource_name).
Proof. unfold q_resource_name, p_resource_name; er. Qed.
#[local] Hint Resolve er_resource_name : er.
Lemma er_setquota_resource : er (q_setquota_resource) (p_setquota_resource).
Proof. unfold q_setquota_resource, p_setquota_resource; er. Qed.
#[local] Hint Resolve er_setquota_resource : er.
Lemma er_setquota : er (q_setquota) (p_setquota).
Proof. unfold q_setquota, p_setquota; er. Qed.
#[local] Hint Resolve er_setquota : er.
Lemma er_entry_value : er (q_entry_value) (p_entry_value).
Proof. unfold q_entry_value, p_entry_value; er. Qed.
#[local] Hint Resolve er_entry_value : er.
Lemma er_entry_values : er (q_entry_values) (p_entry_values).
Proof. unfold q_entry_values, p_entry_values; er. Qed.
#[local] Hint Resolve er_entry_values : er.
Lemma er_setmetadata : er (q_setmetadata) (p_setmetadata).
Proof. unfold q_setmetadata, p_setmetadata; er. Qed.
#[local] Hint Resolve er_setmetadata : er.
Lemma er_getmetadata_option : er (q_getmetadata_option) (p_getmetadata_option).
Proof. unfold q_getmetadata_option, p_getmetadata_option; er. Qed.
#[local] Hint Resolve er_getmetadata_option : er.
Lemma er_getmetadata_options : er (q_getmetadata_options) (p_getmetadata_options).
Proof. unfold q_getmetadata_options, p_getmetadata_options; er. Qed.
#[local] Hint Resolve er_getmetadata_options : er.
Lemma er_entries : er (q_entries) (p_entries).
Proof. unfold q_entries, p_entries; er. Qed.
#[local] Hint Resolve er_entries : er.
Lemma er_getmetadata : er (q_getmetadata) (p_getmetadata).
Proof. unfold q_getmetadata, p_getmetadata; er. Qed.
#[local] Hint Resolve er_getmetadata : er.
Lemma er_namespace_command : er (q_namespace_command) (p_namespace_command).
Proof. unfold q_namespace_command, p_namespace_command; er. Qed.
#[local] Hint Resolve er_namespace_command : er.
Lemma er_uid_expunge : er (q_uid_expunge) (p_uid_expunge).
Proof. unfold q_uid_expunge, p_uid_expunge; er. Qed.
#[local] Hint Resolve er_uid_expunge : er.
Lemma er_move : er (q_move) (p_move).
Proof. unfold q_move, p_move; er. Qed.
#[local] Hint Resolve er_move : er.
Lemma er_sort_key : er (q_sort_key) (p_sort_key).
Proof. unfold q_sort_key, p_sort_key; er. Qed.
#[local] Hint Resolve er_sort_key : er.
Lemma er_sort_criterion : er (q_sort_criterion) (p_sort_criterion).
Proof. unfold q_sort_criterion, p_sort_criterion; er. Qed.
#[local] Hint Resolve er_sort_criterion : er.
Lemma er_sort_criteria : er (q_sort_criteria) (p_sort_criteria).
Proof. unfold q_sort_criteria, p_sort_criteria; er. Qed.
#[local] Hint Resolve er_sort_criteria : er.
Lemma er_sort : er (q_sort) (p_sort).
Proof. unfold q_sort, p_sort; er. Qed.
#[local] Hint Resolve er_sort : er.
Lemma er_thread : er (q_thread) (p_thread).
Proof. unfold q_thread, p_thread; er. Qed.
#[local] Hint Resolve er_thread : er.
Lemma er_command_any : er (q_command_any) (p_command_any).
Proof. unfold q_command_any, p_command_any; er. Qed.
#[local] Hint Resolve er_command_any : er.
Lemma er_select_param : er (q_select_param) (p_select_param).
Proof. unfold q_select_param, p_select_param; er. Qed.
#[local] Hint Resolve er_select_param : er.
Lemma er_select_params : er (q_select_params) (p_select_params).
Proof. unfold q_select_params, p_select_params; er. Qed.
#[local] Hint Resolve er_select_params : er.
Lemma er_append : er (q_append) (p_append).
Proof. unfold q_append, p_append; er. Qed.
#[local] Hint Resolve er_append : er.
Lemma er_create : er (q_create) (p_create).
Proof. unfold q_create, p_create; er. Qed.
#[local] Hint Resolve er_create : er.
Lemma er_delete : er (q_delete) (p_delete).
Proof. unfold q_delete, p_delete; er. Qed.
#[local] Hint Resolve er_delete : er.
Lemma er_examine : er (q_examine) (p_examine).
Proof. unfold q_examine, p_examine; er. Qed.
#[local] Hint Resolve er_examine : er.
Lemma er_list : er (q_list) (p_list).
Proof. unfold q_list, p_list; er. Qed.
#[local] Hint Resolve er_list : er.
Lemma er_lsub : er (q_lsub) (p_lsub).
Proof. unfold q_lsub, p_lsub; er. Qed.
#[local] Hint Resolve er_lsub : er.
Lemma er_rename : er (q_rename) (p_rename).
Proof. unfold q_rename, p_rename; er. Qed.
#[local] Hint Resolve er_rename : er.
Lemma er_select : er (q_select) (p_select).
Proof. unfold q_select, p_select; er. Qed.
#[local] Hint Resolve er_select : er.
Lemma er_status : er (q_status) (p_status).
Proof. unfold q_status, p_status; er. Qed.
#[local] Hint Resolve er_status : er.
Lemma er_subscribe : er (q_subscribe) (p_subscribe).
Proof. unfold q_subscribe, p_subscribe; er. Qed.
#[local] Hint Resolve er_subscribe : er.
Lemma er_unsubscribe : er (q_unsubscribe) (p_unsubscribe).
Proof. unfold q_unsubscribe, p_unsubscribe; er. Qed.
#[local] Hint Resolve er_unsubscribe : er.
Lemma er_command_auth : er (q_command_auth) (p_command_auth).
Proof. unfold q_command_auth, p_command_auth; er. Qed.
#[local] Hint Resolve er_command_auth : er.
Lemma er_auth_type : er (q_auth_type) (p_auth_type).
Proof. unfold q_auth_type, p_auth_type; er. Qed.
#[local] Hint Resolve er_auth_type : er.
Lemma er_login : er (q_login) (p_login).
Proof. unfold q_login, p_login; er. Qed.
#[local] Hint Resolve er_login : er.
Lemma er_authenticate : er (q_authenticate) (p_authenticate).
Proof. unfold q_authenticate, p_authenticate; er. Qed.
#[local] Hint Resolve er_authenticate : er.
Lemma er_command_nonauth : er (q_command_nonauth) (p_command_nonauth).
Proof. unfold q_command_nonauth, p_command_nonauth; er. Qed.
#[local] Hint Resolve er_command_nonauth : er.
Lemma er_copy : er (q_copy) (p_copy).
Proof. unfold q_copy, p_copy; er. Qed.
#[local] Hint Resolve er_copy : er.
Lemma er_fetch_modifier : er (q_fetch_modifier) (p_fetch_modifier).
Proof. unfold q_fetch_modifier, p_fetch_modifier; er. Qed.
#[local] Hint Resolve er_fetch_modifier : er.
Lemma er_fetch_modifiers : er (q_fetch_modifiers) (p_fetch_modifiers).
Proof. unfold q_fetch_modifiers, p_fetch_modifiers; er. Qed.
#[local] Hint Resolve er_fetch_modifiers : er.
Lemma er_macro_or_items : er (q_macro_or_items) (p_macro_or_items).
Proof. unfold q_macro_or_items, p_macro_or_items; er. Qed.
#[local] Hint Resolve er_macro_or_items : er.
Lemma er_fetch : er (q_fetch) (p_fetch).
Proof. unfold q_fetch, p_fetch; er. Qed.
#[local] Hint Resolve er_fetch : er.
Lemma er_store_modifiers : er (q_store_modifiers) (p_store_modifiers).
Proof. unfold q_store_modifiers, p_store_modifiers; er. Qed.
#[local] Hint Resolve er_store_modifiers : er.
Lemma er_store_att_flags : er (q_store_att_flags) (p_store_att_flags).
Proof. unfold q_store_att_flags, p_store_att_flags; er. Qed.
#[local] Hint Resolve er_store_att_flags : er.
Lemma er_store : er (q_store) (p_store).
Proof. unfold q_store, p_store; er. Qed.
#[local] Hint Resolve er_store : er.
Lemma er_uid : er (q_uid) (p_uid).
Proof. unfold q_uid, p_uid; er. Qed.
#[local] Hint Resolve er_uid : er.
Lemma er_command_select : er (q_command_select) (p_command_select).
Proof. unfold q_command_select, p_command_select; er. Qed.
#[local] Hint Resolve er_command_select : er.
Lemma er_command_body : er (q_command_body) (p_command_body).
Proof. unfold q_command_body, p_command_body; er. Qed.
#[local] Hint Resolve er_command_body : er.
Lemma er_command : er (q_command) (p_command).
Proof.
  unfold q_command, p_command. apply er_bind; [er|]. intros t i.
  assert (H : er (CostNom.pmap (mkCommand t) q_command_body) (pmap (mkCommand t) p_command_body))
    by er.
  er_at H i. reflexivity.
Qed.
#[local] Hint Resolve er_command : er.
Lemma er_authenticate_data : er (q_authenticate_data) (p_authenticate_data).
Proof. unfold q_authenticate_data, p_authenticate_data; er. Qed.
#[local] Hint Resolve er_authenticate_data : er.

Lemma er_metadata_code : er (q_metadata_code) (p_metadata_code).
Proof. unfold q_metadata_code, p_metadata_code; er. Qed.
#[local] Hint Resolve er_metadata_code : er.
Lemma er_metadata_resp : er (q_metadata_resp) (p_metadata_resp).
Proof. unfold q_metadata_resp, p_metadata_resp; er. Qed.
#[local] Hint Resolve er_metadata_resp : er.
Lemma er_delimiter : er (q_delimiter) (p_delimiter).
Proof. unfold q_delimiter, p_delimiter; er. Qed.
#[local] Hint Resolve er_delimiter : er.
Lemma er_namespace_ext : er (q_namespace_ext) (p_namespace_ext).
Proof. unfold q_namespace_ext, p_namespace_ext; er. Qed.
#[local] Hint Resolve er_namespace_ext : er.
Lemma er_namespace_descr : er (q_namespace_descr) (p_namespace_descr).
Proof. unfold q_namespace_descr, p_namespace_descr; er. Qed.
#[local] Hint Resolve er_namespace_descr : er.
Lemma er_namespace : er (q_namespace) (p_namespace).
Proof. unfold q_namespace, p_namespace; er. Qed.
#[local] Hint Resolve er_namespace : er.
Lemma er_namespace_response : er (q_namespace_response) (p_namespace_response).
Proof. unfold q_namespace_response, p_namespace_response; er. Qed.
#[local] Hint Resolve er_namespace_response : er.
Lemma er_quota_sp : er (q_quota_sp) (p_quota_sp).
Proof. unfold q_quota_sp, p_quota_sp; er. Qed.
#[local] Hint Resolve er_quota_sp : er.
Lemma er_quota_resource : er (q_quota_resource) (p_quota_resource).
Proof. unfold q_quota_resource, p_quota_resource; er. Qed.
#[local] Hint Resolve er_quota_resource : er.
Lemma er_quota_response : er (q_quota_response) (p_quota_response).
Proof. unfold q_quota_response, p_quota_response; er. Qed.
#[local] Hint Resolve er_quota_response : er.
Lemma er_quotaroot_response : er (q_quotaroot_response) (p_quotaroot_response).
Proof. unfold q_quotaroot_response, p_quotaroot_response; er. Qed.
#[local] Hint Resolve er_quotaroot_response : er.
Lemma er_thread_list : forall n, er (q_thread_list n) (p_thread_list n).
Proof.
  intros n; induction n as [|n IH]; cbn [q_thread_list p_thread_list]; er.
Qed.
#[local] Hint Resolve er_thread_list : er.
Lemma er_thread_data : er (q_thread_data) (p_thread_data).
Proof. unfold q_thread_data, p_thread_data; er. Qed.
#[local] Hint Resolve er_thread_data : er.
Lemma er_uid_range : er (q_uid_range) (p_uid_range).
Proof. unfold q_uid_range, p_uid_range; er. Qed.
#[local] Hint Resolve er_uid_range : er.
Lemma er_uid_set : er (q_uid_set) (p_uid_set).
Proof. unfold q_uid_set, p_uid_set; er. Qed.
#[local] Hint Resolve er_uid_set : er.
Lemma er_resp_code_apnd : er (q_resp_code_apnd) (p_resp_code_apnd).
Proof. unfold q_resp_code_apnd, p_resp_code_apnd; er. Qed.
#[local] Hint Resolve er_resp_code_apnd : er.
Lemma er_resp_code_copy : er (q_resp_code_copy) (p_resp_code_copy).
Proof. unfold q_resp_code_copy, p_resp_code_copy; er. Qed.
#[local] Hint Resolve er_resp_code_copy : er.
Lemma er_enable_data : er (q_enable_data) (p_enable_data).
Proof. unfold q_enable_data, p_enable_data; er. Qed.
#[local] Hint Resolve er_enable_data : er.
Lemma er_mailbox_list : er (q_mailbox_list) (p_mailbox_list).
Proof. unfold q_mailbox_list, p_mailbox_list; er. Qed.
#[local] Hint Resolve er_mailbox_list : er.
Lemma er_nums : er (q_nums) (p_nums).
Proof. unfold q_nums, p_nums; er. Qed.
#[local] Hint Resolve er_nums : er.
Lemma er_opt_modseq : er (q_opt_modseq) (p_opt_modseq).
Proof. unfold q_opt_modseq, p_opt_modseq; er. Qed.
#[local] Hint Resolve er_opt_modseq : er.
Lemma er_opt_sp : forall quirk, er (q_opt_sp quirk) (p_opt_sp quirk).
Proof. intros; unfold q_opt_sp, p_opt_sp; er. Qed.
#[local] Hint Resolve er_opt_sp : er.
Lemma er_mailbox_data : er (q_mailbox_data) (p_mailbox_data).
Proof. unfold q_mailbox_data, p_mailbox_data; er. Qed.
#[local] Hint Resolve er_mailbox_data : er.
Lemma er_capability : er (q_capability) (p_capability).
Proof. unfold q_capability, p_capability; er. Qed.
#[local] Hint Resolve er_capability : er.
Lemma er_capability_data : er (q_capability_data) (p_capability_data).
Proof. unfold q_capability_data, p_capability_data; er. Qed.
#[local] Hint Resolve er_capability_data : er.
Lemma er_resp_text_code : er (q_resp_text_code) (p_resp_text_code).
Proof. unfold q_resp_text_code, p_resp_text_code; er. Qed.
#[local] Hint Resolve er_resp_text_code : er.
Lemma er_code_other : er (q_code_other) (p_code_other).
Proof. unfold q_code_other, p_code_other; er. Qed.
#[local] Hint Resolve er_code_other : er.
Lemma er_text_after_code : er (q_text_after_code) (p_text_after_code).
Proof. unfold q_text_after_code, p_text_after_code; er. Qed.
#[local] Hint Resolve er_text_after_code : er.
Lemma er_resp_text : er (q_resp_text) (p_resp_text).
Proof.
  intros i. unfold q_resp_text, p_resp_text.
  match goal with
  | |- fst (match CostNom.opt ?q i with _ => _ end) = match opt ?p i with _ => _ end =>
    assert (H : er (CostNom.opt q) (opt p)) by er
  end.
  match goal with
  | |- context [let '(_, _) := CostNom.bind ?q ?g i in _] =>
    match goal with
    | |- context [bind ?p ?f i] =>
      assert (H1 : er (CostNom.bind q g) (bind p f)) by er
    end
  end.
  assert (H2 : er (CostNom.pmap (fun t => (None, t)) CostCore.q_text)
                  (pmap (fun t => (@None code, t)) p_text)) by er.
  er_at H i. destruct r; try reflexivity. destruct a.
  - er_at H1 i. reflexivity.
  - er_at H2 i. reflexivity.
Qed.
#[local] Hint Resolve er_resp_text : er.
Lemma er_resp_cond_auth : er (q_resp_cond_auth) (p_resp_cond_auth).
Proof. unfold q_resp_cond_auth, p_resp_cond_auth; er. Qed.
#[local] Hint Resolve er_resp_cond_auth : er.
Lemma er_resp_cond_bye : er (q_resp_cond_bye) (p_resp_cond_bye).
Proof. unfold q_resp_cond_bye, p_resp_cond_bye; er. Qed.
#[local] Hint Resolve er_resp_cond_bye : er.
Lemma er_greeting : er (q_greeting) (p_greeting).
Proof. unfold q_greeting, p_greeting; er. Qed.
#[local] Hint Resolve er_greeting : er.
Lemma er_empty_continue_req : er (q_empty_continue_req) (p_empty_continue_req).
Proof. unfold q_empty_continue_req, p_empty_continue_req; er. Qed.
#[local] Hint Resolve er_empty_continue_req : er.
Lemma er_until_crlf : er (q_until_crlf) (p_until_crlf).
Proof. unfold q_until_crlf, p_until_crlf; er. Qed.
#[local] Hint Resolve er_until_crlf : er.
Lemma er_continue_req : er (q_continue_req) (p_continue_req).
Proof. unfold q_continue_req, p_continue_req; er. Qed.
#[local] Hint Resolve er_continue_req : er.
Lemma er_resp_cond_state : er (q_resp_cond_state) (p_resp_cond_state).
Proof. unfold q_resp_cond_state, p_resp_cond_state; er. Qed.
#[local] Hint Resolve er_resp_cond_state : er.
Lemma er_message_data : er (q_message_data) (p_message_data).
Proof. unfold q_message_data, p_message_data; er. Qed.
#[local] Hint Resolve er_message_data : er.
Lemma er_response_data : er (q_response_data) (p_response_data).
Proof. unfold q_response_data, p_response_data; er. Qed.
#[local] Hint Resolve er_response_data : er.
Lemma er_response_tagged : er (q_response_tagged) (p_response_tagged).
Proof. unfold q_response_tagged, p_response_tagged; er. Qed.
#[local] Hint Resolve er_response_tagged : er.
Lemma er_response_fatal : er (q_response_fatal) (p_response_fatal).
Proof. unfold q_response_fatal, p_response_fatal; er. Qed.
#[local] Hint Resolve er_response_fatal : er.
Lemma er_response_done : er (q_response_done) (p_response_done).
Proof. unfold q_response_done, p_response_done; er. Qed.
#[local] Hint Resolve er_response_done : er.
Lemma er_response : er (q_response) (p_response).
Proof. unfold q_response, p_response; er. Qed.
#[local] Hint Resolve er_response : er.

End Erase.
