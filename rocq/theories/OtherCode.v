(** [Code::Other]: which unknown response codes are read back.

    [other_read b t] says that the decoder does not take the code [b], written in front of the
    text [t], for a known one. Every decoded [Code::Other] satisfies it. [other_name b] is a
    simple sufficient condition: the first word of [b] is not the name of a known code. *)

From Verif Require Import Bytes BytesFacts Dec Features Nom Types Utf8 Conv
  ParserFacts ParseCore ParseBody ParseCmd ParseResp EncodeCtx Encode EncodeFacts Decode Valid OkTac OkCore OkBody
  OkCmd OkResp DecodeFacts RtFacts RtTac RtCore RtBody RtCmd RtResp.
Open Scope nat_scope.

Section OtherCode.
Context {F : features}.

Definition code_end : parser code := terminated p_resp_text_code (tg "]").
Definition other_read (b t : bytes) : bool :=
  forallb is_code_other_char b &&
  match code_end (b ++ bs "] " ++ t ++ [bCR]) with RErr => true | _ => false end.

(** ** Parsers that do not look beyond a tail *)
Definition tail (x : bytes) : Prop := exists u c r,
  x = u ++ c :: r /\ is_text_char c = false /\ (u = [] \/ u = bs "]" \/ u = bs "] ...").

Inductive same_res {A} (x y : bytes) : res A -> res A -> Prop :=
| same_err : same_res x y RErr RErr
| same_panic : same_res x y RPanic RPanic
| same_ok w a : same_res x y (ROk (w ++ x) a) (ROk (w ++ y) a).
Definition loc {A} (p : parser A) : Prop := forall w x y, tail x -> tail y ->
  same_res x y (p (w ++ x)) (p (w ++ y)).

Lemma loc_ret {A} (a : A) : loc (ret a).
Proof. intros w x y _ _. constructor. Qed.
Lemma loc_perr {A} : loc (@perr A).
Proof. intros w x y _ _. constructor. Qed.
Lemma loc_panic {A} : loc (fun _ => @RPanic A).
Proof. intros w x y _ _. constructor. Qed.
Lemma loc_bind {A T} (p : parser A) (f : A -> parser T) :
  loc p -> (forall a, loc (f a)) -> loc (bind p f).
Proof.
  intros Hp Hf w x y Hx Hy. unfold bind. destruct (Hp w x y Hx Hy); try constructor.
  now apply Hf.
Qed.
Lemma loc_pmap {A T} (f : A -> T) p : loc p -> loc (pmap f p).
Proof. intros H. apply loc_bind; [exact H |]. intros a. apply loc_ret. Qed.
Lemma loc_value {A T} (b : T) (p : parser A) : loc p -> loc (value b p).
Proof. intros H. apply loc_bind; [exact H |]. intros a. apply loc_ret. Qed.
Lemma loc_map_res {A T} (p : parser A) (f : A -> option T) : loc p -> loc (map_res p f).
Proof.
  intros H. apply loc_bind; [exact H |]. intros a. destruct (f a); [apply loc_ret | apply loc_perr].
Qed.
Lemma loc_expect {A T} (p : parser A) (f : A -> option T) : loc p -> loc (expect p f).
Proof.
  intros H. apply loc_bind; [exact H |]. intros a. destruct (f a); [apply loc_ret | apply loc_panic].
Qed.
Lemma loc_validated f p : loc p -> loc (validated f p).
Proof. apply loc_expect. Qed.
Lemma loc_vec1 {A} (p : parser (list A)) : loc p -> loc (vec1 p).
Proof. apply loc_expect. Qed.
Lemma loc_delimited {A T C} (p : parser A) (q : parser T) (r : parser C) :
  loc p -> loc q -> loc r -> loc (delimited p q r).
Proof. intros. repeat (apply loc_bind; [assumption |]; intros). apply loc_ret. Qed.
Lemma loc_orp {A} (p q : parser A) : loc p -> loc q -> loc (orp p q).
Proof.
  intros Hp Hq w x y Hx Hy. unfold orp. destruct (Hp w x y Hx Hy); try constructor. now apply Hq.
Qed.
Lemma loc_alt_nil {A} : loc (@alt A []).
Proof. apply loc_perr. Qed.
Lemma loc_alt {A} (p : parser A) ps : loc p -> loc (alt ps) -> loc (alt (p :: ps)).
Proof. intros Hp Hq. destruct ps; [exact Hp | now apply loc_orp]. Qed.
Lemma loc_opt {A} (p : parser A) : loc p -> loc (opt p).
Proof.
  intros H w x y Hx Hy. unfold opt. destruct (H w x y Hx Hy); try constructor.
Qed.
Lemma loc_gate {A} b (p : parser A) : loc p -> loc (gate b p).
Proof. intros H. destruct b; [exact H | apply loc_perr]. Qed.

(** The first byte of a tail *)
Definition not_tail (c : byte) : bool := is_text_char c && negb (beq c "]"%byte).
Lemma tail_cons x : tail x -> exists c r, x = c :: r /\ not_tail c = false.
Proof.
  unfold not_tail. intros (u & c & r & -> & H & [-> | [-> | ->]]); cbn [bs app].
  - exists c, r. now rewrite H.
  - eauto.
  - eauto.
Qed.

Lemma loc_sat f : (forall b, f b = true -> not_tail b = true) -> loc (sat f).
Proof.
  intros Hf [| b w] x y Hx Hy; cbn [app].
  - apply tail_cons in Hx as (b & r & -> & Nb), Hy as (c & s & -> & Nc). cbn [sat].
    destruct (f b) eqn:E; [apply Hf in E; congruence |].
    destruct (f c) eqn:E'; [apply Hf in E'; congruence |]. constructor.
  - cbn. destruct (f b); constructor.
Qed.
Lemma loc_char c : not_tail c = true -> loc (char c).
Proof. intros H. apply loc_sat. intros b E. apply beq_eq in E. now subst. Qed.
Lemma loc_tag t : forallb not_tail t = true -> loc (tag t).
Proof.
  induction t as [| c t IH]; intros H; cbn [forallb] in H; [apply loc_ret |].
  apply andb_prop in H as [Hc Ht]. specialize (IH Ht).
  intros [| b w] x y Hx Hy; cbn [app].
  - apply tail_cons in Hx as (b & r & -> & Nb), Hy as (d & s & -> & Nc). cbn [tag].
    destruct (beq_spec b c) as [-> |]; [congruence |].
    destruct (beq_spec d c) as [-> |]; [congruence |]. constructor.
  - cbn [tag]. destruct (beq b c); [now apply IH | constructor].
Qed.
Lemma not_tail_lower b : not_tail (lower b) = not_tail b.
Proof. destruct b; reflexivity. Qed.
Lemma loc_kw t : forallb not_tail t = true -> loc (tag_no_case t).
Proof.
  induction t as [| c t IH]; intros H; cbn [forallb] in H; [apply loc_ret |].
  apply andb_prop in H as [Hc Ht]. specialize (IH Ht).
  intros [| b w] x y Hx Hy; cbn [app].
  - apply tail_cons in Hx as (b & r & -> & Nb), Hy as (d & s & -> & Nc). cbn [tag_no_case].
    rewrite <- not_tail_lower in Hc, Nb, Nc.
    destruct (beq_spec (lower b) (lower c)); [congruence |].
    destruct (beq_spec (lower d) (lower c)); [congruence |]. constructor.
  - cbn [tag_no_case]. destruct (beq (lower b) (lower c)); [now apply IH | constructor].
Qed.
Lemma span_tail f w x : (forall b, f b = true -> not_tail b = true) -> tail x ->
  exists a w', w = a ++ w' /\ forall z, tail z -> span f (w ++ z) = Some (a, w' ++ z).
Proof.
  intros Hf Hx. induction w as [| b w (a & w' & -> & IH)].
  - exists [], []. split; [reflexivity |]. intros z Hz.
    apply tail_cons in Hz as (b & r & -> & N). cbn [app span].
    destruct (f b) eqn:E; [apply Hf in E; congruence | reflexivity].
  - cbn [app span]. destruct (f b) eqn:E.
    + exists (b :: a), w'. split; [reflexivity |]. intros z Hz. now rewrite IH.
    + exists [], (b :: a ++ w'). now split.
Qed.
Lemma loc_take_while1 f : (forall b, f b = true -> not_tail b = true) -> loc (take_while1 f).
Proof.
  intros Hf w x y Hx Hy. destruct (span_tail f w x Hf Hx) as (a & w' & -> & E).
  unfold take_while1. rewrite (E x Hx), (E y Hy). destruct a; constructor.
Qed.

Lemma loc_sep_loop {A T} (s : parser T) (p : parser A) : loc s -> loc p -> loc (sep_loop s p).
Proof.
  intros Hs Hp w x y Hx Hy. unfold sep_loop.
  assert (G : forall n w f g, length w < n -> length (w ++ x) < f -> length (w ++ y) < g ->
    same_res x y (sep_loop_f f s p (w ++ x)) (sep_loop_f g s p (w ++ y))).
  { clear w. induction n as [| n IH]; intros w f g Lw Lf Lg; [lia |].
    destruct f as [| f]; [lia |]. destruct g as [| g]; [lia |]. cbn [sep_loop_f].
    destruct (Hs w x y Hx Hy) as [| | w1 t]; try constructor.
    rewrite !app_length in *.
    destruct (Nat.ltb_spec (length w1 + length x) (length w + length x)),
      (Nat.ltb_spec (length w1 + length y) (length w + length y)); try lia; try constructor.
    destruct (Hp w1 x y Hx Hy) as [| | w2 a]; try constructor.
    rewrite !app_length in *.
    destruct (Nat.leb_spec (length w2 + length x) (length w1 + length x)),
      (Nat.leb_spec (length w2 + length y) (length w1 + length y)); try lia; try constructor.
    destruct (IH w2 f g); rewrite ?app_length in *; try lia; constructor. }
  apply (G (S (length w))); lia.
Qed.
Lemma loc_sep_list1 {A T} (s : parser T) (p : parser A) : loc s -> loc p -> loc (sep_list1 s p).
Proof.
  intros Hs Hp. apply loc_bind; [exact Hp |]. intros a.
  apply loc_bind; [now apply loc_sep_loop |]. intros l. apply loc_ret.
Qed.

(** Quoted strings *)
Notation normal := is_any_text_char_except_quoted_specials.
Notation esc := (esc1 normal is_quoted_specials bBS).
Lemma tail_special x : tail x -> exists c r, x = c :: r /\ is_quoted_specials c = false.
Proof.
  intros (u & c & r & -> & H & [-> | [-> | ->]]); cbn [bs app]; eauto.
  exists c, r. split; [reflexivity |]. destruct c; try reflexivity; discriminate H.
Qed.
Lemma esc_tail z : tail z -> exists b r s, esc z = ROk (b :: r) s /\ beq b bDQ = false.
Proof.
  intros (u & c & r & -> & H & Hu).
  assert (K : normal c = false /\ beq c bDQ = false /\ beq c bBS = false).
  { destruct c; cbn in H |- *; try discriminate H; auto. }
  destruct K as (K1 & K2 & K3).
  assert (G : esc (c :: r) = ROk (c :: r) []).
  { cbn [esc1]. now rewrite K1, K3. }
  exists c, r. rewrite esc1_normal, G; [eauto |].
  destruct Hu as [-> | [-> | ->]]; reflexivity.
Qed.
Lemma esc_same x y : tail x -> tail y -> forall n w, length w < n ->
  same_res x y (esc (w ++ x)) (esc (w ++ y)) \/
  exists b r s c t u, esc (w ++ x) = ROk (b :: r) s /\ beq b bDQ = false /\
    esc (w ++ y) = ROk (c :: t) u /\ beq c bDQ = false.
Proof.
  intros Hx Hy. induction n as [| n IH]; intros w Lw; [lia |].
  destruct w as [| b w].
  { right. cbn [app] in *. destruct (esc_tail x Hx) as (b & r & s & E & Hb).
    destruct (esc_tail y Hy) as (c & t & u & E' & Hc). eauto 12. }
  cbn [app esc1 length] in *. destruct (normal b) eqn:Nb.
  - destruct (IH w ltac:(lia)) as [K | (c & r & s & d & t & u & -> & Hc & -> & Hd)].
    + left. destruct K; constructor.
    + right. eauto 12.
  - destruct (beq b bBS) eqn:Eb; [| left; apply (same_ok x y (b :: w))].
    destruct w as [| c w].
    + left. cbn [app].
      apply tail_special in Hx as (c & r & -> & Nc), Hy as (d & t & -> & Nd).
      rewrite Nc, Nd. constructor.
    + cbn [app length] in *. destruct (is_quoted_specials c); [| left; constructor].
      destruct (IH w ltac:(lia)) as [K | (e & r & s & d & t & u & -> & Hc & -> & Hd)].
      * left. destruct K; constructor.
      * right. eauto 12.
Qed.
Lemma loc_p_quoted : loc p_quoted.
Proof.
  assert (NP : forall i, p_quoted i <> RPanic).
  { intros i. apply (@okk_panic _ _ (fun _ => true)). intros k.
    eapply ok_weaken; [apply ok_p_quoted | reflexivity]. }
  intros w x y Hx Hy.
  pose proof (NP (w ++ x)) as Px. pose proof (NP (w ++ y)) as Py. clear NP. revert Px Py.
  unfold p_quoted.
  set (Q := fun s : bytes => dquote ;;; expect (ret (unescape_quoted s)) _).
  assert (HQ : forall s, loc (Q s)).
  { intros s. apply loc_bind; [now apply loc_char |]. intros _. apply loc_expect, loc_ret. }
  assert (NQ : forall s b r, beq b bDQ = false -> Q s (b :: r) = RErr).
  { intros s b r Hb. unfold Q, bind, dquote, char. cbn [sat]. now rewrite Hb. }
  clearbody Q. set (E := expect _ _).
  set (R := x <- E ;; Q x). unfold bind, dquote.
  destruct (loc_char bDQ eq_refl w x y Hx Hy) as [| | w1 q]; try (constructor; fail).
  assert (HE : forall i, E i = match esc i with ROk r s => if utf8_ok s then ROk r s else RPanic
    | RInc => RInc | RErr => RErr | RFail e => RFail e | RPanic => RPanic end).
  { intros i. unfold E, expect, bind, escaped. rewrite escaped_esc1 by lia.
    destruct (esc i) as [r s | | | |]; try reflexivity. now destruct (utf8_ok s). }
  unfold R, bind. clearbody E. rewrite !HE.
  destruct (esc_same x y Hx Hy (S (length w1)) w1 ltac:(lia))
    as [K | (b & r & s & c & t & u & -> & Hb & -> & Hc)].
  - intros _ _. destruct K as [| | w2 s]; try constructor. destruct (utf8_ok s); [apply HQ; assumption | constructor].
  - destruct (utf8_ok s), (utf8_ok u); try easy. intros _ _. rewrite !NQ by assumption. constructor.
Qed.

(** *** The response codes *)
Ltac nt := let b := fresh in intros b; revert b; byte_fact.
Lemma loc_p_atom : loc p_atom.
Proof. apply loc_validated, loc_take_while1. nt. Qed.
Lemma loc_p_digits n : loc (p_digits n).
Proof. apply loc_map_res, loc_expect, loc_take_while1. nt. Qed.
Lemma loc_p_nz_number : loc p_nz_number.
Proof. apply loc_map_res, loc_p_digits. Qed.
Lemma loc_sp : loc sp.
Proof. now apply loc_char. Qed.

Hint Resolve loc_ret loc_perr loc_panic loc_p_quoted loc_p_atom loc_p_digits loc_p_nz_number
  loc_sp loc_alt_nil : locdb.
Ltac locs :=
  repeat first
    [ solve [auto with locdb nocore]
    | apply loc_pmap | apply loc_value | apply loc_map_res | apply loc_expect
    | apply loc_vec1 | apply loc_delimited | apply loc_alt | apply loc_opt | apply loc_gate
    | apply loc_sep_list1
    | apply loc_tag; reflexivity | apply loc_kw; reflexivity | apply loc_char; reflexivity
    | apply loc_bind; [| intros ?] ].

Lemma loc_p_seq_number : loc p_seq_number.
Proof. unfold p_seq_number. locs. Qed.
Hint Resolve loc_p_seq_number : locdb.
Lemma loc_p_sequence_set : loc p_sequence_set.
Proof. unfold p_sequence_set, p_seq_range. locs. Qed.
Lemma loc_p_uid_set : loc p_uid_set.
Proof. unfold p_uid_set, p_uid_range. locs. Qed.
Lemma loc_p_charset : loc p_charset.
Proof. unfold p_charset. locs. Qed.
Lemma loc_p_flag_perm : loc p_flag_perm.
Proof. unfold p_flag_perm, p_flag. locs. Qed.
Lemma loc_p_metadata_code : loc p_metadata_code.
Proof. unfold p_metadata_code, p_number. locs. Qed.
Hint Resolve loc_p_sequence_set loc_p_uid_set loc_p_charset loc_p_flag_perm loc_p_metadata_code : locdb.
Lemma loc_p_opt_sp q : loc (p_opt_sp q).
Proof. unfold p_opt_sp. destruct q; locs. Qed.
Hint Resolve loc_p_opt_sp : locdb.
Lemma loc_p_resp_text_code : loc p_resp_text_code.
Proof.
  unfold p_resp_text_code, p_capability_data, p_capability, p_resp_code_apnd, p_resp_code_copy,
    p_mod_sequence_value, p_number64. locs.
Qed.

(** ** Decoded codes *)
Lemma code_end_same w x y : tail x -> tail y ->
  (hd_error x = Some "]"%byte <-> hd_error y = Some "]"%byte) ->
  code_end (w ++ x) = RErr -> code_end (w ++ y) = RErr.
Proof.
  intros Hx Hy E. unfold code_end, terminated, bind.
  destruct (loc_p_resp_text_code w x y Hx Hy) as [| | w1 a]; try easy.
  destruct w1 as [| b w1]; cbn [app].
  - apply tail_cons in Hx as (b & r & -> & _), Hy as (c & s & -> & _). cbn in *.
    destruct (beq_spec b "]"%byte) as [-> | N]; [easy |].
    destruct (beq_spec c "]"%byte) as [-> | M]; [| easy].
    intros _. exfalso. apply N. destruct E as [_ E]. specialize (E eq_refl). congruence.
  - cbn. now destruct (beq b "]"%byte).
Qed.
Lemma other_read_decoded : other_decoded other_read.
Proof.
  intros i r c t E. rewrite p_resp_text_eq in E. destruct i as [| x i]; [discriminate |].
  destruct (beq_spec x "["%byte) as [-> | N].
  2: { unfold p_resp_plain in E. apply pmap_inv in E as (s & _ & [=]). }
  unfold p_resp_coded in E. apply bind_inv in E as (r1 & u & E1 & E).
  apply tag_inv in E1. inv E1.
  apply bind_inv in E as (r2 & c' & E1 & E). apply bind_inv in E as (r3 & t' & E2 & E). inv E.
  cbn [alt] in E1. apply orp_inv in E1 as [E1 | [R E1]].
  { exfalso. assert (K : ok (S (length r1)) v_known code_end)
      by (eapply ok_terminated; [apply ok_p_resp_text_code | oks]).
    apply (ok_post K _ _ _ (Nat.lt_succ_diag_r _)) in E1. discriminate E1. }
  unfold p_code_other in E1. apply pmap_inv in E1 as (b & E1 & [= ->]).
  unfold terminated in E1. apply bind_inv in E1 as (r4 & b' & E1 & E3).
  apply bind_inv in E3 as (r5 & u' & E3 & E4). inv E4. apply tag_inv in E3. subst r4.
  unfold take_while in E1. destruct (span is_code_other_char r1) as [[b' r4] |] eqn:Es; [| discriminate].
  inv E1. apply ParserFacts.span_some in Es as (-> & Hb & _).
  unfold other_read. rewrite Hb. cbn [andb].
  assert (G : code_end (b ++ bs "] " ++ t ++ [bCR]) = RErr).
  { assert (S : (sp ;;; p_text) r2 = ROk r t \/ t = bs "..." /\ exists x, peek crlf r2 = ROk r x).
    { unfold p_text_after_code in E2. destruct quirk_missing_text; [| now left].
      apply orp_inv in E2 as [E2 | [_ E2]]; [now left | right].
      unfold expect, value, bind, ret in E2. cbn [alt] in E2.
      destruct (peek crlf r2) as [r4 x | | | |]; try discriminate.
      inv E2. eauto. }
    destruct S as [S | (-> & x & S)].
    - apply bind_inv in S as (r4 & x & S1 & S2). apply p_text_inv in S2 as (-> & _ & Ht & c & r' & -> & Hc).
      unfold sp, char in S1. destruct r2 as [| y r2]; [discriminate |]. cbn in S1.
      destruct (beq_spec y bSP) as [-> |]; [| discriminate]. inv S1.
      replace (b ++ "]"%byte :: bSP :: t ++ c :: r') with ((b ++ bs "] " ++ t) ++ c :: r') in R
        by now rewrite <- !app_assoc.
      rewrite !app_assoc. rewrite <- (app_assoc b). revert R. apply code_end_same.
      + exists [], c, r'. auto.
      + exists [], bCR, []. auto.
      + cbn. split; intros K; [injection K as -> | ]; discriminate.
    - assert (T : exists c r', r2 = c :: r' /\ is_text_char c = false).
      { unfold peek, crlf in S. destruct r2 as [| c r2].
        - now destruct quirk_crlf_relaxed.
        - exists c, r2. split; [reflexivity |]. destruct quirk_crlf_relaxed; unfold opt, bind, char in S; cbn in S.
          + destruct (beq_spec c bCR) as [-> | N]; [reflexivity |].
            cbn in S.
            destruct (beq_spec c bLF) as [-> | N']; [reflexivity | discriminate].
          + destruct (beq_spec c bCR) as [-> | N]; [reflexivity | discriminate S]. }
      destruct T as (c & r' & -> & Hc). revert R.
      change (bs "] " ++ bs "..." ++ [bCR]) with (bs "] ..." ++ [bCR]).
      apply code_end_same.
      + exists (bs "]"), c, r'. auto.
      + exists (bs "] ..."), bCR, []. auto.
      + easy. }
  now rewrite G.
Qed.

(** ** Codes that are read back *)
Definition other_kept (other : bytes -> bytes -> bool) : Prop := forall b t,
  other b t = true ->
  forallb is_code_other_char b = true /\
  Rj (terminated p_resp_text_code (tg "]")) (W b ++ W (bs "] ") ++ W t) cr.
Lemma Rj_code_end b t :
  (forall s, code_end (b ++ bs "] " ++ t ++ bCR :: s) = RErr) ->
  Rj (terminated p_resp_text_code (tg "]")) (W b ++ W (bs "] ") ++ W t) cr.
Proof.
  intros H. split.
  - intros [| c s] Hs; [discriminate |]. apply beq_eq in Hs. subst c.
    rewrite !dump_app, !dump_W, <- !app_assoc. apply H.
  - intros pre is8 m d post E. exfalso. eapply noLit_cut; [| exact E].
    rewrite <- !W_app. apply noLit_W.
Qed.
Lemma other_read_kept : other_kept other_read.
Proof.
  intros b t H. apply andb_true_iff in H as [Hb H]. split; [exact Hb |].
  destruct (code_end (b ++ bs "] " ++ t ++ [bCR])) eqn:E; try discriminate.
  apply Rj_code_end. intros s.
  replace (b ++ bs "] " ++ t ++ bCR :: s) with ((b ++ bs "] " ++ t ++ [bCR]) ++ s)
    by now rewrite <- !app_assoc.
  refine (okk_err (v := v_known) _ _ _ E). intros k.
  eapply ok_terminated; [apply ok_p_resp_text_code | oks].
Qed.

(** The names of the codes the decoder knows *)
Definition known_codes : list bytes :=
  [bs "ALERT"; bs "BADCHARSET"; bs "CAPABILITY"; bs "PARSE"; bs "PERMANENTFLAGS";
   bs "READ-ONLY"; bs "READ-WRITE"; bs "TRYCREATE"; bs "UIDNEXT"; bs "UIDVALIDITY"; bs "UNSEEN";
   bs "COMPRESSIONACTIVE"; bs "OVERQUOTA"; bs "TOOBIG"; bs "UNKNOWN-CTE"; bs "APPENDUID";
   bs "COPYUID"; bs "UIDNOTSTICKY"]
  ++ (if ext_metadata then [bs "METADATA"] else [])
  ++ (if ext_condstore_qresync
      then [bs "HIGHESTMODSEQ"; bs "NOMODSEQ"; bs "MODIFIED"; bs "CLOSED"] else []).
Fixpoint first_word (s : bytes) : bytes :=
  match s with [] => [] | b :: s' => if beq b bSP then [] else b :: first_word s' end.
Definition other_name (b t : bytes) : bool :=
  forallb is_code_other_char b && negb (existsb (eqi (first_word b)) known_codes).

Lemma kw_name k b s : forallb (fun c => negb (beq c bSP) && negb (beq c "]"%byte)) k = true ->
  forallb is_code_other_char b = true -> eqi (first_word b) k = false ->
  tag_no_case k (b ++ "]"%byte :: s) = RErr \/
  exists c r, tag_no_case k (b ++ "]"%byte :: s) = ROk (c :: r) tt /\
    beq c bSP = false /\ beq c "]"%byte = false.
Proof.
  revert b. induction k as [| c k IH]; intros b Hk Hb N.
  - right. destruct b as [| x b]; [discriminate |]. cbn [app tag_no_case].
    exists x, (b ++ "]"%byte :: s). split; [reflexivity |].
    cbn [first_word] in N. cbn [forallb] in Hb. apply andb_true_iff in Hb as [Hb _].
    unfold is_code_other_char in Hb. destruct (beq x bSP); [discriminate |].
    now destruct (beq x "]"%byte).
  - cbn [forallb] in Hk. apply andb_true_iff in Hk as [Hc Hk].
    apply andb_true_iff in Hc as [Hc1 Hc2].
    destruct b as [| x b]; cbn [app tag_no_case].
    + left. destruct (beq_spec (lower "]"%byte) (lower c)) as [E |]; [| reflexivity].
      exfalso. destruct c; discriminate.
    + cbn [forallb] in Hb. apply andb_true_iff in Hb as [Hx Hb].
      destruct (beq (lower x) (lower c)) eqn:E; [| now left].
      apply IH; try assumption. cbn [first_word] in N.
      assert (Hsp : beq x bSP = false).
      { destruct (beq_spec x bSP) as [-> |]; [| reflexivity]. destruct c; discriminate. }
      rewrite Hsp in N. unfold eqi in *. cbn in N. rewrite E in N. exact N.
Qed.

Lemma other_name_kept : other_kept other_name.
Proof.
  intros b t H. apply andb_true_iff in H as [Hb H]. split; [exact Hb |].
  apply Rj_code_end. intros s. cbn [bs app].
  assert (K : forall k, In k known_codes -> forallb (fun c => negb (beq c bSP) && negb (beq c "]"%byte)) k = true ->
    forall r, tag_no_case k (b ++ "]"%byte :: r) = RErr \/
    exists c r', tag_no_case k (b ++ "]"%byte :: r) = ROk (c :: r') tt /\
    beq c bSP = false /\ beq c "]"%byte = false).
  { intros k Hi Hk r. apply kw_name; [exact Hk | exact Hb |].
    apply negb_true_iff in H. destruct (eqi (first_word b) k) eqn:E; [| reflexivity].
    rewrite <- H. symmetry. apply existsb_exists. eauto. }
  clear H Hb. generalize (" "%byte :: t ++ bCR :: s). intros r. set (i := b ++ "]"%byte :: r) in *.
  assert (K' : forall k, In k known_codes -> forallb (fun c => negb (beq c bSP) && negb (beq c "]"%byte)) k = true ->
    tag_no_case k i = RErr \/ exists c r', tag_no_case k i = ROk (c :: r') tt /\
    beq c bSP = false /\ beq c "]"%byte = false) by (intros k H1 H2; apply (K k H1 H2 r)).
  clear K. clearbody i.
  (* alternatives without an argument, and with one *)
  assert (N0 : forall (A : Type) k (x : A), In k known_codes ->
    forallb (fun c => negb (beq c bSP) && negb (beq c "]"%byte)) k = true ->
    terminated (value x (tag_no_case k)) (tg "]") i = RErr).
  { intros A k x H1 H2. unfold terminated, value, bind, ret.
    destruct (K' k H1 H2) as [-> | (c & r' & -> & _ & E)]; [reflexivity |]. cbn. now rewrite E. }
  assert (N1 : forall (A : Type) k (p : parser A), In k known_codes ->
    forallb (fun c => negb (beq c bSP) && negb (beq c "]"%byte)) k = true ->
    (tag_no_case (k ++ bs " ") ;;; p) i = RErr).
  { intros A k p H1 H2. unfold bind. rewrite kw_split. unfold bind.
    destruct (K' k H1 H2) as [-> | (c & r' & -> & E & _)]; [reflexivity |]. cbn.
    replace (beq (lower c) " "%byte) with false; [reflexivity |]. symmetry.
    destruct c; try reflexivity; discriminate. }
  assert (A : forall ps : list (parser code),
    Forall (fun p => terminated p (tg "]") i = RErr) ps -> terminated (alt ps) (tg "]") i = RErr).
  { intros ps. induction ps as [| p ps IH]; intros H; [reflexivity |]. inv H.
    specialize (IH H3). destruct ps as [| p' ps]; [exact H2 |].
    unfold terminated, bind in *. cbn [alt]. change (alt (p :: p' :: ps)) with (orp p (alt (p' :: ps))).
    unfold orp. destruct (p i); try discriminate; assumption. }
  assert (N2 : forall k (p : parser code), In k known_codes ->
    forallb (fun c => negb (beq c bSP) && negb (beq c "]"%byte)) k = true ->
    terminated (tag_no_case (k ++ bs " ") ;;; p) (tg "]") i = RErr).
  { intros k p H1 H2. unfold terminated. unfold bind at 1. now rewrite N1. }
  assert (N3 : forall (C : Type) k (p : parser C) (f : C -> code), In k known_codes ->
    forallb (fun c => negb (beq c bSP) && negb (beq c "]"%byte)) k = true ->
    terminated (pmap f (tag_no_case (k ++ bs " ") ;;; p)) (tg "]") i = RErr).
  { intros C k p f H1 H2. unfold terminated, pmap. unfold bind at 1 2. now rewrite N1. }
  assert (Ng : forall c (p : parser code), (c = true -> terminated p (tg "]") i = RErr) ->
    terminated (gate c p) (tg "]") i = RErr).
  { intros [|] p H; [now apply H | reflexivity]. }
  unfold code_end. apply A.
  assert (I0 : forall k, In k (firstn 18 known_codes) -> In k known_codes).
  { intros k Hk. rewrite <- (firstn_skipn 18). apply in_or_app. now left. }
  repeat (apply Forall_cons || apply Forall_nil).
  all: try (apply N0; [apply I0; cbn; tauto | reflexivity]).
  all: try (match goal with |- terminated (pmap ?f (bind (tag_no_case ?k) ?q)) _ _ = _ =>
    let k' := eval vm_compute in (removelast k) in
    apply (N3 _ k' (q tt) f); [apply I0; cbn; tauto | reflexivity] end).
  all: try (match goal with |- terminated (bind (tag_no_case ?k) ?q) _ _ = _ =>
    let k' := eval vm_compute in (removelast k) in
    apply (N2 k' (q tt)); [apply I0; cbn; tauto | reflexivity] end).
  - unfold terminated, bind.
    destruct (K' (bs "BADCHARSET")) as [-> | (c & r' & -> & E & E')];
      [apply I0; cbn; tauto | reflexivity | reflexivity |].
    unfold opt, delimited, bind. cbn [tag bs]. change " "%byte with bSP. rewrite E.
    cbn. now rewrite E'.
  - unfold p_capability_data, vec1, vecn, expect. unfold terminated at 1, pmap. unfold bind at 1 2 3.
    change (bs "CAPABILITY ") with (bs "CAPABILITY" ++ bs " ").
    rewrite N1; [reflexivity | apply I0; cbn; tauto | reflexivity].
  - apply Ng. intros Hf. apply (N3 _ (bs "METADATA")); [| reflexivity].
    unfold known_codes. rewrite Hf. do 18 right. now left.
  - apply (N2 (bs "APPENDUID")); [apply I0; cbn; tauto | reflexivity].
  - apply (N2 (bs "COPYUID")); [apply I0; cbn; tauto | reflexivity].
  - apply Ng. intros Hf.
    assert (I1 : forall k, In k [bs "HIGHESTMODSEQ"; bs "NOMODSEQ"; bs "MODIFIED"; bs "CLOSED"] -> In k known_codes).
    { intros k Hk. unfold known_codes. rewrite Hf. apply in_or_app. right. apply in_or_app. now right. }
    apply A. repeat (apply Forall_cons || apply Forall_nil).
    + apply (N3 _ (bs "HIGHESTMODSEQ")); [apply I1; cbn; tauto | reflexivity].
    + apply N0; [apply I1; cbn; tauto | reflexivity].
    + apply (N3 _ (bs "MODIFIED")); [apply I1; cbn; tauto | reflexivity].
    + apply N0; [apply I1; cbn; tauto | reflexivity].
Qed.
End OtherCode.
