(** From the parsers to the decoders of Decode.v. *)

From Verif Require Import Bytes BytesFacts Dec Features Nom Types Utf8 Conv
  ParserFacts ParseCore ParseBody ParseCmd ParseResp Decode Valid OkTac OkCore OkBody OkCmd OkResp.
Open Scope nat_scope.

Section DecodeFacts.
Context {F : features}.

(** ** Parsers that never report a literal *)
Definition nolit {A} (p : parser A) := forall i t n m, p i <> RFail (FLit t n m).

Lemma nolit_ret {A} (a : A) : nolit (ret a).
Proof. intros i t n m. discriminate. Qed.
Lemma nolit_bind {A B} (p : parser A) (f : A -> parser B) :
  nolit p -> (forall a, nolit (f a)) -> nolit (bind p f).
Proof.
  intros Hp Hf i t n m. unfold bind. specialize (Hp i t n m).
  destruct (p i); try discriminate; [apply Hf | congruence].
Qed.
Lemma nolit_pmap {A B} (f : A -> B) p : nolit p -> nolit (pmap f p).
Proof. intros H. apply nolit_bind; [exact H |]. intros a. apply nolit_ret. Qed.
Lemma nolit_value {A B} (b : B) (p : parser A) : nolit p -> nolit (value b p).
Proof. intros H. apply nolit_bind; [exact H |]. intros a. apply nolit_ret. Qed.
Lemma nolit_map_res {A B} (p : parser A) (f : A -> option B) : nolit p -> nolit (map_res p f).
Proof.
  intros H. apply nolit_bind; [exact H |]. intros a. destruct (f a); [apply nolit_ret | now intros ? ? ? ?].
Qed.
Lemma nolit_expect {A B} (p : parser A) (f : A -> option B) : nolit p -> nolit (expect p f).
Proof.
  intros H. apply nolit_bind; [exact H |]. intros a. destruct (f a); [apply nolit_ret | now intros ? ? ? ?].
Qed.
Lemma nolit_delimited {A B C} (p : parser A) (q : parser B) (r : parser C) :
  nolit p -> nolit q -> nolit r -> nolit (delimited p q r).
Proof. intros. repeat (apply nolit_bind; [assumption |]; intros). apply nolit_ret. Qed.
Lemma nolit_terminated {A B} (p : parser A) (q : parser B) :
  nolit p -> nolit q -> nolit (terminated p q).
Proof. intros. repeat (apply nolit_bind; [assumption |]; intros). apply nolit_ret. Qed.
Lemma nolit_orp {A} (p q : parser A) : nolit p -> nolit q -> nolit (orp p q).
Proof.
  intros Hp Hq i t n m. unfold orp. specialize (Hp i t n m).
  destruct (p i); try discriminate; [apply Hq | congruence].
Qed.
Lemma nolit_alt_nil {A} : nolit (@alt A []).
Proof. now intros ? ? ? ?. Qed.
Lemma nolit_alt {A} (p : parser A) ps : nolit p -> nolit (alt ps) -> nolit (alt (p :: ps)).
Proof. intros Hp Hq i t n m. rewrite alt_cons. now apply nolit_orp. Qed.
Lemma nolit_opt {A} (p : parser A) : nolit p -> nolit (opt p).
Proof.
  intros H i t n m. unfold opt. specialize (H i t n m). destruct (p i); congruence.
Qed.
Lemma nolit_peek {A} (p : parser A) : nolit p -> nolit (peek p).
Proof.
  intros H i t n m. unfold peek. specialize (H i t n m). destruct (p i); congruence.
Qed.
Lemma nolit_recognize {A} (p : parser A) : nolit p -> nolit (recognize p).
Proof.
  intros H i t n m. unfold recognize. specialize (H i t n m). destruct (p i); congruence.
Qed.
Lemma nolit_gate {A} b (p : parser A) : nolit p -> nolit (gate b p).
Proof. intros H. destruct b; [exact H | now intros ? ? ? ?]. Qed.
Lemma nolit_tag s : nolit (tag s).
Proof.
  intros i t n m. revert i. induction s as [| c s IH]; cbn; intros [| x i]; try discriminate.
  destruct (beq x c); [apply IH | discriminate].
Qed.
Lemma nolit_kw s : nolit (tag_no_case s).
Proof.
  intros i t n m. revert i. induction s as [| c s IH]; cbn; intros [| x i]; try discriminate.
  match goal with |- context [if ?c then _ else _] => destruct c end; [apply IH | discriminate].
Qed.
Lemma nolit_sat f : nolit (sat f).
Proof. intros [| x i] t n m; cbn; [discriminate |]. now destruct (f x). Qed.
Lemma nolit_take_while f : nolit (take_while f).
Proof. intros i t n m. unfold take_while. now destruct (span f i) as [[? ?] |]. Qed.
Lemma nolit_take_while1 f : nolit (take_while1 f).
Proof. intros i t n m. unfold take_while1. now destruct (span f i) as [[[| ? ?] ?] |]. Qed.
Lemma nolit_many0 {A} (p : parser A) : nolit p -> nolit (many0 p).
Proof.
  intros H i t n m. unfold many0. generalize (S (length i)) as f. intros f. revert i.
  induction f as [| f IH]; intros i; [discriminate |]. cbn.
  specialize (H i t n m). destruct (p i) as [r a | | | |]; try congruence.
  match goal with |- context [if ?c then _ else _] => destruct c end; [| discriminate]. specialize (IH r). destruct (many0_f f p r); congruence.
Qed.
Lemma nolit_sep_loop {A B} (s : parser B) (p : parser A) : nolit s -> nolit p -> nolit (sep_loop s p).
Proof.
  intros Hs H i t n m. unfold sep_loop. generalize (S (length i)) as f. intros f. revert i.
  induction f as [| f IH]; intros i; [discriminate |]. cbn.
  specialize (Hs i t n m). destruct (s i) as [i1 a | | | |]; try congruence.
  match goal with |- context [if ?c then _ else _] => destruct c end; [| discriminate].
  specialize (H i1 t n m). destruct (p i1) as [i2 b | | | |]; try congruence.
  match goal with |- context [if ?c then _ else _] => destruct c end; [| discriminate]. specialize (IH i2). destruct (sep_loop_f f s p i2); congruence.
Qed.
Lemma nolit_sep_list1 {A B} (s : parser B) (p : parser A) : nolit s -> nolit p -> nolit (sep_list1 s p).
Proof.
  intros. apply nolit_bind; [assumption |]. intros a. apply nolit_bind; [now apply nolit_sep_loop |].
  intros l. apply nolit_ret.
Qed.
Lemma nolit_escaped n c e : nolit (escaped n c e).
Proof.
  intros i t l m. unfold escaped. generalize (S (length i)) as f. intros f. revert i.
  induction f as [| f IH]; intros i; [discriminate |]. cbn.
  destruct i as [| x i]; [discriminate |].
  pose proof (nolit_take_while1 n (x :: i) t l m) as K.
  destruct (take_while1 n (x :: i)) as [r a | | | |]; try congruence.
  - destruct r as [| y r]; [discriminate |]. specialize (IH (y :: r)).
    destruct (escaped_f f n c e (y :: r)); congruence.
  - destruct (beq x c); [| discriminate]. destruct i as [| y i]; [discriminate |].
    destruct (e y); [| discriminate]. destruct i as [| z i]; [discriminate |].
    specialize (IH (z :: i)). destruct (escaped_f f n c e (z :: i)); congruence.
Qed.
Lemma nolit_crlf : nolit crlf.
Proof.
  unfold crlf. destruct quirk_crlf_relaxed; [| apply nolit_tag].
  apply nolit_bind; [apply nolit_opt, nolit_sat |]. intros _.
  apply nolit_bind; [apply nolit_sat |]. intros _. apply nolit_ret.
Qed.
Create HintDb nolit.
Hint Resolve nolit_ret nolit_bind nolit_pmap nolit_value nolit_map_res nolit_expect
  nolit_delimited nolit_terminated nolit_alt_nil nolit_alt nolit_opt nolit_peek
  nolit_recognize nolit_gate nolit_tag nolit_kw nolit_sat nolit_take_while nolit_take_while1
  nolit_many0 nolit_sep_list1 nolit_escaped nolit_crlf : nolit.
Ltac nl := repeat first
  [ solve [auto 1 with nolit nocore]
  | lazymatch goal with
    | |- nolit (if ?c then _ else _) => destruct c
    | |- nolit (vec1 _) => apply nolit_expect
    | |- nolit (validated _ _) => apply nolit_expect
    | |- nolit sp => apply nolit_sat
    | |- nolit dquote => apply nolit_sat
    | |- nolit (char _) => apply nolit_sat
    | |- nolit (bind _ _) => apply nolit_bind; [| intros]
    end
  | progress (auto 1 with nolit nocore) | apply nolit_pmap | apply nolit_map_res | apply nolit_alt
  | apply nolit_delimited | apply nolit_terminated | apply nolit_opt | apply nolit_sep_list1
  | apply nolit_expect | apply nolit_gate | apply nolit_value | apply nolit_recognize
  | apply nolit_many0 | apply nolit_peek].

Lemma nolit_p_number : nolit p_number.
Proof. unfold p_number, p_digits. nl. Qed.
Lemma nolit_p_number64 : nolit p_number64.
Proof. unfold p_number64, p_digits. nl. Qed.
Hint Resolve nolit_p_number nolit_p_number64 : nolit.
Lemma nolit_p_nz_number : nolit p_nz_number.
Proof. unfold p_nz_number. nl. Qed.
Hint Resolve nolit_p_nz_number : nolit.
Lemma nolit_p_text : nolit p_text.
Proof. unfold p_text. nl. Qed.
Lemma nolit_p_atom : nolit p_atom.
Proof. unfold p_atom. nl. Qed.
Lemma nolit_p_quoted : nolit p_quoted.
Proof. unfold p_quoted. nl. Qed.
Hint Resolve nolit_p_text nolit_p_atom nolit_p_quoted : nolit.
Lemma nolit_p_charset : nolit p_charset.
Proof. unfold p_charset. nl. Qed.
Lemma nolit_p_base64 : nolit p_base64.
Proof. unfold p_base64. nl. Qed.
Lemma nolit_p_seq_number : nolit p_seq_number.
Proof. unfold p_seq_number. nl. Qed.
Hint Resolve nolit_p_charset nolit_p_base64 nolit_p_seq_number : nolit.
Lemma nolit_p_sequence_set : nolit p_sequence_set.
Proof. unfold p_sequence_set, p_seq_range. nl. Qed.
Lemma nolit_p_flag : nolit p_flag.
Proof. unfold p_flag. nl. Qed.
Hint Resolve nolit_p_sequence_set nolit_p_flag : nolit.
Lemma nolit_p_flag_perm : nolit p_flag_perm.
Proof. unfold p_flag_perm. nl. Qed.
Lemma nolit_p_capability_data : nolit p_capability_data.
Proof. unfold p_capability_data, p_capability, p_opt_sp. nl. Qed.
Lemma nolit_p_uid_set : nolit p_uid_set.
Proof. unfold p_uid_set, p_uid_range. nl. Qed.
Hint Resolve nolit_p_flag_perm nolit_p_capability_data nolit_p_uid_set : nolit.
Lemma nolit_p_resp_text_code : nolit p_resp_text_code.
Proof.
  unfold p_resp_text_code, p_metadata_code, p_resp_code_apnd, p_resp_code_copy,
    p_mod_sequence_value. nl.
Qed.
Hint Resolve nolit_p_resp_text_code : nolit.
Lemma nolit_p_resp_text : nolit p_resp_text.
Proof.
  intros i t n m. rewrite p_resp_text_eq. destruct i as [| x i]; [discriminate |].
  destruct (beq x "["%byte).
  - unfold p_resp_coded, p_code_other, p_text_after_code. revert t n m.
    generalize (x :: i). change (nolit (tg "[" ;;; c <- alt [terminated p_resp_text_code (tg "]");
      pmap CdOther (terminated (take_while is_code_other_char) (tg "]"))] ;;
      t <- (if quirk_missing_text
            then alt [sp ;;; p_text; expect (value (bs "...") (peek crlf)) (str_of text_ok)]
            else sp ;;; p_text) ;; ret (Some c, t))). nl.
  - unfold p_resp_plain. apply nolit_pmap, nolit_p_text.
Qed.
Hint Resolve nolit_p_resp_text : nolit.
Lemma nolit_p_greeting : nolit p_greeting.
Proof.
  unfold p_greeting, p_resp_cond_auth, p_resp_cond_bye.
  apply nolit_bind; [nl | intros [? [? ?]]; apply nolit_ret].
Qed.
Lemma nolit_p_authenticate_data : nolit p_authenticate_data.
Proof. unfold p_authenticate_data. nl. Qed.
Lemma nolit_p_idle_done : nolit p_idle_done.
Proof. unfold p_idle_done. nl. Qed.

(** ** [p_command] *)
Lemma p_command_eq i : p_command i =
  match terminated p_tag_imap sp i with
  | ROk r t => fill_tag t (pmap (mkCommand t) p_command_body r)
  | RInc => RInc
  | RErr => RErr
  | RFail e => RFail e
  | RPanic => RPanic
  end.
Proof. reflexivity. Qed.
Lemma ok_tag_sp k : ok k tag_ok (terminated p_tag_imap sp).
Proof. oks. Qed.
Lemma nolit_tag_sp : nolit (terminated p_tag_imap sp).
Proof. unfold p_tag_imap. nl. Qed.
Lemma tag_sp_inv i r t : terminated p_tag_imap sp i = ROk r t -> i = t ++ bSP :: r.
Proof.
  unfold terminated. intros H. apply bind_inv in H as (r1 & t' & H1 & H).
  apply bind_inv in H as (r2 & u & H2 & H). inv H. apply char_inv in H2 as [-> _].
  unfold p_tag_imap, validated, expect in H1. apply bind_inv in H1 as (r2 & s & H1 & H).
  unfold str_of in H. destruct (utf8_ok s && tag_ok s); [| discriminate]. inv H.
  apply take_while1_inv in H1. tauto.
Qed.
Lemma p_command_inv i r c : p_command i = ROk r c ->
  exists r1, i = cmd_tag c ++ bSP :: r1 /\ tag_ok (cmd_tag c) = true /\
  p_command_body r1 = ROk r (cmd_body c) /\
  forall x, terminated p_tag_imap sp (i ++ x) = ROk (r1 ++ x) (cmd_tag c).
Proof.
  rewrite p_command_eq. destruct (terminated p_tag_imap sp i) as [r1 t | | | |] eqn:E; try discriminate.
  intros H. exists r1. unfold pmap, bind, fill_tag, ret in H.
  destruct (p_command_body r1) as [r2 b | | | [? ? ? |] |] eqn:B; try discriminate. inv H.
  split; [now apply tag_sp_inv |]. split.
  - exact (ok_post (ok_tag_sp (S (length i))) _ _ _ (Nat.lt_succ_diag_r _) E).
  - split; [reflexivity |]. intros x.
    exact (ok_ext (ok_tag_sp (S (length (i ++ x)))) _ _ _ _ (Nat.lt_succ_diag_r _) E).
Qed.

(** ** [ok] without the bound *)
Definition okk {A} (v : A -> bool) (p : parser A) : Prop := forall k, ok k v p.
Section Okk.
Context {A} {v : A -> bool} {p : parser A} (H : okk v p).
Lemma okk_suffix i r a : p i = ROk r a -> exists c, i = c ++ r.
Proof. apply (ok_suffix (H (S (length i)))). lia. Qed.
Lemma okk_post i r a : p i = ROk r a -> v a = true.
Proof. apply (ok_post (H (S (length i)))). lia. Qed.
Lemma okk_ext i x r a : p i = ROk r a -> p (i ++ x) = ROk (r ++ x) a.
Proof. apply (ok_ext (H (S (length (i ++ x))))). lia. Qed.
Lemma okk_err i x : p i = RErr -> p (i ++ x) = RErr.
Proof. apply (ok_err (H (S (length (i ++ x))))). lia. Qed.
Lemma okk_fail i x : p i = RFail FOther -> p (i ++ x) = RFail FOther.
Proof. apply (ok_fail (H (S (length (i ++ x))))). lia. Qed.
Lemma okk_lit i t n m : p i = RFail (FLit t n m) -> t = None /\ announced i n m.
Proof. apply (ParserFacts.ok_lit (H (S (length i)))). lia. Qed.
Lemma okk_panic i : p i <> RPanic.
Proof. apply (ok_panic (H (S (length i)))). lia. Qed.
End Okk.

(** ** The consumed part ends in LF. *)
Definition to_lf {A} (p : parser A) := forall i r a, p i = ROk r a ->
  exists c, i = c ++ bLF :: r.
Lemma to_lf_bind {A B} v (p : parser A) (f : A -> parser B) :
  okk v p -> (forall a, to_lf (f a)) -> to_lf (bind p f).
Proof.
  intros Hp Hf i r b H. apply bind_inv in H as (r1 & a & H1 & H).
  destruct (okk_suffix Hp _ _ _ H1) as [c ->]. apply Hf in H as [c' ->].
  exists (c ++ c'). now rewrite <- app_assoc.
Qed.
Lemma to_lf_bind_ret {A B} (p : parser A) (f : A -> B) :
  to_lf p -> to_lf (bind p (fun a => ret (f a))).
Proof. intros Hp i r b H. apply bind_inv in H as (r1 & a & H1 & H). inv H. now apply Hp in H1. Qed.
Lemma to_lf_pmap {A B} (p : parser A) (f : A -> B) : to_lf p -> to_lf (pmap f p).
Proof. apply to_lf_bind_ret. Qed.
Lemma to_lf_crlf : to_lf crlf.
Proof.
  intros i r u H. apply crlf_inv in H as (e & -> & [-> | [_ ->]]).
  - now exists [bCR].
  - now exists [].
Qed.
Lemma to_lf_orp {A} (p q : parser A) : to_lf p -> to_lf q -> to_lf (orp p q).
Proof. intros Hp Hq i r a H. apply orp_inv in H as [H | [_ H]]; eauto. Qed.
Lemma to_lf_terminated {A} v (p : parser A) : okk v p -> to_lf (terminated p crlf).
Proof. intros H. apply (to_lf_bind v); [exact H |]. intros a. apply to_lf_bind_ret, to_lf_crlf. Qed.
Lemma to_lf_delimited {A B} u v (q : parser B) (p : parser A) :
  okk u q -> okk v p -> to_lf (delimited q p crlf).
Proof.
  intros H1 H2. apply (to_lf_bind u); [exact H1 |]. intros _. now apply (to_lf_terminated v).
Qed.
Lemma to_lf_expect {A B} (p : parser A) (f : A -> option B) : to_lf p -> to_lf (expect p f).
Proof.
  intros H i r b E. apply bind_inv in E as (r1 & a & H1 & E).
  destruct (f a); [| discriminate]. inv E. now apply H in H1.
Qed.
Lemma to_lf_gate {A} b (p : parser A) : to_lf p -> to_lf (gate b p).
Proof. intros H. destruct b; [exact H | discriminate]. Qed.
Lemma to_lf_p_command_body : to_lf p_command_body.
Proof.
  unfold p_command_body. apply (to_lf_terminated (v_command_body LDecoded)). intros k.
  oks; auto using ok_p_command_any, ok_p_command_auth, ok_p_command_nonauth, ok_p_command_select.
Qed.
Lemma other_any : other_decoded (fun _ _ => true).
Proof. now intros i r c t _. Qed.
Notation v_ct := (v_ct (fun _ _ => true)).
Lemma to_lf_p_greeting : to_lf p_greeting.
Proof.
  intros i r a H. unfold p_greeting in H. apply bind_inv in H as (r1 & [k [c t]] & H1 & H). inv H.
  eapply (to_lf_delimited any (fun x => v_ct (snd x))); [| | exact H1].
  - intros n. apply ok_tg.
  - intros n. apply ok_alt_cons; [apply ok_p_resp_cond_auth, other_any |].
    apply ok_alt_cons; [| oks]. eapply ok_pmap; [apply ok_p_resp_cond_bye, other_any |].
    intros a H. exact H.
Qed.
Lemma to_lf_p_response : to_lf p_response.
Proof.
  unfold p_response. cbn [alt]. apply to_lf_orp; [| apply to_lf_orp; [| apply to_lf_orp]].
  - apply to_lf_gate, to_lf_pmap. unfold p_empty_continue_req. apply to_lf_expect.
    unfold value. apply (to_lf_bind_ret _ (fun _ => (@None code, bs "..."))).
    eapply (to_lf_bind any); [intros k; apply ok_tg |]. intros _. apply to_lf_crlf.
  - apply to_lf_pmap. unfold p_continue_req. apply to_lf_expect.
    eapply (to_lf_bind any); [intros k; apply ok_tg |]. intros _.
    apply (to_lf_bind any); [| intros e; apply to_lf_bind_ret, to_lf_crlf].
    intros k. apply ok_alt_cons; [| apply ok_alt_cons; [| oks]].
    + eapply (ok_pmap k any); [| okv]. eapply (ok_map_res k any); [| okv].
      unfold p_until_crlf. destruct quirk_crlf_relaxed.
      * eapply (ok_pmap k any); [now apply ok_take_while | okv].
      * now apply ok_take_until2.
    + eapply ok_pmap; [apply ok_p_resp_text_any |]. okv.
  - intros i r a H. pose proof (ok_p_response_data _ other_any) as K.
    unfold p_response_data in H. revert H.
    apply (to_lf_delimited any any); [intros k; apply ok_tg |]. intros k.
    repeat (apply ok_alt_cons; [| ]); try apply ok_alt_nil.
    + eapply ok_pmap; [apply ok_p_resp_cond_state, other_any | okv].
    + eapply ok_pmap; [apply ok_p_resp_cond_bye, other_any | okv].
    + eapply ok_pmap; [apply ok_p_mailbox_data | okv].
    + eapply ok_pmap; [apply ok_p_message_data | okv].
    + eapply ok_pmap; [apply ok_p_capability_data | okv].
    + eapply ok_pmap; [apply ok_p_enable_data | okv].
    + apply ok_gate. intros _. eapply ok_pmap; [apply ok_p_id | okv].
  - apply to_lf_pmap. unfold p_response_done. cbn [alt]. apply to_lf_orp.
    + unfold p_response_tagged. apply (to_lf_bind tag_ok); [intros k; oks |]. intros t.
      apply (to_lf_bind any); [intros k; oks |]. intros _.
      eapply to_lf_bind; [intros k; apply (ok_p_resp_cond_state _ other_any) |]. intros b.
      apply to_lf_bind_ret, to_lf_crlf.
    + unfold p_response_fatal. intros i r a H. apply bind_inv in H as (r1 & [c t] & H1 & H). inv H.
      eapply (to_lf_delimited any v_ct); [intros k; apply ok_tg | | exact H1].
      intros k. apply ok_p_resp_cond_bye, other_any.
Qed.
Lemma to_lf_p_authenticate_data : to_lf p_authenticate_data.
Proof.
  unfold p_authenticate_data. cbn [alt]. apply to_lf_orp.
  - apply to_lf_pmap. apply (to_lf_terminated any). intros k. oks.
  - apply (to_lf_bind any); [intros k; apply ok_tg |]. intros _. apply to_lf_bind_ret, to_lf_crlf.
Qed.
Lemma to_lf_p_idle_done : to_lf p_idle_done.
Proof.
  unfold p_idle_done. apply (to_lf_bind any); [intros k; apply ok_kw |]. intros _.
  apply to_lf_bind_ret, to_lf_crlf.
Qed.
End DecodeFacts.
