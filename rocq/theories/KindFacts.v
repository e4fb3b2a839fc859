(** The words that the messages begin with (for C59). *)

From Verif Require Import Bytes BytesFacts Features Nom Types Utf8 Conv Base64 ParseCore ParseBody ParseCmd ParseResp Decode DecodeFacts DecodeProps CaseProps.
Open Scope nat_scope.

(** The input begins with [w], in upper or lower case. *)
Definition begins (w i : bytes) : Prop := exists v x, lowers v = lowers w /\ i = v ++ x.
Definition leads {A} (ws : list bytes) (p : parser A) : Prop := forall i r a, p i = ROk r a -> exists w, In w ws /\ begins w i.
(** If none of the words can begin the input, the parser gives up. *)
Definition strict {A} (ws : list bytes) (p : parser A) : Prop := forall i, (forall w, In w ws -> tag_no_case w i = RErr) -> p i = RErr.
(** The words differ at some position. *)
Fixpoint miss (k w : bytes) : bool :=
  match k, w with c :: k', d :: w' => negb (beq (lower c) (lower d)) || miss k' w' | _, _ => false end.

Lemma begins_miss w k i : begins w i -> miss k w = true -> tag_no_case k i = RErr.
Proof.
  intros (v & x & E & ->). revert v w E. induction k as [| c k IH]; intros v w E M; [discriminate |].
  destruct w as [| d w]; [discriminate |]. destruct v as [| e v]; [discriminate |]. change (lower e :: lowers v = lower d :: lowers w) in E. injection E as E1 E2. cbn [tag_no_case app miss] in M |- *.
  rewrite E1. destruct (beq (lower d) (lower c)) eqn:X; [| reflexivity].
  apply beq_eq in X. rewrite X, beq_refl in M. exact (IH _ _ E2 M).
Qed.
Lemma kw_begins w i r a : tag_no_case w i = ROk r a -> begins w i.
Proof.
  revert i r a. induction w as [| c w IH]; intros i r a H; [now exists [], i |]. destruct i as [| x i]; [discriminate |]. cbn in H.
  destruct (beq (lower x) (lower c)) eqn:X; [| discriminate]. apply beq_eq in X. apply IH in H as (v & y & E & ->).
  exists (x :: v), y. split; [| reflexivity]. change (lower x :: lowers v = lower c :: lowers w). now rewrite X, E.
Qed.
Lemma kw_rest w i r a : tag_no_case w i = ROk r a -> exists v, lowers v = lowers w /\ i = v ++ r.
Proof.
  revert i r a. induction w as [| c w IH]; intros i r a H; [injection H as <- _; now exists [] |]. destruct i as [| x i]; [discriminate |]. cbn in H.
  destruct (beq (lower x) (lower c)) eqn:X; [| discriminate]. apply beq_eq in X. apply IH in H as (v & E & ->).
  exists (x :: v). split; [| reflexivity]. change (lower x :: lowers v = lower c :: lowers w). now rewrite X, E.
Qed.

Section Combinators.
Context {A B : Type}.
Lemma leads_kw ws k : In k ws -> leads ws (tag_no_case k).
Proof. intros H i r a X. exists k. split; [exact H |]. now apply kw_begins in X. Qed.
Lemma strict_kw ws k : In k ws -> strict ws (tag_no_case k).
Proof. intros H i X. now apply X. Qed.
Lemma leads_bind ws (p : parser A) (f : A -> parser B) : leads ws p -> leads ws (bind p f).
Proof. intros H i r b X. unfold bind in X. destruct (p i) as [r' a | | | |] eqn:E; try discriminate. now apply H in E. Qed.
Lemma strict_bind ws (p : parser A) (f : A -> parser B) : strict ws p -> strict ws (bind p f).
Proof. intros H i X. unfold bind. now rewrite H. Qed.
Lemma leads_opt ws (p : parser A) (f : option A -> parser B) : leads ws p -> leads ws (f None) -> leads ws (bind (opt p) f).
Proof.
  intros H G i r b X. unfold bind, opt in X. destruct (p i) as [r' a | | | |] eqn:E; try discriminate; [now apply H in E | now apply G in X].
Qed.
Lemma strict_opt ws (p : parser A) (f : option A -> parser B) : strict ws p -> strict ws (f None) -> strict ws (bind (opt p) f).
Proof. intros H G i X. unfold bind, opt. now rewrite H, G. Qed.
Lemma leads_gate ws b (p : parser A) : leads ws p -> leads ws (gate b p).
Proof. destruct b; [now intros |]. intros _ i r a X. discriminate. Qed.
Lemma strict_gate ws b (p : parser A) : strict ws p -> strict ws (gate b p).
Proof. destruct b; [now intros |]. intros _ i X. reflexivity. Qed.
Lemma leads_alt ws p q (l : list (parser A)) : leads ws p -> leads ws (alt (q :: l)) -> leads ws (alt (p :: q :: l)).
Proof.
  intros H G i r a X. cbn [alt] in X. unfold orp in X. destruct (p i) as [r' b | | | |] eqn:E; try discriminate; [now apply H in E | now apply G in X].
Qed.
Lemma strict_alt ws p q (l : list (parser A)) : strict ws p -> strict ws (alt (q :: l)) -> strict ws (alt (p :: q :: l)).
Proof. intros H G i X. cbn [alt]. unfold orp. now rewrite H, G. Qed.
End Combinators.

(** Ten words for numbers *)
Definition digit_words : list bytes := map (fun c => [c]) (bs "0123456789").
Lemma digit_word b : is_digit b = true -> In [b] digit_words.
Proof. intros H. apply (in_map (fun c => [c])). destruct b; try discriminate H; cbn; tauto. Qed.
Lemma digits_first i a r : take_while1 is_digit i = ROk r a -> exists b x, i = b :: x /\ is_digit b = true.
Proof.
  unfold take_while1. destruct i as [| b i]; [discriminate |]. cbn. destruct (is_digit b) eqn:D; [eauto | discriminate].
Qed.
Lemma lower_digit b : is_digit b = true -> lower b = b.
Proof. destruct b; intros H; try discriminate H; reflexivity. Qed.
Lemma not_digit b i : (forall w, In w digit_words -> tag_no_case w (b :: i) = RErr) -> is_digit b = false.
Proof.
  intros H. destruct (is_digit b) eqn:D; [| reflexivity]. specialize (H [b] (digit_word _ D)). cbn in H. now rewrite beq_refl in H.
Qed.

Ltac begin_with :=
  repeat first
    [ apply leads_alt | apply strict_alt | apply leads_gate | apply strict_gate
    | apply leads_kw; cbn; tauto | apply strict_kw; cbn; tauto
    | apply leads_opt | apply strict_opt
    | apply leads_bind | apply strict_bind ].

Section Words.
Context {F : features}.
Definition command_words : list bytes := map bs
  ["CAPABILITY"; "LOGOUT"; "NOOP"; "ID "; "APPEND "; "CREATE "; "DELETE "; "EXAMINE "; "LIST "; "LSUB "; "RENAME "; "SELECT "; "STATUS ";
   "SUBSCRIBE "; "UNSUBSCRIBE "; "IDLE"; "ENABLE"; "COMPRESS "; "GETQUOTA "; "GETQUOTAROOT "; "SETQUOTA "; "SETMETADATA"; "GETMETADATA";
   "NAMESPACE"; "LOGIN"; "AUTHENTICATE "; "STARTTLS"; "CHECK"; "CLOSE"; "EXPUNGE"; "UID EXPUNGE "; "COPY"; "FETCH"; "STORE"; "UID"; "UID ";
   "SEARCH"; "SORT "; "THREAD "; "UNSELECT"; "MOVE"]%bytestr.
Lemma leads_command : leads command_words p_command_body.
Proof.
  unfold p_command_body. apply leads_bind. apply leads_alt; [unfold p_command_any; begin_with |].
  apply leads_alt; [unfold p_command_auth; begin_with |]. apply leads_alt; [unfold p_command_nonauth; begin_with |].
  unfold p_command_select; begin_with.
Qed.
Lemma strict_command : strict command_words p_command_body.
Proof.
  unfold p_command_body. apply strict_bind. apply strict_alt; [unfold p_command_any; begin_with |].
  apply strict_alt; [unfold p_command_auth; begin_with |]. apply strict_alt; [unfold p_command_nonauth; begin_with |].
  unfold p_command_select; begin_with.
Qed.

Definition data_words : list bytes := map bs
  ["FLAGS "; "LIST "; "LSUB "; "SEARCH"; "SORT"; "THREAD"; "STATUS "; "METADATA"; "NAMESPACE "; "QUOTAROOT "; "QUOTA "; "VANISHED";
   "CAPABILITY "; "ENABLED"; "ID "]%bytestr ++ digit_words.
Lemma leads_digits max : leads data_words (p_digits max).
Proof.
  intros i r a H. unfold p_digits, map_res, expect in H. unfold bind at 1 2 in H.
  destruct (take_while1 is_digit i) as [r' d | | | |] eqn:E; [| discriminate H ..]. clear H.
  apply digits_first in E as (b & x & -> & D). exists [b]. split; [apply in_or_app; right; now apply digit_word |]. now exists [b], x.
Qed.
Lemma strict_digits max : strict data_words (p_digits max).
Proof.
  intros i H. destruct i as [| b i]; [specialize (H (bs "ID ") ltac:(cbn; tauto)); discriminate |].
  assert (D : is_digit b = false) by (apply (not_digit b i); intros w I; apply H; apply in_or_app; now right).
  assert (T : take_while1 is_digit (b :: i) = RErr) by (unfold take_while1; cbn [span]; now rewrite D).
  unfold p_digits, map_res, expect. unfold bind at 1 2. now rewrite T.
Qed.
Ltac begin_data :=
  repeat first
    [ apply leads_digits | apply strict_digits
    | apply leads_alt | apply strict_alt | apply leads_gate | apply strict_gate
    | apply leads_kw; cbn; tauto | apply strict_kw; cbn; tauto
    | apply leads_bind | apply strict_bind ].
Definition p_data : parser response :=
  alt [pmap RData p_mailbox_data; pmap RData p_message_data; pmap (fun l => RData (DCapability l)) p_capability_data;
       pmap RData p_enable_data; gate ext_id (pmap (fun p => RData (DId p)) p_id)].
Lemma leads_data : leads data_words p_data.
Proof.
  unfold p_data. apply leads_alt; [apply leads_bind; unfold p_mailbox_data; begin_data |].
  apply leads_alt; [apply leads_bind; unfold p_message_data; begin_data |]. apply leads_alt; [apply leads_bind; unfold p_capability_data; begin_data |].
  apply leads_alt; [apply leads_bind; unfold p_enable_data; begin_data |]. begin_data.
Qed.
Lemma strict_data : strict data_words p_data.
Proof.
  unfold p_data. apply strict_alt; [apply strict_bind; unfold p_mailbox_data; begin_data |].
  apply strict_alt; [apply strict_bind; unfold p_message_data; begin_data |]. apply strict_alt; [apply strict_bind; unfold p_capability_data; begin_data |].
  apply strict_alt; [apply strict_bind; unfold p_enable_data; begin_data |]. begin_data.
Qed.

(** *** The beginnings of the other messages *)
Lemma crlf_miss b i : b <> bCR -> b <> bLF -> crlf (b :: i) = RErr.
Proof.
  intros N1 N2. unfold crlf. destruct quirk_crlf_relaxed.
  - unfold bind, opt, char, sat. destruct (beq b bCR) eqn:X; [apply beq_eq in X; contradiction |].
    destruct (beq b bLF) eqn:Y; [apply beq_eq in Y; contradiction |]. reflexivity.
  - cbn [tag]. destruct (beq b bCR) eqn:X; [apply beq_eq in X; contradiction |]. reflexivity.
Qed.
Lemma tag_char b : is_tag_char b = true -> b <> bCR /\ b <> bLF /\ b <> bSP /\ b <> "*"%byte /\ b <> "+"%byte.
Proof. destruct b; intros H; try discriminate H; repeat split; discriminate. Qed.
Lemma tag_first t : tag_ok t = true -> exists b t', t = b :: t' /\ is_tag_char b = true /\ forallb is_tag_char t' = true.
Proof. destruct t as [| b t]; [discriminate |]. cbn. intros H. apply andb_true_iff in H as [H1 H2]. eauto. Qed.

Lemma span_tag f t x : f bSP = false -> exists a b, t = a ++ b /\ span f (t ++ bSP :: x) = Some (a, b ++ bSP :: x).
Proof. intros H. destruct (span_split f t H) as (a & b & E & S). exists a, b. auto. Qed.
Lemma tail_miss b x : forallb is_tag_char b = true -> crlf (b ++ bSP :: x) = RErr.
Proof.
  destruct b as [| c b]; intros H; [now apply crlf_miss |]. cbn in H. apply andb_true_iff in H as [H1 _].
  apply tag_char in H1 as (N1 & N2 & _). now apply crlf_miss.
Qed.
Lemma equals_tail b x : forallb is_tag_char b = true ->
  exists o c, opt (alt [tg "=="; tg "="]) (b ++ bSP :: x) = ROk (c ++ bSP :: x) o /\ forallb is_tag_char c = true.
Proof.
  intros H. destruct b as [| b1 b]; [exists None, []; split; reflexivity |]. cbn in H. apply andb_true_iff in H as [H1 H2].
  destruct (beq b1 "="%byte) eqn:X.
  - apply beq_eq in X as ->. destruct b as [| b2 b].
    + exists (Some tt), []. split; reflexivity.
    + cbn in H2. apply andb_true_iff in H2 as [H2 H3]. destruct (beq b2 "="%byte) eqn:Y.
      * apply beq_eq in Y as ->. exists (Some tt), b. split; [reflexivity | exact H3].
      * exists (Some tt), (b2 :: b). split; [| cbn; now rewrite H2]. unfold opt. cbn [alt]. unfold orp.
        change (tg "==" (("="%byte :: b2 :: b) ++ bSP :: x)) with (if beq b2 "="%byte then ROk (b ++ bSP :: x) tt else RErr).
        change (tg "=" (("="%byte :: b2 :: b) ++ bSP :: x)) with (ROk (A := unit) ((b2 :: b) ++ bSP :: x) tt).
        now rewrite Y.
  - exists None, (b1 :: b). split; [| cbn; now rewrite H1].
    unfold opt. cbn [alt]. unfold orp. change (tg "==" ((b1 :: b) ++ bSP :: x)) with (if beq b1 "="%byte then tg "=" (b ++ bSP :: x) else RErr).
    change (tg "=" ((b1 :: b) ++ bSP :: x)) with (if beq b1 "="%byte then ROk (b ++ bSP :: x) tt else RErr). now rewrite X.
Qed.
Lemma base64_tag t x : forallb is_tag_char t = true -> terminated p_base64 crlf (t ++ bSP :: x) = RErr.
Proof.
  intros H. destruct (span_tag is_base64_char t x eq_refl) as (a & b & -> & S).
  rewrite forallb_app in H. apply andb_true_iff in H as [_ H].
  unfold terminated, p_base64, map_res, recognize, take_while. unfold bind at 1 2 3. rewrite S.
  destruct (equals_tail b x H) as (o & c & E & Hc). rewrite E.
  destruct (b64_decode _); [| reflexivity]. unfold ret, bind. now rewrite tail_miss.
Qed.
Lemma auth_tag t x : tag_ok t = true -> p_authenticate_data (t ++ bSP :: x) = RErr.
Proof.
  intros H. destruct (tag_first t H) as (b & t' & -> & H1 & H2). unfold p_authenticate_data. cbn [alt]. unfold orp.
  unfold pmap. unfold bind at 1. rewrite (base64_tag (b :: t')) by (cbn; now rewrite H1).
  unfold bind. cbn. destruct (tag_char b H1) as (_ & _ & _ & N & _). destruct (beq b "*"%byte) eqn:X; [apply beq_eq in X; contradiction | reflexivity].
Qed.
Lemma kw_tag w t x : ~ In bSP w -> (exists c, tag_no_case w (t ++ bSP :: x) = ROk (c ++ bSP :: x) tt /\ exists d, t = d ++ c) \/
  tag_no_case w (t ++ bSP :: x) = RErr.
Proof.
  revert t. induction w as [| k w IH]; intros t N; [left; exists t; split; [reflexivity | now exists []] |].
  destruct t as [| b t].
  - right. cbn [app tag_no_case]. destruct (beq (lower bSP) (lower k)) eqn:X; [| reflexivity].
    exfalso. apply N. left. apply beq_eq in X. destruct k; try discriminate X; reflexivity.
  - cbn [app tag_no_case]. destruct (beq (lower b) (lower k)); [| now right].
    destruct (IH t) as [(c & E & d & ->) | E]; [intros I; apply N; now right | left | now right].
    exists c. split; [exact E | now exists (b :: d)].
Qed.
Lemma idle_tag t x : tag_ok t = true -> p_idle_done (t ++ bSP :: x) = RErr.
Proof.
  intros H. unfold p_idle_done, bind. destruct (kw_tag (bs "DONE") t x) as [(c & E & d & ->) | E]; [cbn; intuition discriminate | |]; rewrite E; [| reflexivity].
  assert (H' : forallb is_tag_char (d ++ c) = true) by (destruct (d ++ c); [discriminate | exact H]).
  rewrite forallb_app in H'. apply andb_true_iff in H' as [_ H']. now rewrite (tail_miss c x H').
Qed.
Lemma greeting_first b i : b <> "*"%byte -> p_greeting (b :: i) = RErr.
Proof. intros N. unfold p_greeting, delimited, bind. cbn [tag bs]. cbn. destruct (beq b "*"%byte) eqn:X; [apply beq_eq in X; contradiction | reflexivity]. Qed.
Lemma command_first b i : is_tag_char b = false -> p_command (b :: i) = RErr.
Proof. intros H. rewrite p_command_eq. unfold terminated, p_tag_imap, validated, expect, bind, take_while1. cbn [span]. now rewrite H. Qed.
End Words.
