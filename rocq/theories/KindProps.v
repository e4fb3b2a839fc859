(** C59: the kinds of messages cannot be confused. What one decoder accepts, the decoders of the
    other kinds refuse at once; the two exceptions (greetings are responses, DONE is base64) are exact. *)

From Verif Require Import Bytes BytesFacts Features Nom Types Utf8 Conv Base64 ParseCore ParseBody ParseCmd ParseResp Decode DecodeSpec ParserFacts DecodeFacts DecodeProps CaseProps ValueSpec Grammar GrammarProps CompleteProps ValueFacts RtCore KindFacts.
Open Scope nat_scope.

Section Kinds.
Context {F : features}.

Lemma tag_utf8 t : forallb is_tag_char t = true -> utf8_ok t = true.
Proof.
  intros H. apply FragFacts.utf8_ascii. rewrite forallb_forall in *. intros b I. specialize (H b I). destruct b; try discriminate H; reflexivity.
Qed.
Lemma tag_reads t x : tag_ok t = true -> p_tag_imap (t ++ bSP :: x) = ROk (bSP :: x) t.
Proof.
  intros H. assert (H' : forallb is_tag_char t = true) by (destruct t; [discriminate | exact H]).
  unfold p_tag_imap, validated, expect. unfold bind. unfold take_while1.
  rewrite (span_all is_tag_char t (bSP :: x) H') by (try discriminate; intros c r E; now injection E as <- _).
  destruct t as [| b t]; [discriminate |]. unfold str_of. now rewrite (tag_utf8 _ H'), H.
Qed.
Lemma star_refuses b i {A} (f : unit -> parser A) : b <> "*"%byte -> bind (tg "* ") f (b :: i) = RErr.
Proof. intros N. unfold bind. cbn. destruct (beq b "*"%byte) eqn:X; [apply beq_eq in X; contradiction | reflexivity]. Qed.
Lemma plus_refuses b i : b <> "+"%byte -> gate quirk_empty_continue_req (pmap RContinue p_empty_continue_req) (b :: i) = RErr /\
  pmap RContinue p_continue_req (b :: i) = RErr.
Proof.
  intros N. assert (X : beq b "+"%byte = false) by (destruct (beq b "+"%byte) eqn:X; [apply beq_eq in X; contradiction | reflexivity]). split.
  - unfold gate. destruct quirk_empty_continue_req; [| reflexivity]. unfold pmap, p_empty_continue_req, expect, value, bind. cbn. now rewrite X.
  - unfold pmap, p_continue_req, expect, bind. cbn. now rewrite X.
Qed.
Lemma response_not_plus b i : b <> "+"%byte -> p_response (b :: i) = alt [p_response_data; pmap RStatus p_response_done] (b :: i).
Proof. intros N. destruct (plus_refuses b i N) as [E1 E2]. unfold p_response. cbn [alt]. unfold orp. now rewrite E1, E2. Qed.
Lemma response_tag t x : tag_ok t = true -> p_response (t ++ bSP :: x) =
  match bind p_resp_cond_state (fun b => crlf ;;; ret (RStatus (StTagged t b))) x with RErr => RErr | r => r end.
Proof.
  intros H. destruct (tag_first t H) as (b & t' & Et & H1 & H2). destruct (tag_char b H1) as (_ & _ & _ & N1 & N2).
  assert (E : t ++ bSP :: x = b :: t' ++ bSP :: x) by (rewrite Et; reflexivity). rewrite E, response_not_plus by exact N2. rewrite <- E.
  cbn [alt]. unfold orp. assert (E1 : p_response_data (t ++ bSP :: x) = RErr) by (rewrite E; now apply star_refuses). rewrite E1.
  unfold pmap. unfold bind at 1. unfold p_response_done. cbn [alt]. unfold orp.
  assert (E2 : p_response_fatal (t ++ bSP :: x) = RErr).
  { rewrite E. unfold p_response_fatal, delimited. unfold bind at 1. now rewrite star_refuses. }
  rewrite E2. unfold p_response_tagged. unfold bind at 1. rewrite (tag_reads t x H). unfold bind, sp, char, sat. cbn.
  destruct (p_resp_cond_state x) as [r s | | | |]; try reflexivity. destruct (crlf r); reflexivity.
Qed.
Definition status_words : list bytes := [bs "OK "; bs "NO "; bs "BAD "].
Lemma leads_status : leads status_words p_resp_cond_state.
Proof. unfold p_resp_cond_state, status_words. begin_with. Qed.
Lemma strict_status : strict status_words p_resp_cond_state.
Proof. unfold p_resp_cond_state, status_words. begin_with. Qed.

(** ** Commands *)
Theorem C59_command : forall i rest c, decode_command i = Decoded rest c ->
  decode_response i = Error RspFailed /\ decode_greeting i = Error Failed /\
  decode_authenticate_data i = Error Failed /\ decode_idle_done i = Error Failed.
Proof.
  intros i rest c H. apply command_decoded, p_command_inv in H as (r1 & -> & T & B & _).
  destruct (tag_first _ T) as (b & t' & Et & H1 & H2). destruct (tag_char b H1) as (_ & _ & _ & N1 & N2).
  split; [| split; [| split]].
  - unfold decode_response. rewrite (response_tag _ r1 T). unfold bind. rewrite strict_status; [reflexivity |].
    destruct (leads_command _ _ _ B) as (w & I & Bg). intros k K. apply (begins_miss w); [exact Bg |].
    assert (M : forallb (fun k => forallb (miss k) command_words) status_words = true) by (vm_compute; reflexivity).
    rewrite forallb_forall in M. specialize (M k K). rewrite forallb_forall in M. now apply M.
  - unfold decode_greeting, simple_decode. rewrite Et. cbn [app]. now rewrite greeting_first.
  - unfold decode_authenticate_data, simple_decode. now rewrite auth_tag.
  - unfold decode_idle_done, simple_decode. now rewrite idle_tag.
Qed.

(** ** Responses *)
Lemma response_cases i rest r : p_response i = ROk rest r ->
  (exists x c, r = RContinue c /\ i = bs "+" ++ x /\ (exists y, x = bSP :: y \/ crlf x = ROk y tt)) \/
  (exists x, i = bs "* " ++ x /\ p_response_data i = ROk rest r) \/
  (exists t x b, r = RStatus (StTagged t b) /\ tag_ok t = true /\ i = t ++ bSP :: x /\ exists r', p_resp_cond_state x = ROk r' b) \/
  (exists x c t, r = RStatus (StBye c t) /\ i = bs "* " ++ x /\ exists r', p_resp_cond_bye x = ROk r' (c, t)).
Proof.
  unfold p_response. cbn [alt]. unfold orp. intros H.
  assert (TG : forall j r' u, tg "+" j = ROk r' u -> j = bs "+" ++ r').
  { intros j r' u X. destruct j as [| b j]; [discriminate |]. cbn in X. destruct (beq b "+"%byte) eqn:Y; [| discriminate].
    apply beq_eq in Y as ->. now injection X as <-. }
  assert (TS : forall j r' u, tg "* " j = ROk r' u -> j = bs "* " ++ r').
  { intros [| b [| c j]] r' u X; cbn in X; [discriminate | destruct (beq b "*"%byte); discriminate |].
    destruct (beq b "*"%byte) eqn:Y; [| discriminate]. destruct (beq c " "%byte) eqn:Z; [| discriminate].
    apply beq_eq in Y as ->. apply beq_eq in Z as ->. now injection X as <-. }
  destruct (gate quirk_empty_continue_req (pmap RContinue p_empty_continue_req) i) as [r1 a | | | |] eqn:E1; try discriminate.
  { injection H as -> ->. left. unfold gate in E1. destruct quirk_empty_continue_req; [| discriminate].
    unfold pmap, p_empty_continue_req, expect, value, bind in E1. destruct (tg "+" i) as [r2 u | | | |] eqn:X; try discriminate.
    apply TG in X as ->. destruct (crlf r2) as [r3 [] | | | |] eqn:Y; try discriminate. unfold ret in E1.
    destruct (basic_of _); [| discriminate]. injection E1 as <- <-. exists r2, c. repeat split. exists r3. now right. }
  destruct (pmap RContinue p_continue_req i) as [r1 a | | | |] eqn:E2; try discriminate.
  { injection H as -> ->. left. unfold pmap, p_continue_req, expect in E2. unfold bind at 1 2 3 in E2.
    destruct (tg "+ " i) as [r2 u | | | |] eqn:X; try discriminate.
    assert (Ei : i = bs "+ " ++ r2).
    { clear -X. destruct i as [| b [| c j]]; cbn in X; [discriminate | destruct (beq b "+"%byte); discriminate |].
      destruct (beq b "+"%byte) eqn:Y; [| discriminate]. destruct (beq c " "%byte) eqn:Z; [| discriminate].
      apply beq_eq in Y as ->. apply beq_eq in Z as ->. now injection X as <-. }
    subst i. destruct (bind _ _ r2) as [r3 e | | | |]; try discriminate. destruct (match e with inl d => _ | inr ct => _ end) as [c |]; [| discriminate].
    unfold ret in E2. injection E2 as <- <-. exists (bSP :: r2), c. repeat split. exists r2. now left. }
  destruct (p_response_data i) as [r1 a | | | |] eqn:E3; try discriminate.
  { injection H as -> ->. right; left. unfold p_response_data, delimited, bind in E3. destruct (tg "* " i) as [r2 u | | | |] eqn:X; try discriminate.
    apply TS in X as ->. now exists r2. }
  unfold pmap, bind in H. destruct (p_response_done i) as [r1 s | | | |] eqn:E4; try discriminate. unfold ret in H. injection H as -> <-.
  unfold p_response_done in E4. cbn [alt] in E4. unfold orp in E4. destruct (p_response_tagged i) as [r2 s2 | | | |] eqn:E5; try discriminate.
  - injection E4 as -> ->. right; right; left. unfold p_response_tagged, bind in E5.
    destruct (p_tag_imap i) as [r3 t | | | |] eqn:X; try discriminate. destruct (sp r3) as [r4 u | | | |] eqn:Y; try discriminate.
    destruct (p_resp_cond_state r4) as [r5 b | | | |] eqn:Z; try discriminate. destruct (crlf r5) as [r6 v | | | |]; try discriminate.
    unfold ret in E5. injection E5 as <- <-.
    assert (TT : terminated p_tag_imap sp i = ROk r4 t) by (unfold terminated, bind; rewrite X, Y; reflexivity).
    exists t, r4, b. split; [reflexivity |]. split; [exact (ok_post (ok_tag_sp (S (length i))) _ _ _ (Nat.lt_succ_diag_r _) TT) |].
    split; [now apply tag_sp_inv in TT | now exists r5].
  - right; right; right. unfold p_response_fatal, delimited, bind in E4. destruct (tg "* " i) as [r3 u | | | |] eqn:X; try discriminate.
    apply TS in X as ->. destruct (p_resp_cond_bye r3) as [r4 [c t] | | | |] eqn:Y; try discriminate.
    destruct (crlf r4); try discriminate. unfold ret in E4. injection E4 as <- <-. exists r3, c, t. repeat split. now exists r4.
Qed.
Lemma plus_auth x : (exists y, x = bSP :: y \/ crlf x = ROk y tt) -> p_authenticate_data (bs "+" ++ x) = RErr.
Proof.
  intros (y & H). assert (Z : exists b z, x = b :: z /\ (b = bSP \/ b = bCR \/ b = bLF)).
  { destruct H as [-> | H]; [exists bSP, y; split; auto |]. destruct x as [| b z].
    - exfalso. unfold crlf in H. destruct quirk_crlf_relaxed; discriminate.
    - exists b, z. split; [reflexivity |]. right. destruct (beq b bCR) eqn:X; [left; now apply beq_eq |].
      destruct (beq b bLF) eqn:Y; [right; now apply beq_eq |]. exfalso. rewrite crlf_miss in H; [discriminate | |]; intros ->; discriminate. }
  destruct Z as (b & z & -> & Hb). unfold p_authenticate_data. cbn [alt]. unfold orp.
  assert (E : terminated p_base64 crlf (bs "+" ++ b :: z) = RErr).
  { unfold terminated, p_base64, map_res, recognize, take_while. unfold bind at 1 2 3.
    assert (SP : span is_base64_char (bs "+" ++ b :: z) = Some (bs "+", b :: z)) by (destruct Hb as [-> | [-> | ->]]; reflexivity).
    rewrite SP. assert (O : opt (alt [tg "=="; tg "="]) (b :: z) = ROk (b :: z) None) by (destruct Hb as [-> | [-> | ->]]; reflexivity).
    rewrite O. rewrite app_length, Nat.add_sub. reflexivity. }
  unfold pmap. unfold bind at 1. rewrite E. reflexivity.
Qed.
Lemma base64_none i b z : i = b :: z -> is_base64_char b = false -> b <> "="%byte -> b <> bCR -> b <> bLF -> terminated p_base64 crlf i = RErr.
Proof.
  intros E N1 N2 N3 N4.
  assert (SP : span is_base64_char i = Some ([], i)) by (subst i; cbn; now rewrite N1).
  assert (O : opt (alt [tg "=="; tg "="]) i = ROk i None).
  { subst i. destruct (beq b "="%byte) eqn:X; [apply beq_eq in X; contradiction |]. unfold opt. cbn. unfold orp. now rewrite X. }
  assert (C : crlf i = RErr) by (subst i; now apply crlf_miss). clear E.
  unfold terminated, p_base64, map_res, recognize, take_while. unfold bind at 1 2 3. rewrite SP, O, Nat.sub_diag. cbn [firstn].
  destruct (b64_decode []); [| reflexivity]. unfold ret, bind. now rewrite C.
Qed.
Lemma star_auth x : p_authenticate_data (bs "* " ++ x) = RErr.
Proof.
  unfold p_authenticate_data. cbn [alt]. unfold orp, pmap. unfold bind at 1.
  rewrite (base64_none _ "*"%byte (bSP :: x)); try reflexivity; try discriminate. unfold bind.
  change (tg "*" (bs "* " ++ x)) with (ROk (bSP :: x) tt). cbv beta iota. now rewrite crlf_miss.
Qed.
Theorem C59_response : forall i rest r, decode_response i = Decoded rest r ->
  decode_command i = Error CmdFailed /\ decode_authenticate_data i = Error Failed /\ decode_idle_done i = Error Failed.
Proof.
  intros i rest r H. apply response_decoded, response_cases in H.
  unfold decode_command, decode_authenticate_data, decode_idle_done, simple_decode.
  assert (ST : forall x, i = bs "* " ++ x -> p_command i = RErr /\ p_authenticate_data i = RErr /\ p_idle_done i = RErr).
  { intros x ->. split; [now apply (command_first "*"%byte) |]. split; [apply star_auth | reflexivity]. }
  destruct H as [(x & c & -> & -> & Hx) | [(x & E & _) | [(t & x & b & -> & T & -> & r' & S) | (x & c & t & -> & E & _)]]].
  - rewrite plus_auth by exact Hx. assert (E : p_command (bs "+" ++ x) = RErr) by now apply (command_first "+"%byte). rewrite E.
    repeat split; reflexivity.
  - destruct (ST x E) as (-> & -> & ->). repeat split; reflexivity.
  - rewrite auth_tag, idle_tag by exact T. rewrite p_command_eq. unfold terminated. unfold bind. rewrite (tag_reads t x T).
    change (sp (bSP :: x)) with (ROk (A := byte) x bSP). cbv beta iota. unfold ret, pmap, bind.
    rewrite strict_command; [repeat split; reflexivity |]. destruct (leads_status _ _ _ S) as (w & I & Bg).
    intros k K. apply (begins_miss w); [exact Bg |].
    assert (M : forallb (fun k => forallb (miss k) status_words) command_words = true) by (vm_compute; reflexivity).
    rewrite forallb_forall in M. specialize (M k K). rewrite forallb_forall in M. now apply M.
  - destruct (ST x E) as (-> & -> & ->). repeat split; reflexivity.
Qed.

(** ** Greetings *)
(** An OK greeting and a BYE greeting are also responses, with the same code and text; a PREAUTH
    greeting is not a response. No greeting is anything else. *)
Definition as_response (g : greeting) : option response :=
  match gr_kind g with
  | GKOk => Some (RStatus (StUntagged (mkStatusBody SKOk (gr_code g) (gr_text g))))
  | GKBye => Some (RStatus (StBye (gr_code g) (gr_text g)))
  | GKPreAuth => None
  end.
Definition as_greeting (r : response) : option greeting :=
  match r with
  | RStatus (StUntagged (mkStatusBody SKOk c t)) => Some (mkGreeting GKOk c t)
  | RStatus (StBye c t) => Some (mkGreeting GKBye c t)
  | _ => None
  end.
Definition untagged : parser response :=
  alt [pmap (fun b => RStatus (StUntagged b)) p_resp_cond_state; pmap (fun ct => RStatus (StBye (fst ct) (snd ct))) p_resp_cond_bye; p_data].
Lemma response_data_eq x : p_response_data (bs "* " ++ x) = terminated untagged crlf x.
Proof. reflexivity. Qed.
Lemma greeting_eq x : p_greeting (bs "* " ++ x) =
  match terminated (alt [p_resp_cond_auth; pmap (fun ct => (GKBye, ct)) p_resp_cond_bye]) crlf x with
  | ROk r (k, (c, t)) => ROk r (mkGreeting k c t)
  | RInc => RInc | RErr => RErr | RFail e => RFail e | RPanic => RPanic
  end.
Proof.
  unfold p_greeting, delimited, terminated, bind. change (tg "* " (bs "* " ++ x)) with (ROk x tt). cbv beta iota.
  destruct (alt _ x) as [r [k [c t]] | | | |]; try reflexivity. destruct (crlf r); reflexivity.
Qed.
Lemma response_star x : p_response (bs "* " ++ x) = match p_response_data (bs "* " ++ x) with
  | RErr => pmap RStatus p_response_fatal (bs "* " ++ x) | r => r end.
Proof.
  change (bs "* " ++ x) with ("*"%byte :: bSP :: x). rewrite response_not_plus by discriminate. cbn [alt]. unfold orp.
  destruct (p_response_data _); try reflexivity.
Qed.
Lemma fatal_star x : pmap RStatus p_response_fatal (bs "* " ++ x) = match p_resp_cond_bye x with
  | ROk r ct => match crlf r with ROk r' _ => ROk r' (RStatus (StBye (fst ct) (snd ct))) | RInc => RInc | RErr => RErr | RFail e => RFail e | RPanic => RPanic end
  | RInc => RInc | RErr => RErr | RFail e => RFail e | RPanic => RPanic end.
Proof.
  unfold p_response_fatal, delimited, pmap, bind. change (tg "* " (bs "* " ++ x)) with (ROk x tt). cbv beta iota.
  destruct (p_resp_cond_bye x) as [r [c t] | | | |]; try reflexivity. destruct (crlf r); reflexivity.
Qed.
Lemma miss_all (ws : list bytes) w i : begins w i -> forallb (fun k => miss k w) ws = true -> forall k, In k ws -> tag_no_case k i = RErr.
Proof. intros B M k K. rewrite forallb_forall in M. apply (begins_miss w _ _ B). now apply M. Qed.
Lemma strict_bye : strict [bs "BYE "] p_resp_cond_bye.
Proof. unfold p_resp_cond_bye. begin_with. Qed.
Lemma strict_auth : strict [bs "OK "; bs "PREAUTH "] p_resp_cond_auth.
Proof. unfold p_resp_cond_auth. begin_with. Qed.
Lemma greeting_inv i rest g : p_greeting i = ROk rest g -> exists x y z, i = bs "* " ++ x /\
  tag_no_case (match gr_kind g with GKOk => bs "OK " | GKPreAuth => bs "PREAUTH " | GKBye => bs "BYE " end) x = ROk y tt /\
  p_resp_text y = ROk z (gr_code g, gr_text g) /\ crlf z = ROk rest tt.
Proof.
  intros H. unfold p_greeting, delimited, bind in H. destruct (tg "* " i) as [x u | | | |] eqn:X; try discriminate.
  assert (Ei : i = bs "* " ++ x).
  { clear -X. destruct i as [| b [| c j]]; cbn in X; [discriminate | destruct (beq b "*"%byte); discriminate |].
    destruct (beq b "*"%byte) eqn:Y; [| discriminate]. destruct (beq c " "%byte) eqn:Z; [| discriminate].
    apply beq_eq in Y as ->. apply beq_eq in Z as ->. now injection X as <-. }
  exists x. destruct (alt _ x) as [z [k [c t]] | | | |] eqn:A; try discriminate.
  destruct (crlf z) as [r [] | | | |] eqn:C; try discriminate. unfold ret in H. injection H as <- <-. cbn [gr_kind gr_code gr_text].
  cbn [alt] in A. unfold orp in A. destruct (p_resp_cond_auth x) as [r1 a1 | | | |] eqn:P; try discriminate.
  - injection A as -> ->. unfold p_resp_cond_auth, bind in P. cbn [alt] in P. unfold orp, value, bind, ret in P.
    destruct (kw "OK " x) as [y [] | | | |] eqn:K1; try discriminate.
    + destruct (p_resp_text y) as [z' ct | | | |] eqn:T; try discriminate. injection P as <- <- <-. exists y, z'. auto.
    + destruct (kw "PREAUTH " x) as [y [] | | | |] eqn:K2; try discriminate.
      destruct (p_resp_text y) as [z' ct | | | |] eqn:T; try discriminate. injection P as <- <- <-. exists y, z'. auto.
  - unfold pmap, p_resp_cond_bye, bind, ret in A. destruct (kw "BYE " x) as [y [] | | | |] eqn:K; try discriminate.
    destruct (p_resp_text y) as [z' ct | | | |] eqn:T; try discriminate. injection A as <- <- <-. exists y, z'. auto.
Qed.
Theorem C59_greeting : forall i rest g, decode_greeting i = Decoded rest g ->
  decode_response i = match as_response g with Some r => Decoded rest r | None => Error RspFailed end /\
  decode_command i = Error CmdFailed /\ decode_authenticate_data i = Error Failed /\ decode_idle_done i = Error Failed.
Proof.
  intros i rest g H. apply simple_decoded in H. destruct (greeting_inv _ _ _ H) as (x & y & z & -> & K & T & C).
  split; [| unfold decode_command, decode_authenticate_data, decode_idle_done, simple_decode].
  2:{ assert (E : p_command (bs "* " ++ x) = RErr) by now apply (command_first "*"%byte). rewrite E, star_auth. repeat split; reflexivity. }
  unfold decode_response. rewrite response_star, response_data_eq. unfold as_response. destruct g as [k c t]. cbn [gr_kind gr_code gr_text] in *.
  destruct k.
  - unfold terminated, untagged, bind. cbn [alt]. unfold orp, pmap, p_resp_cond_state, bind, value. cbn [alt]. unfold orp, bind, ret.
    rewrite K, T. cbv beta iota. now rewrite C.
  - pose proof (kw_begins _ _ _ _ K) as B.
    assert (U : untagged x = RErr).
    { unfold untagged. cbn [alt]. unfold orp, pmap, bind.
      rewrite strict_status by (apply (miss_all _ _ _ B); reflexivity).
      rewrite strict_bye by (apply (miss_all _ _ _ B); reflexivity).
      apply strict_data. apply (miss_all _ _ _ B); reflexivity. }
    unfold terminated, bind. rewrite U, fatal_star. rewrite strict_bye by (apply (miss_all _ _ _ B); reflexivity). reflexivity.
  - pose proof (kw_begins _ _ _ _ K) as B.
    assert (U : untagged x = ROk z (RStatus (StBye c t))).
    { unfold untagged. cbn [alt]. unfold orp. unfold pmap at 1. unfold bind at 1.
      rewrite strict_status by (apply (miss_all _ _ _ B); reflexivity).
      unfold pmap, p_resp_cond_bye, bind. rewrite K, T. reflexivity. }
    unfold terminated, bind. rewrite U, C. reflexivity.
Qed.
(** And the other way round: a response is a greeting exactly if it is an untagged OK or a BYE. *)
Theorem C59_response_greeting : forall i rest r, decode_response i = Decoded rest r ->
  decode_greeting i = match as_greeting r with Some g => Decoded rest g | None => Error Failed end.
Proof.
  intros i rest r H. apply response_decoded in H. pose proof (response_cases _ _ _ H) as C. unfold decode_greeting, simple_decode.
  destruct C as [(x & c & -> & -> & Hx) | [(x & -> & D) | [(t & x & b & -> & T & -> & r' & S) | (x & c & t & -> & -> & r' & B)]]].
  - assert (E : p_greeting (bs "+" ++ x) = RErr) by (apply (greeting_first "+"%byte); discriminate). rewrite E. reflexivity.
  - rewrite response_data_eq in D. unfold terminated, bind in D. destruct (untagged x) as [z u | | | |] eqn:U; try discriminate.
    destruct (crlf z) as [r' [] | | | |] eqn:C; try discriminate. unfold ret in D. injection D as -> ->.
    rewrite greeting_eq. unfold untagged in U. cbn [alt] in U. unfold orp in U.
    destruct (pmap (fun b => RStatus (StUntagged b)) p_resp_cond_state x) as [z1 u1 | | | |] eqn:P1; try discriminate.
    + injection U as -> ->. unfold pmap, p_resp_cond_state, bind in P1. cbn [alt] in P1. unfold orp, value, bind, ret in P1.
      destruct (kw "OK " x) as [y [] | | | |] eqn:K1; try discriminate.
      * destruct (p_resp_text y) as [z2 [c t] | | | |] eqn:T; try discriminate. injection P1 as <- <-. cbn [as_greeting].
        unfold terminated, bind. cbn [alt]. unfold orp, p_resp_cond_auth, bind. cbn [alt]. unfold orp, value, bind, ret. rewrite K1, T. cbv beta iota. now rewrite C.
      * assert (N : exists w, In w [bs "NO "; bs "BAD "] /\ begins w x).
        { destruct (kw "NO " x) as [y [] | | | |] eqn:K2; try discriminate; [exists (bs "NO "); split; [cbn; tauto | now apply kw_begins in K2] |].
          destruct (kw "BAD " x) as [y [] | | | |] eqn:K3; try discriminate. exists (bs "BAD "); split; [cbn; tauto | now apply kw_begins in K3]. }
        destruct N as (w & I & B).
        assert (E : alt [p_resp_cond_auth; pmap (fun ct => (GKBye, ct)) p_resp_cond_bye] x = RErr).
        { cbn [alt]. unfold orp. rewrite strict_auth by (apply (miss_all _ w _ B); destruct I as [<- | [<- | []]]; reflexivity).
          unfold pmap, bind. now rewrite strict_bye by (apply (miss_all _ w _ B); destruct I as [<- | [<- | []]]; reflexivity). }
        unfold terminated, bind. rewrite E. destruct (kw "NO " x) as [y [] | | | |]; try discriminate.
        -- destruct (p_resp_text y) as [z2 [c t] | | | |]; try discriminate. injection P1 as <- <-. reflexivity.
        -- destruct (kw "BAD " x) as [y [] | | | |]; try discriminate.
           destruct (p_resp_text y) as [z2 [c t] | | | |]; try discriminate. injection P1 as <- <-. reflexivity.
    + destruct (pmap (fun ct => RStatus (StBye (fst ct) (snd ct))) p_resp_cond_bye x) as [z1 u1 | | | |] eqn:P2; try discriminate.
      * injection U as -> ->. unfold pmap, bind in P2. destruct (p_resp_cond_bye x) as [z2 [c t] | | | |] eqn:P3; try discriminate.
        unfold ret in P2. injection P2 as <- <-. cbn [as_greeting fst snd].
        assert (B : begins (bs "BYE ") x).
        { unfold p_resp_cond_bye, bind in P3. destruct (kw "BYE " x) as [y [] | | | |] eqn:K; try discriminate. now apply kw_begins in K. }
        unfold terminated, bind. cbn [alt]. unfold orp. rewrite strict_auth by (apply (miss_all _ _ _ B); reflexivity).
        unfold pmap, bind. rewrite P3. cbv beta iota. unfold ret. now rewrite C.
      * destruct (leads_data _ _ _ U) as (w & I & B).
        assert (M : forallb (fun k => miss k w) [bs "OK "; bs "PREAUTH "; bs "BYE "] = true).
        { assert (M : forallb (fun w => forallb (fun k => miss k w) [bs "OK "; bs "PREAUTH "; bs "BYE "]) data_words = true) by (vm_compute; reflexivity).
          rewrite forallb_forall in M. now apply M. }
        assert (E : alt [p_resp_cond_auth; pmap (fun ct => (GKBye, ct)) p_resp_cond_bye] x = RErr).
        { cbn [alt]. unfold orp. rewrite strict_auth by (intros k K; apply (miss_all _ w _ B M); cbn in K |- *; tauto).
          unfold pmap, bind. now rewrite strict_bye by (intros k K; apply (miss_all _ w _ B M); cbn in K |- *; tauto). }
        unfold terminated, bind. rewrite E.
        assert (D : exists d, r = RData d).
        { unfold p_data in U. cbn [alt] in U. unfold orp in U.
          repeat match type of U with
                 | context [match pmap ?f ?p ?i with _ => _ end] => destruct (pmap f p i) eqn:?; try discriminate
                 end; [injection U as <- <- .. |].
          all: match goal with
               | X : pmap _ _ _ = ROk _ _ |- _ => unfold pmap, bind, ret in X; match type of X with context [match ?y with _ => _ end] => destruct y; try discriminate end; injection X as <- <-; eauto
               | X : gate _ _ _ = ROk _ _ |- _ => unfold gate, pmap, bind, ret in X; destruct ext_id; [| discriminate]; match type of X with context [match ?y with _ => _ end] => destruct y; try discriminate end; injection X as <- <-; eauto
               end. }
        destruct D as (d & ->). reflexivity.
  - destruct (tag_first t T) as (b' & t' & Et & H1 & _). destruct (tag_char b' H1) as (_ & _ & _ & N1 & _).
    assert (E : p_greeting (t ++ bSP :: x) = RErr) by (rewrite Et; now apply greeting_first). now rewrite E.
  - (* the alternative for a final BYE: the same sentence is read earlier *)
    assert (Bg : begins (bs "BYE ") x).
    { unfold p_resp_cond_bye, bind in B. destruct (kw "BYE " x) as [y [] | | | |] eqn:K; try discriminate. now apply kw_begins in K. }
    assert (C : crlf r' = ROk rest tt).
    { rewrite response_star, response_data_eq in H. unfold terminated, untagged, bind in H. cbn [alt] in H. unfold orp in H. unfold pmap at 1 in H. unfold bind at 1 in H.
      rewrite strict_status in H by (apply (miss_all _ _ _ Bg); reflexivity). unfold pmap at 1 in H. unfold bind at 1 in H. rewrite B in H. unfold ret in H.
      rewrite fatal_star, B in H. destruct (crlf r') as [r2 [] | | | |]; try discriminate. now injection H as <-. }
    rewrite greeting_eq. unfold terminated, bind. cbn [alt as_greeting]. unfold orp. rewrite strict_auth by (apply (miss_all _ _ _ Bg); reflexivity).
    unfold pmap, bind. rewrite B. unfold ret. now rewrite C.
Qed.

(** ** Authenticate data *)
Definition is_line_end (b : byte) : bool := beq b bCR || beq b bLF.
Definition b64_or_pad (b : byte) : bool := is_base64_char b || beq b "="%byte.
Lemma crlf_first i r u : crlf i = ROk r u -> exists c z, i = c :: z /\ is_line_end c = true.
Proof.
  destruct i as [| c z]; intros H; [unfold crlf in H; destruct quirk_crlf_relaxed; discriminate |].
  exists c, z. split; [reflexivity |]. unfold is_line_end. destruct (beq c bCR) eqn:X; [reflexivity |]. destruct (beq c bLF) eqn:Y; [reflexivity |].
  rewrite crlf_miss in H; [discriminate | |]; intros ->; discriminate.
Qed.
Lemma auth_shape i rest a : decode_authenticate_data i = Decoded rest a -> exists w c z, i = w ++ c :: z /\ is_line_end c = true /\
  (w = bs "*" \/ forallb b64_or_pad w = true /\ w <> bs "+").
Proof.
  intros H. apply C44_authenticate_data in H as (t & -> & G).
  assert (E : forall e, eol e -> exists c z, e = c :: z /\ is_line_end c = true) by (intros e [-> | [_ ->]]; eexists _, _; split; reflexivity).
  destruct G as [t p e B Ee | e Ee]; destruct (E e Ee) as (c & z & -> & L).
  - exists t, c, (z ++ rest). rewrite <- app_assoc. split; [reflexivity |]. split; [exact L |]. right. apply base64_spec in B. split.
    + apply b64_decode_encode in B as ->. destruct (b64_shape p) as (x & pad & -> & X & Y). rewrite forallb_app. apply andb_true_iff. split.
      * rewrite forallb_forall in *. intros b I. unfold b64_or_pad. now rewrite (X b I).
      * destruct Y as [-> | [-> | ->]]; reflexivity.
    + intros ->. discriminate.
  - exists (bs "*"), c, (z ++ rest). rewrite <- app_assoc. auto.
Qed.
Lemma line_end_not_tag c : is_line_end c = true -> is_tag_char c = false /\ c <> bSP /\ c <> "*"%byte /\ c <> "+"%byte.
Proof. destruct c; intros H; try discriminate H; repeat split; try reflexivity; discriminate. Qed.
Lemma span_b64 w c z : forallb b64_or_pad w = true -> is_line_end c = true ->
  exists a d y, span is_tag_char (w ++ c :: z) = Some (a, d :: y) /\ forallb is_tag_char a = true /\ d <> bSP.
Proof.
  intros W L. induction w as [| b w IH].
  - destruct (line_end_not_tag c L) as (T & N & _). exists [], c, z. split; [cbn; now rewrite T | split; [reflexivity | exact N]].
  - cbn [forallb] in W. apply andb_true_iff in W as [B W]. destruct (IH W) as (a & d & y & S & Ha & N). cbn [app span].
    destruct (is_tag_char b) eqn:T.
    + exists (b :: a), d, y. split; [now rewrite S | split; [cbn; now rewrite T | exact N]].
    + exists [], b, (w ++ c :: z). repeat split. intros ->. discriminate B.
Qed.
Lemma tag_b64 w c z : forallb b64_or_pad w = true -> is_line_end c = true -> terminated p_tag_imap sp (w ++ c :: z) = RErr.
Proof.
  intros W L. destruct (span_b64 w c z W L) as (a & d & y & S & Ha & N). unfold terminated, p_tag_imap, validated, expect, bind, take_while1. rewrite S.
  destruct a as [| b a]; [reflexivity |]. unfold str_of. rewrite (tag_utf8 _ Ha). change (tag_ok (b :: a)) with (forallb is_tag_char (b :: a)). rewrite Ha.
  unfold ret. cbv beta iota. unfold sp, char. destruct (beq d bSP) eqn:X; [apply beq_eq in X; contradiction |]. cbn. now rewrite X.
Qed.
Lemma tagged_none i : terminated p_tag_imap sp i = RErr -> p_response_tagged i = RErr.
Proof.
  unfold terminated, p_response_tagged, bind. destruct (p_tag_imap i) as [r t | | | |]; try discriminate; [| reflexivity].
  destruct (sp r); try discriminate. reflexivity.
Qed.
Lemma response_none b i : b <> "+"%byte -> b <> "*"%byte -> terminated p_tag_imap sp (b :: i) = RErr -> p_response (b :: i) = RErr.
Proof.
  intros N1 N2 H. rewrite response_not_plus by exact N1. cbn [alt]. unfold orp.
  assert (E1 : p_response_data (b :: i) = RErr) by now apply star_refuses. rewrite E1.
  unfold pmap, p_response_done, bind. cbn [alt]. unfold orp. rewrite (tagged_none _ H).
  assert (E2 : p_response_fatal (b :: i) = RErr) by (unfold p_response_fatal, delimited; unfold bind at 1; now rewrite star_refuses). now rewrite E2.
Qed.
Lemma response_plus b i : b <> bSP -> is_line_end b = false -> p_response ("+"%byte :: b :: i) = RErr.
Proof.
  intros N L. unfold p_response. cbn [alt]. unfold orp.
  assert (C : crlf (b :: i) = RErr) by (apply crlf_miss; intros ->; discriminate).
  assert (E1 : gate quirk_empty_continue_req (pmap RContinue p_empty_continue_req) ("+"%byte :: b :: i) = RErr).
  { unfold gate. destruct quirk_empty_continue_req; [| reflexivity]. unfold pmap, p_empty_continue_req, expect, value, bind.
    change (tg "+" ("+"%byte :: b :: i)) with (ROk (b :: i) tt). cbv beta iota. now rewrite C. }
  assert (E2 : pmap RContinue p_continue_req ("+"%byte :: b :: i) = RErr).
  { unfold pmap, p_continue_req, expect, bind. cbn. destruct (beq b " "%byte) eqn:X; [apply beq_eq in X; contradiction | reflexivity]. }
  rewrite E1, E2.
  assert (E3 : p_response_data ("+"%byte :: b :: i) = RErr) by now apply star_refuses. rewrite E3.
  unfold pmap, p_response_done, bind. cbn [alt]. unfold orp.
  assert (T : p_response_tagged ("+"%byte :: b :: i) = RErr) by reflexivity. rewrite T.
  assert (E4 : p_response_fatal ("+"%byte :: b :: i) = RErr) by (unfold p_response_fatal, delimited; unfold bind at 1; now rewrite star_refuses). now rewrite E4.
Qed.
Theorem C59_authenticate_data : forall i rest a, decode_authenticate_data i = Decoded rest a ->
  decode_command i = Error CmdFailed /\ decode_response i = Error RspFailed /\ decode_greeting i = Error Failed.
Proof.
  intros i rest a H. destruct (auth_shape _ _ _ H) as (w & c & z & -> & L & D).
  destruct (line_end_not_tag c L) as (Nt & Ns & Na & Np). unfold decode_command, decode_response, decode_greeting, simple_decode.
  destruct D as [-> | [W N]].
  - change (bs "*" ++ c :: z) with ("*"%byte :: c :: z).
    assert (R : forall A (f : unit -> parser A), bind (tg "* ") f ("*"%byte :: c :: z) = RErr).
    { intros A f. unfold bind. cbn. destruct (beq c " "%byte) eqn:X; [apply beq_eq in X; contradiction | reflexivity]. }
    rewrite command_first by reflexivity. split; [reflexivity |]. split.
    + rewrite response_not_plus by discriminate. cbn [alt]. unfold orp.
      assert (E1 : p_response_data ("*"%byte :: c :: z) = RErr) by apply R. rewrite E1.
      unfold pmap. unfold bind at 1. unfold p_response_done. cbn [alt]. unfold orp.
      assert (E2 : p_response_tagged ("*"%byte :: c :: z) = RErr) by reflexivity. rewrite E2.
      assert (E3 : p_response_fatal ("*"%byte :: c :: z) = RErr) by (unfold p_response_fatal, delimited; unfold bind at 1; now rewrite R). now rewrite E3.
    + unfold p_greeting, delimited. unfold bind at 1. now rewrite R.
  - pose proof (tag_b64 w c z W L) as T. rewrite p_command_eq, T. split; [reflexivity |].
    destruct w as [| b w].
    + cbn [app] in *. rewrite response_none by assumption. rewrite greeting_first by exact Na. split; reflexivity.
    + cbn [app] in *. cbn [forallb] in W. apply andb_true_iff in W as [B W].
      assert (Bs : b <> "*"%byte) by (intros ->; discriminate B). rewrite greeting_first by exact Bs. split; [| reflexivity].
      destruct (beq b "+"%byte) eqn:X.
      * apply beq_eq in X as ->. destruct w as [| b' w]; [contradiction |]. cbn [forallb] in W. apply andb_true_iff in W as [B' W]. cbn [app].
        rewrite response_plus; [reflexivity | intros ->; discriminate B' | destruct b'; try reflexivity; discriminate B'].
      * rewrite response_none; [reflexivity | intros ->; discriminate X | exact Bs | exact T].
Qed.
(** Every line that ends IDLE is also authenticate data, of three bytes. So a server that did not know
    which of the two it waits for could not tell them apart. *)
Theorem C59_idle_done : forall i rest u, decode_idle_done i = Decoded rest u ->
  (exists a b c, decode_authenticate_data i = Decoded rest (ADContinue [a; b; c])) /\
  decode_command i = Error CmdFailed /\ decode_response i = Error RspFailed /\ decode_greeting i = Error Failed.
Proof.
  intros i rest u H.
  assert (A : exists a b c, decode_authenticate_data i = Decoded rest (ADContinue [a; b; c])).
  { apply C44_idle_done in H as (t & -> & [k e K E]).
    assert (D : exists a b c, b64_decode k = Some [a; b; c]).
    { apply same_letters_spec in K. destruct k as [| a [| b [| c [| d [|]]]]]; try discriminate K. cbn in K. injection K as Ka Kb Kc Kd.
      assert (Ha : a = "D"%byte \/ a = "d"%byte) by (clear -Ka; destruct a; try discriminate Ka; auto).
      assert (Hb : b = "O"%byte \/ b = "o"%byte) by (clear -Kb; destruct b; try discriminate Kb; auto).
      assert (Hc : c = "N"%byte \/ c = "n"%byte) by (clear -Kc; destruct c; try discriminate Kc; auto).
      assert (Hd : d = "E"%byte \/ d = "e"%byte) by (clear -Kd; destruct d; try discriminate Kd; auto).
      clear -Ha Hb Hc Hd. destruct Ha, Hb, Hc, Hd; subst; eexists _, _, _; reflexivity. }
    destruct D as (a & b & c & D). exists a, b, c. apply C45_authenticate_data. constructor; [now apply base64_spec | exact E]. }
  split; [exact A |]. destruct A as (a & b & c & A). exact (C59_authenticate_data _ _ _ A).
Qed.
Lemma kw_inc w i : tag_no_case w i = RInc -> ~ In bLF (map lower w) -> ~ In bLF i.
Proof.
  revert i. induction w as [| k w IH]; intros i H N; [discriminate |]. destruct i as [| b i]; [now intros [] |].
  cbn [tag_no_case] in H. destruct (beq (lower b) (lower k)) eqn:X; [| discriminate]. apply beq_eq in X. intros [-> | I].
  - apply N. left. now rewrite <- X.
  - apply (IH i H); [| exact I]. intros J. apply N. now right.
Qed.
Lemma kw_parts w i r : tag_no_case w i = ROk r tt -> ~ In bLF (map lower w) -> In bLF i -> In bLF r.
Proof.
  revert i. induction w as [| k w IH]; intros i H N I; [injection H as <-; exact I |]. destruct i as [| b i]; [discriminate |].
  cbn [tag_no_case] in H. destruct (beq (lower b) (lower k)) eqn:X; [| discriminate]. apply beq_eq in X. destruct I as [-> | I].
  - exfalso. apply N. left. now rewrite <- X.
  - apply (IH i H); [| exact I]. intros J. apply N. now right.
Qed.
Lemma crlf_inc i : crlf i = RInc -> ~ In bLF i.
Proof.
  destruct i as [| b [| c i]]; intros H.
  - intros [].
  - intros [-> | []]. unfold crlf in H. destruct quirk_crlf_relaxed; discriminate.
  - exfalso. unfold crlf in H. destruct quirk_crlf_relaxed.
    + unfold bind, opt, char in H. destruct (beq b bCR) eqn:X; cbn in H; rewrite ?X in H; cbn in H.
      * destruct (beq c bLF) eqn:Y; cbn in H; rewrite ?Y in H; discriminate.
      * destruct (beq b bLF) eqn:Y; cbn in H; rewrite ?Y in H; discriminate.
    + cbn [tag] in H. destruct (beq b bCR); [| discriminate]. destruct (beq c bLF); discriminate.
Qed.
(** Other authenticate data does not end IDLE. *)
Theorem C59_authenticate_data_idle : forall i rest a, decode_authenticate_data i = Decoded rest a ->
  decode_idle_done i = Decoded rest tt \/ decode_idle_done i = Error Failed.
Proof.
  intros i rest a H. destruct (decode_idle_done i) as [r [] | [|] |] eqn:E.
  - destruct (C59_idle_done _ _ _ E) as ((x & y & z & A) & _). rewrite H in A. injection A as <- _. now left.
  - exfalso. apply simple_decoded, to_lf_p_authenticate_data in H as (c & ->).
    assert (I : In bLF (c ++ bLF :: rest)) by (apply in_or_app; right; now left).
    unfold decode_idle_done, simple_decode in E. destruct (p_idle_done (c ++ bLF :: rest)) eqn:P; try discriminate.
    unfold p_idle_done, bind in P. destruct (kw "DONE" (c ++ bLF :: rest)) as [r [] | | | |] eqn:K; try discriminate.
    + apply (kw_parts _ _ _ K) in I; [| cbn; intuition discriminate]. destruct (crlf r) eqn:Y; try discriminate. now apply crlf_inc in Y.
    + revert I. apply (kw_inc _ _ K). cbn. intuition discriminate.
  - now right.
  - exfalso. now apply (C20_no_panic i) in E.
Qed.
End Kinds.

(** ** Cases that meet the hypotheses *)
Example ex_command : decode_command (F := default_features) (bs "a1 noop" ++ [bCR; bLF]) = Decoded [] (mkCommand (bs "a1") CNoop).
Proof. vm_compute. reflexivity. Qed.
Example ex_response : decode_response (F := default_features) (bs "* 3 EXISTS" ++ [bCR; bLF]) = Decoded [] (RData (DExists 3)).
Proof. vm_compute. reflexivity. Qed.
Example ex_greeting : decode_greeting (F := default_features) (bs "* BYE shutting down" ++ [bCR; bLF]) = Decoded [] (mkGreeting GKBye None (bs "shutting down")) /\
  decode_response (F := default_features) (bs "* BYE shutting down" ++ [bCR; bLF]) = Decoded [] (RStatus (StBye None (bs "shutting down"))).
Proof. split; vm_compute; reflexivity. Qed.
Example ex_preauth : decode_greeting (F := default_features) (bs "* PREAUTH hello" ++ [bCR; bLF]) = Decoded [] (mkGreeting GKPreAuth None (bs "hello")) /\
  decode_response (F := default_features) (bs "* PREAUTH hello" ++ [bCR; bLF]) = Error RspFailed.
Proof. split; vm_compute; reflexivity. Qed.
Example ex_auth : decode_authenticate_data (F := default_features) (bs "DONE" ++ [bCR; bLF]) = Decoded [] (ADContinue [x0c; xe3; x44]) /\
  decode_idle_done (F := default_features) (bs "DONE" ++ [bCR; bLF]) = Decoded [] tt.
Proof. split; vm_compute; reflexivity. Qed.
Print Assumptions C59_command.
Print Assumptions C59_response.
Print Assumptions C59_greeting.
Print Assumptions C59_response_greeting.
Print Assumptions C59_authenticate_data.
Print Assumptions C59_authenticate_data_idle.
Print Assumptions C59_idle_done.
