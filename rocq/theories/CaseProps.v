(** C36: the letter case of the input.

    [same_letters a b] (ValueSpec.v): [a] and [b] differ at most in the case of letters.
    Two messages are equal up to case ([same_command] and so on) if they become equal when every
    string in them is written in lower case (Traverse.v); keywords, flags of the system, numbers, dates
    and structure are then the same. Nothing in the decoders depends on letter case except base64 data,
    which only AUTHENTICATE commands, continuation requests and authenticate data contain. *)

From Verif Require Import Bytes BytesFacts Dec Features Nom Types Utf8 Conv ParseCore ParseCmd ParseResp Decode DecodeFacts ValueSpec ValueFacts
  Valid Traverse SoundTac CaseFacts CaseParse CaseName.
Open Scope nat_scope.

Definition keep (m : lit_mode) : lit_mode := m.
Definition same_command (c c' : command) : Prop := x_command lower keep c = x_command lower keep c'.
Definition same_response (r r' : response) : Prop := x_response lower keep r = x_response lower keep r'.
Definition same_greeting (g g' : greeting) : Prop := x_greeting lower g = x_greeting lower g'.
Definition same_command_error (e e' : command_error) : Prop :=
  match e, e' with
  | CmdIncomplete, CmdIncomplete | CmdFailed, CmdFailed => True
  | CmdLiteralFound t n m, CmdLiteralFound t' n' m' => same_letters t t' /\ n = n' /\ m = m'
  | _, _ => False
  end.
(** Both decode, with what is left over and the values equal up to case, or both report the same error. *)
Definition alike {E A} (same_error : E -> E -> Prop) (same_value : A -> A -> Prop) (o o' : outcome E A) : Prop :=
  match o, o' with
  | Decoded r a, Decoded r' a' => same_letters r r' /\ same_value a a'
  | Error e, Error e' => same_error e e'
  | Panic, Panic => True
  | _, _ => False
  end.
(** A tag, a space and the word AUTHENTICATE followed by a space *)
Definition is_authenticate (i : bytes) : Prop :=
  exists t k r, i = t ++ bs " " ++ k ++ r /\ ~ In bSP t /\ same_letters k (bs "AUTHENTICATE ").
(** ALPHA = %x41-5A / %x61-7A *)
Definition ALPHA (b : byte) : Prop := (0x41 <= bN b <= 0x5A \/ 0x61 <= bN b <= 0x7A)%N.
Definition is_continuation (i : bytes) : Prop := exists r, i = bs "+" ++ r.

Section Case.
Context {F : features}.

Lemma rmap_eq {A B} (h : A -> B) (r r' : res A) : rmap h r = rmap h r' ->
  match r, r' with
  | ROk s a, ROk s' a' => same_letters s s' /\ h a = h a'
  | RInc, RInc | RErr, RErr | RPanic, RPanic | RFail FOther, RFail FOther => True
  | RFail (FLit t n m), RFail (FLit t' n' m') => option_map lowers t = option_map lowers t' /\ n = n' /\ m = m'
  | _, _ => False
  end.
Proof.
  intros H. destruct r as [s a | | | [t n m |] |], r' as [s' a' | | | [t' n' m' |] |]; try discriminate; try exact I.
  - cbn [rmap] in H. injection H as H1 H2. split; [| exact H2]. now apply same_letters_spec.
  - cbn [rmap low_fail] in H. injection H as H1 H2 H3. repeat split; assumption.
Qed.
Lemma authenticate_same i i' : same_letters i i' -> is_authenticate i -> is_authenticate i'.
Proof.
  intros S (t & k & r & -> & T & K). apply Forall2_app_inv_l in S as (t' & x & S1 & S & ->).
  apply Forall2_app_inv_l in S as (sp' & x' & S2 & S & ->). apply Forall2_app_inv_l in S as (k' & r' & S3 & S4 & ->).
  exists t', k', r'. apply same_letters_spec in S2. destruct sp' as [| b [| ? ?]]; try discriminate.
  assert (b = bSP) as ->. { injection S2 as S2. clear - S2. destruct b; try discriminate; reflexivity. }
  split; [reflexivity |]. split.
  - intros I. apply T. clear - S1 I. induction S1 as [| a b t t' E S IH]; [contradiction |]. destruct I as [-> | I]; [left | right; auto].
    apply same_letter_spec in E. clear - E. destruct a; try discriminate; reflexivity.
  - apply same_letters_spec. apply same_letters_spec in S3, K. congruence.
Qed.
Lemma not_authenticate i : ~ is_authenticate i -> forall t r, terminated p_tag_imap sp i = ROk r t -> ~ authenticates r.
Proof.
  intros N t r H [r' A]. apply N. pose proof (tag_sp_inv _ _ _ H) as ->. apply kw_inv in A as (k & -> & A).
  exists t, k, r'. split; [reflexivity |]. split; [| exact A].
  pose proof (okk_post (fun k => ok_tag_sp k) _ _ _ H) as O. intros I. unfold Conv.tag_ok in O. destruct t as [| b t]; [contradiction |].
  rewrite forallb_forall in O. specialize (O _ I). discriminate.
Qed.
Theorem C36_command : forall i i', same_letters i i' -> ~ is_authenticate i ->
  alike same_command_error same_command (decode_command i) (decode_command i').
Proof.
  intros i i' S N.
  assert (N' : ~ is_authenticate i').
  { intros A. apply N. eapply authenticate_same; [| exact A]. apply same_letters_spec. apply same_letters_spec in S. congruence. }
  pose proof (ci_command i (not_authenticate i N)) as C. pose proof (ci_command i' (not_authenticate i' N')) as C'.
  unfold ci_at in *. apply same_letters_spec in S. rewrite S, C' in C. apply eq_sym, rmap_eq in C. unfold decode_command.
  destruct (p_command i) as [s a | | | [t n m |] |], (p_command i') as [s' a' | | | [t' n' m' |] |]; try contradiction; try exact I.
  - exact C.
  - destruct C as (C1 & C2 & C3). destruct t as [t |], t' as [t' |]; try discriminate; [| exact I]. injection C1 as C1.
    cbn. split; [now apply same_letters_spec | now split].
Qed.

Lemma continuation_same i i' : same_letters i i' -> is_continuation i' -> is_continuation i.
Proof.
  intros S [r ->]. apply Forall2_app_inv_r in S as (p & q & S & _ & ->). apply same_letters_spec in S.
  destruct p as [| b [| ? ?]]; try discriminate. exists q. f_equal. injection S as S.
  clear - S. destruct b; try discriminate; reflexivity.
Qed.
Theorem C36_response : forall i i', same_letters i i' -> ~ is_continuation i ->
  alike eq same_response (decode_response i) (decode_response i').
Proof.
  intros i i' S N.
  assert (N1 : forall r, i <> "+"%byte :: r) by (intros r E; apply N; now exists r).
  assert (N2 : forall r, i' <> "+"%byte :: r) by (intros r E; apply N; eapply continuation_same; [exact S | now exists r]).
  pose proof (ci_response i N1) as C. pose proof (ci_response i' N2) as C'.
  unfold ci_at in *. apply same_letters_spec in S. rewrite S, C' in C. apply eq_sym, rmap_eq in C. unfold decode_response.
  destruct (p_response i) as [s a | | | [t n m |] |], (p_response i') as [s' a' | | | [t' n' m' |] |]; try contradiction; try reflexivity.
  - exact C.
  - destruct C as (_ & -> & _). reflexivity.
Qed.
Lemma simple_alike {A} (p : parser A) h i i' : ci p p h -> same_letters i i' ->
  alike eq (fun a a' => h a = h a') (simple_decode p i) (simple_decode p i').
Proof.
  intros C S. apply same_letters_spec in S. pose proof (C i) as C1. rewrite S, (C i') in C1. apply eq_sym, rmap_eq in C1.
  unfold simple_decode.
  destruct (p i) as [s a | | | [t n m |] |], (p i') as [s' a' | | | [t' n' m' |] |]; try contradiction; try reflexivity.
  exact C1.
Qed.
Theorem C36_greeting : forall i i', same_letters i i' -> alike eq same_greeting (decode_greeting i) (decode_greeting i').
Proof. intros i i' S. apply simple_alike; [apply ci_greeting | exact S]. Qed.
Theorem C36_idle_done : forall i i', same_letters i i' -> alike eq eq (decode_idle_done i) (decode_idle_done i').
Proof.
  intros i i' S. refine (simple_alike p_idle_done (fun x => x) i i' _ S). unfold p_idle_done.
  eapply ci_bind; [apply ci_kw | intros _]. eapply ci_bind; [apply ci_crlf | intros _]. now apply ci_ret.
Qed.

Lemma is_alpha_spec b : is_alpha b = true <-> ALPHA b.
Proof. unfold is_alpha, inb, ALPHA. rewrite orb_true_iff, !andb_true_iff, !N.leb_le. lia. Qed.
(** Only the name of a command: the outcome is the same. *)
Lemma span_split f t : f bSP = false -> exists a b, t = a ++ b /\ forall x, span f (t ++ bSP :: x) = Some (a, b ++ bSP :: x).
Proof.
  intros Z. induction t as [| c t IH].
  - exists [], []. split; [reflexivity |]. intros x. cbn. now rewrite Z.
  - destruct (f c) eqn:E.
    + destruct IH as (a & b & -> & IH). exists (c :: a), b. split; [reflexivity |]. intros x. cbn. now rewrite E, IH.
    + exists [], (c :: t). split; [reflexivity |]. intros x. cbn. now rewrite E.
Qed.
Lemma tag_split t : ~ In bSP t ->
  (forall x, terminated p_tag_imap sp (t ++ bSP :: x) = ROk x t) \/
  (exists e, (e = RErr \/ e = RPanic) /\ forall x, terminated p_tag_imap sp (t ++ bSP :: x) = e).
Proof.
  intros N. destruct (span_split is_tag_char t eq_refl) as (a & b & -> & S).
  destruct a as [| c a].
  { right. exists RErr. split; [now left |]. intros x. unfold terminated, p_tag_imap, validated, expect, bind, take_while1. now rewrite S. }
  destruct (str_of Conv.tag_ok (c :: a)) as [v |] eqn:V.
  2: { right. exists RPanic. split; [now right |]. intros x.
    unfold terminated, p_tag_imap, validated, expect, bind, take_while1. now rewrite S, V. }
  assert (v = c :: a) as ->. { unfold str_of in V. destruct (_ && _); [now injection V | discriminate]. }
  destruct b as [| d b].
  - left. intros x. rewrite app_nil_r. rewrite app_nil_r in S.
    unfold terminated, p_tag_imap, validated, expect, bind, take_while1. rewrite S, V. reflexivity.
  - right. exists RErr. split; [now left |]. intros x.
    unfold terminated, p_tag_imap, validated, expect, bind, take_while1. rewrite S, V. unfold ret, sp, char, sat. cbn [app].
    destruct (beq_spec d bSP) as [-> |]; [| reflexivity]. exfalso. apply N. apply in_or_app. right. now left.
Qed.
Theorem C36_command_name : forall tag k k' s,
  ~ In bSP tag -> Forall ALPHA k -> same_letters k k' ->
  decode_command (tag ++ bs " " ++ k ++ s) = decode_command (tag ++ bs " " ++ k' ++ s).
Proof.
  intros tag k k' s N A S. unfold decode_command. rewrite !p_command_eq.
  change (bs " " ++ k ++ s) with (bSP :: k ++ s). change (bs " " ++ k' ++ s) with (bSP :: k' ++ s).
  destruct (tag_split tag N) as [T | (e & E & T)]; rewrite !T; [| reflexivity].
  unfold pmap, bind. rewrite (ex_command_body k k' s); [reflexivity |].
  split; [| now apply same_letters_spec].
  apply forallb_forall. rewrite Forall_forall in A. intros x X. now apply is_alpha_spec, A.
Qed.

(** AUTHENTICATE: the name of the command and the name of the mechanism *)
Lemma body_authenticate x : alt [p_command_any; p_command_auth; p_command_nonauth; p_command_select] (bs "AUTHENTICATE " ++ x) =
  p_authenticate (bs "AUTHENTICATE " ++ x).
Proof.
  assert (A : p_command_any (bs "AUTHENTICATE " ++ x) = RErr).
  { unfold p_command_any, gate. destruct ext_id; reflexivity. }
  assert (B : p_command_auth (bs "AUTHENTICATE " ++ x) = RErr).
  { unfold p_command_auth, gate. destruct ext_metadata, ext_namespace; reflexivity. }
  assert (C : p_command_nonauth (bs "AUTHENTICATE " ++ x) = p_authenticate (bs "AUTHENTICATE " ++ x)).
  { unfold p_command_nonauth, gate. cbn [alt]. unfold orp.
    replace (p_login (bs "AUTHENTICATE " ++ x)) with (@RErr command_body) by reflexivity.
    destruct (p_authenticate (bs "AUTHENTICATE " ++ x)) eqn:E; try reflexivity. destruct starttls; reflexivity. }
  assert (D : p_command_select (bs "AUTHENTICATE " ++ x) = RErr) by reflexivity.
  cbn [alt]. unfold orp. rewrite A, B, C, D. now destruct (p_authenticate _).
Qed.

Lemma span_all f m s : forallb f m = true -> (forall c r, s = c :: r -> f c = false) -> s <> [] ->
  span f (m ++ s) = Some (m, s).
Proof.
  intros M S Z. induction m as [| c m IH].
  - destruct s as [| c r]; [congruence |]. cbn. now rewrite (S c r eq_refl).
  - cbn in *. apply andb_true_iff in M as [M1 M2]. now rewrite M1, IH.
Qed.
Lemma auth_type_at m s : forallb is_atom_char m = true -> (exists c r, s = c :: r /\ is_atom_char c = false) ->
  p_auth_type (m ++ s) = match m with [] => RErr | _ => ROk s (auth_mechanism_from m) end.
Proof.
  intros M (c & r & -> & C). unfold p_auth_type, p_atom, pmap, validated, expect, bind, take_while1.
  rewrite (span_all _ _ _ M); [| intros c0 r0 E; now injection E as <- <- | discriminate].
  destruct m as [| b m]; [reflexivity |]. unfold str_of.
  assert (A : atom_ok (b :: m) = true) by exact M.
  assert (U : utf8_ok (b :: m) = true).
  { apply FragFacts.utf8_ascii. apply forallb_forall. intros x X. rewrite forallb_forall in M. specialize (M _ X).
    revert M. clear. destruct x; vm_compute; congruence. }
  now rewrite A, U.
Qed.
Theorem C36_authenticate : forall tag k k' m m' s,
  ~ In bSP tag -> same_letters k (bs "AUTHENTICATE") -> same_letters k' (bs "AUTHENTICATE") ->
  Forall ATOM_CHAR m -> same_letters m m' ->
  (exists c r, s = c :: r /\ ~ ATOM_CHAR c) ->
  match decode_command (tag ++ bs " " ++ k ++ bs " " ++ m ++ s), decode_command (tag ++ bs " " ++ k' ++ bs " " ++ m' ++ s) with
  | Decoded r c, Decoded r' c' => r = r' /\ same_command c c'
  | o, o' => o = o'
  end.
Proof.
  intros tag k k' m m' s N K K' M S H0.
  assert (H : exists c r, s = c :: r /\ is_atom_char c = false).
  { destruct H0 as (c & r & -> & H0). exists c, r. split; [reflexivity |]. rewrite <- is_atom_char_spec in H0.
    now destruct (is_atom_char c). }
  assert (Q : forall k, same_letters k (bs "AUTHENTICATE") -> forall x,
    decode_command (tag ++ bs " " ++ k ++ x) = decode_command (tag ++ bs " " ++ bs "AUTHENTICATE" ++ x)).
  { intros q Q x. symmetry. apply C36_command_name; [exact N | |].
    - apply Forall_forall. intros b B. apply is_alpha_spec. revert b B. apply forallb_forall. reflexivity.
    - apply same_letters_spec. apply same_letters_spec in Q. congruence. }
  rewrite (Q k K), (Q k' K'). clear K K' Q k k'.
  assert (M1 : forallb is_atom_char m = true) by (apply forallb_forall; rewrite Forall_forall in M; intros x X; now apply is_atom_char_spec, M).
  apply same_letters_spec in S.
  assert (M2 : forallb is_atom_char m' = true).
  { rewrite <- (low_forallb _ m' low_atom), <- S. now rewrite low_forallb by apply low_atom. }
  unfold decode_command. rewrite !p_command_eq.
  change (tag ++ bs " " ++ bs "AUTHENTICATE" ++ bs " " ++ m ++ s) with (tag ++ bSP :: (bs "AUTHENTICATE " ++ m ++ s)).
  change (tag ++ bs " " ++ bs "AUTHENTICATE" ++ bs " " ++ m' ++ s) with (tag ++ bSP :: (bs "AUTHENTICATE " ++ m' ++ s)).
  destruct (tag_split tag N) as [T | (e & E & T)]; rewrite !T; [| destruct E as [-> | ->]; reflexivity].
  unfold pmap, p_command_body, terminated, bind. rewrite !body_authenticate.
  unfold p_authenticate, bind. 
  assert (W : forall x, tag_no_case (bs "AUTHENTICATE ") (bs "AUTHENTICATE " ++ x) = ROk x tt) by reflexivity.
  rewrite !W. rewrite (auth_type_at m s M1 H), (auth_type_at m' s M2 H).
  destruct m as [| b m], m' as [| b' m']; try discriminate; [reflexivity |].
  destruct (opt _ s) as [r o | | | [t n mo |] |]; try reflexivity.
  unfold ret. destruct (crlf r) as [r' u | | | [t n mo |] |]; try reflexivity.
  cbn [fill_tag]. split; [reflexivity |]. unfold same_command, x_command. cbn. f_equal. f_equal.
  rewrite <- !low_mech. now rewrite S.
Qed.
End Case.

(** Concrete cases *)
Definition C36_crlf : bytes := [bCR; bLF].
Definition C36_i : bytes := bs "a1 Uid Store 1:4 +flags.Silent (\sEEN $Label)" ++ C36_crlf ++ bs "A2".
Definition C36_i' : bytes := bs "A1 UID STORE 1:4 +FLAGS.SILENT (\Seen $LABEL)" ++ C36_crlf ++ bs "a2".
Example C36_command_hyp : same_letters C36_i C36_i' /\ ~ is_authenticate C36_i /\
  exists c c', @decode_command default_features C36_i = Decoded (bs "A2") c /\
               @decode_command default_features C36_i' = Decoded (bs "a2") c' /\ c <> c'.
Proof.
  split; [now apply same_letters_spec |]. split.
  - intros (t & k & r & E & T & K). unfold C36_i in E. destruct t as [| b0 [| b1 [| b2 t]]]; try discriminate E.
    + cbn in E. injection E as <- <- E. apply same_letters_spec in K. destruct k as [| x k]; [discriminate |].
      cbn in E. injection E as <- E. discriminate K.
    + injection E as <- <- <- E. apply T. right. right. now left.
  - do 2 eexists. split; [vm_compute; reflexivity |]. split; [vm_compute; reflexivity |]. discriminate.
Qed.
Example C36_authenticate_hyp :
  (~ In bSP (bs "a") /\ same_letters (bs "authenTICATE") (bs "AUTHENTICATE") /\
   Forall ATOM_CHAR (bs "Plain") /\ same_letters (bs "Plain") (bs "pLAIN") /\
   exists c r, bs " AAAA" ++ C36_crlf = c :: r /\ ~ ATOM_CHAR c) /\
  @decode_command default_features (bs "a authenTICATE Plain AAAA" ++ C36_crlf) =
    Decoded [] (mkCommand (bs "a") (CAuthenticate AMPlain (Some [x00; x00; x00]))).
Proof.
  split; [| vm_compute; reflexivity].
  split; [intros [H | []]; discriminate |]. split; [now apply same_letters_spec |]. split.
  - apply Forall_forall. intros b B. apply is_atom_char_spec. revert b B. apply forallb_forall. reflexivity.
  - split; [now apply same_letters_spec |]. exists bSP, (bs "AAAA" ++ C36_crlf). split; [reflexivity |].
    rewrite <- is_atom_char_spec. discriminate.
Qed.
Definition C36_r : bytes := bs "* 3 fetch (flags (\Seen) Body[Text] ""Ab"")" ++ C36_crlf.
Definition C36_r' : bytes := bs "* 3 FETCH (FLAGS (\SEEN) bODY[TEXT] ""aB"")" ++ C36_crlf.
Example C36_response_hyp : same_letters C36_r C36_r' /\ ~ is_continuation C36_r /\
  exists c c', @decode_response default_features C36_r = Decoded [] c /\
               @decode_response default_features C36_r' = Decoded [] c' /\ c <> c'.
Proof.
  split; [now apply same_letters_spec |]. split; [intros [r E]; discriminate |].
  do 2 eexists. split; [vm_compute; reflexivity |]. split; [vm_compute; reflexivity |]. discriminate.
Qed.
(** The exclusions are necessary: in base64 data letter case matters, for the value and for whether it decodes at all. *)
Example C36_base64_case : exists c c',
  @decode_command default_features (bs "a AUTHENTICATE PLAIN AAAA" ++ C36_crlf) = Decoded [] c /\
  @decode_command default_features (bs "a AUTHENTICATE PLAIN aaaa" ++ C36_crlf) = Decoded [] c' /\ ~ same_command c c'.
Proof. do 2 eexists. split; [vm_compute; reflexivity |]. split; [vm_compute; reflexivity |]. discriminate. Qed.

Print Assumptions C36_command.
Print Assumptions C36_response.
Print Assumptions C36_greeting.
Print Assumptions C36_idle_done.
Print Assumptions C36_command_name.
Print Assumptions C36_authenticate.
