(** C21: how deep decoded body structures are nested.

    The nesting of messages in messages is not bounded by a constant
    ([C21_message_nesting_refuted]). Here it is bounded by the length of the input: each message
    that is embedded in another one takes 75 bytes of it, which is the best possible, and between
    two of them there are at most five multiparts. *)

From Verif Require Import Bytes BytesFacts Features Nom Types Decode ValueSpec Grammar GrammarProps CompleteProps
  DecodeSpec ValidFacts SizeFacts.
Open Scope nat_scope.

(** How often messages are embedded in messages *)
Fixpoint message_depth (b : body_structure) : nat :=
  match b with
  | BSSingle _ (SFMessage _ b' _) _ => S (message_depth b')
  | BSSingle _ _ _ => 0
  | BSMulti l _ _ => list_max (map message_depth l)
  end.

Section Depth.
Context {F : features}.

(** The shortest texts *)
Definition shortest {A} (L : lang A) (k : nat) : Prop := forall t a, L t a -> k <= length t.
Lemma short_number : shortest G_number 1.
Proof. intros t a [Ne _]. destruct t; [easy | cbn; lia]. Qed.
Lemma short_literal : shortest G_literal 2.
Proof. intros t a []. rewrite !app_length. cbn. lia. Qed.
Lemma short_string : shortest G_string 2.
Proof.
  intros t a [t' s [] | w s _ _ _ _ | t' l H]; [| | now apply short_literal in H];
    rewrite !app_length; cbn [length]; lia.
Qed.
Lemma short_nil t : G_nil t -> length t = 3.
Proof. intros H. now apply same_letters_length in H. Qed.
Lemma short_nstring : shortest G_nstring 2.
Proof. intros t a [t' s H | t' H]; [now apply short_string in H | apply short_nil in H; lia]. Qed.
Ltac short := repeat match goal with
  | H : G_string _ _ |- _ => apply short_string in H
  | H : G_nstring _ _ |- _ => apply short_nstring in H
  | H : G_nil _ |- _ => apply short_nil in H
  | H : G_number _ _ |- _ => apply short_number in H
  | H : same_letters _ _ |- _ => apply same_letters_length in H; cbn in H
  end; rewrite ?app_length in *; cbn [length bs] in *; rewrite ?app_length in *; cbn in *; try lia.
Lemma short_address : shortest G_address 3.
Proof. intros t a []. short. Qed.
Lemma short_addresses : shortest G_addresses 3.
Proof.
  intros t a [t' H | t' l H]; [short |]. destruct H as [t' l [M L]].
  destruct M as [| u a' v l' Ha _]; [cbn in L; lia |]. apply short_address in Ha. short.
Qed.
Lemma short_envelope : shortest G_envelope 37.
Proof.
  intros t a []. repeat match goal with H : G_addresses _ _ |- _ => apply short_addresses in H end. short.
Qed.
Lemma short_params : shortest G_body_params 2.
Proof. intros t a [t' H | t' l H]; [short |]. destruct H. short. Qed.
Lemma short_enc : shortest G_body_enc 2.
Proof. intros t a [t' s H | t' _ H]; short. Qed.
Lemma short_octets : shortest G_octets 1.
Proof. intros t a [t' s H | t' s _ H]; short. Qed.
Lemma short_fields : shortest G_body_fields 13.
Proof.
  intros t a [tp p ti i td d te e ts s H1 H2 H3 H4 H5].
  apply short_params in H1. apply short_enc in H4. apply short_octets in H5. short.
Qed.
Lemma max_of {A} (f : A -> nat) l : l <> [] -> exists c, In c l /\ f c = list_max (map f l).
Proof.
  induction l as [| a l IH]; [easy |]. intros _. destruct l as [| b l].
  - exists a. split; [now left |]. cbn. lia.
  - destruct IH as (c & Hc & E); [discriminate |]. cbn [map] in *.
    change (list_max (f a :: f b :: map f l)) with (Nat.max (f a) (list_max (f b :: map f l))).
    destruct (Nat.max_spec (f a) (list_max (f b :: map f l))) as [[_ ->] | [_ ->]].
    + exists c. split; [now right | exact E].
    + exists a. split; [now left | reflexivity].
Qed.
Lemma short_body b : forall d t, G_body d t b ->
  75 * message_depth b + 21 <= length t /\ body_depth b <= d + 6 * message_depth b.
Proof.
  induction b as [b ty s x | b s n0 x | b e c n0 x IH | l s x IH] using body_ind'; intros d t G;
    inversion G; subst; cbn [message_depth body_depth].
  - match goal with H : G_body_fields _ _ |- _ => apply short_fields in H end. split; [| lia]. short.
  - match goal with H : G_body_fields _ _ |- _ => apply short_fields in H end. split; [| lia]. short.
  - match goal with H : G_body_fields _ _ |- _ => apply short_fields in H end.
    match goal with H : G_envelope _ _ |- _ => apply short_envelope in H end.
    match goal with H : G_body _ _ _ |- _ => apply IH in H as [H1 H2] end. split; [| lia].
    short.
  - match goal with H : at_least _ _ _ _ |- _ => destruct H as [M L]; clear G end.
    match goal with H : G_string _ _ |- _ => apply short_string in H; rename H into S end.
    match goal with H : optional _ _ _ |- _ => clear H end.
    assert (K : Forall (fun b => 75 * message_depth b + 21 <= length t0 /\
                                 body_depth b <= d0 + 6 * message_depth b) l).
    { clear -M IH. revert M. generalize t0. induction IH as [| b l Hb _ IH]; intros t M; [constructor |].
      inversion M; subst. constructor.
      - match goal with H : G_body _ _ _ |- _ => apply Hb in H as [H1 H2] end. rewrite app_length. lia.
      - match goal with H : many _ _ _ |- _ => apply IH in H end. revert H3. apply Forall_impl. intros c.
        rewrite app_length. lia. }
    assert (Kd : list_max (map body_depth l) <= d0 + 6 * list_max (map message_depth l)).
    { apply list_max_le, Forall_forall. intros x0 Hx. apply in_map_iff in Hx as (c & <- & Hc).
      rewrite Forall_forall in K. apply K in Hc as Kc.
      assert (message_depth c <= list_max (map message_depth l)); [| lia].
      assert (A : Forall (fun k => k <= list_max (map message_depth l)) (map message_depth l))
        by (apply list_max_le; lia).
      rewrite Forall_forall in A. apply A, in_map, Hc. }
    destruct (max_of message_depth l) as (c & Hc & Ec); [destruct l; [cbn in L; lia | discriminate] |].
    rewrite Forall_forall in K. apply K in Hc as [Hc _]. rewrite <- Ec in *. split; [| lia].
    rewrite !app_length. lia.
Qed.

Lemma item_short t a b : G_msg_att t a -> In b (item_bodies a) ->
  75 * message_depth b + 26 <= length t /\ body_depth b <= 6 + 6 * message_depth b.
Proof.
  intros G H. destruct G; try (now destruct H); destruct H as [<- | []];
    match goal with H : G_body _ _ _ |- _ => apply short_body in H as [H1 H2] end;
    (split; [| exact H2]); short.
Qed.
(** Every embedded message takes 75 bytes of the input, and every seventh level is one. *)
Theorem C21_nesting_needs_bytes : forall i r m b,
  decode_response i = Decoded r m -> In b (bodies m) ->
  75 * message_depth b + 39 <= length i /\ body_depth b <= 6 + 6 * message_depth b.
Proof.
  intros i r m b H Hb. apply C44_response in H as (t & -> & G). rewrite app_length.
  inversion G; subst; try destruct Hb. rename H into Gd, H0 into Ge.
  assert (E : 1 <= length e) by (destruct Ge as [-> | [_ ->]]; cbn; lia).
  inversion Gd; subst; cbn [bodies] in Hb;
    try (now destruct Hb); try (match goal with H : G_mailbox_list _ _ _ _ |- _ =>
      destruct H as (? & ? & ? & ? & ? & ? & ? & _ & _ & _ & _ & _ & ->); now destruct Hb end).
  match goal with H : in_parens _ _ _ |- _ => destruct H as [v l S] end.
  match goal with H : G_nz_number _ _ |- _ => destruct H as [N _]; apply (short_number _ n) in N end.
  match goal with H : same_letters _ _ |- _ => apply same_letters_length in H; cbn in H; rename H into K end.
  assert (L : 75 * message_depth b + 26 <= length v /\ body_depth b <= 6 + 6 * message_depth b).
  { clear -S Hb. revert Hb. induction S as [v a A | v a u l A S IH]; cbn [flat_map];
      intros [Hb | Hb]%in_app_or; try (now destruct Hb); rewrite ?app_length.
    - apply (item_short _ _ _ A Hb).
    - destruct (item_short _ _ _ A Hb). lia.
    - destruct (IH Hb). lia. }
  split; [| apply L]. rewrite !app_length. cbn [length bs]. destruct L as [L _].
  change (length (bs "* ")) with 2. change (length (bs "(")) with 1. change (length (bs ")")) with 1. lia.
Qed.
(** So no message of at most [limit] bytes is nested deeper than this. *)
Theorem C21_nesting_limited : forall limit i r m b,
  length i <= limit -> decode_response i = Decoded r m -> In b (bodies m) ->
  body_depth b <= 6 + 6 * (limit / 75).
Proof.
  intros limit i r m b Hl H Hb. destruct (C21_nesting_needs_bytes i r m b H Hb) as [H1 H2].
  assert (message_depth b <= limit / 75); [| lia].
  apply Nat.div_le_lower_bound; lia.
Qed.

(** Neither can be improved: with 40 + 75n bytes (CRLF at the end) n messages are embedded in each
    other, and there are inputs with 6 + 6n levels. *)
Definition empty_string : istring := IQuoted [].
Definition small_fields : basic_fields := mkBasic [] (Some empty_string) (Some empty_string) empty_string 0.
Definition small_envelope : envelope :=
  mkEnvelope (Some empty_string) (Some empty_string) [] [] [] [] [] [] (Some empty_string) (Some empty_string).
Fixpoint small (n : nat) : body_structure :=
  match n with
  | O => BSSingle small_fields (SFBasic empty_string empty_string) None
  | S n => BSSingle small_fields (SFMessage small_envelope (small n) 0) None
  end.
Definition q2 : bytes := [bDQ; bDQ].
Definition small_fields_text : bytes :=
  bs "()" ++ bs " " ++ q2 ++ bs " " ++ q2 ++ bs " " ++ q2 ++ bs " " ++ bs "0".
Definition small_envelope_text : bytes :=
  bs "(" ++ q2 ++ bs " " ++ q2 ++ bs " " ++ bs "NIL" ++ bs " " ++ bs "NIL" ++ bs " " ++ bs "NIL"
    ++ bs " " ++ bs "NIL" ++ bs " " ++ bs "NIL" ++ bs " " ++ bs "NIL" ++ bs " " ++ q2 ++ bs " " ++ q2 ++ bs ")".
Fixpoint small_text (n : nat) : bytes :=
  match n with
  | O => bs "(" ++ q2 ++ bs " " ++ q2 ++ bs " " ++ small_fields_text ++ [] ++ bs ")"
  | S n => bs "(" ++ bs """MESSAGE"" ""RFC822"" " ++ small_fields_text ++ bs " " ++ small_envelope_text
             ++ bs " " ++ small_text n ++ bs " " ++ bs "0" ++ [] ++ bs ")"
  end.
Lemma G_empty : G_string q2 empty_string.
Proof. apply g_str_quoted. apply (g_quoted [] []); constructor. Qed.
Lemma one_digit b n : (0x30 <= bN b <= 0x39)%N -> n = (bN b - 0x30)%N -> digits [b] n.
Proof. intros H ->. apply (digits_snoc [] 0%N b digits_nil H). Qed.
Lemma G_zero : G_number (bs "0") 0%N.
Proof. split; [discriminate |]. split; [| vm_compute; discriminate]. apply one_digit; [vm_compute; split; discriminate | reflexivity]. Qed.
Lemma G_small_fields : G_body_fields small_fields_text small_fields.
Proof.
  apply (g_fields (bs "()") [] q2 _ q2 _ q2 _ (bs "0") 0%N).
  - apply g_params. apply (parens_intro _ [] []). constructor.
  - apply g_nstr_string, G_empty.
  - apply g_nstr_string, G_empty.
  - apply g_enc, G_empty.
  - apply g_octets, G_zero.
Qed.
Lemma same_refl k : same_letters k k.
Proof. induction k; constructor; [now left | assumption]. Qed.
Lemma G_small_envelope : G_envelope small_envelope_text small_envelope.
Proof.
  assert (N : G_addresses (bs "NIL") []) by (apply g_addresses_nil, same_refl).
  assert (E : G_nstring q2 (Some empty_string)) by apply g_nstr_string, G_empty.
  exact (g_envelope _ _ _ _ _ _ _ _ _ _ _ _ _ _ _ _ _ _ _ _ E E N N N N N N E E).
Qed.
Lemma G_small n : forall d, G_body d (small_text n) (small n).
Proof.
  induction n as [| n IH]; intros d; cbn [small_text small].
  - apply g_body_basic; [apply G_empty | apply G_empty | apply G_small_fields | constructor].
  - apply g_body_message; [apply same_refl | apply G_small_fields | apply G_small_envelope | apply IH
                          | apply G_zero | constructor].
Qed.
Lemma small_length n : length (small_text n) = 75 * n + 21.
Proof.
  induction n as [| n IH]; [reflexivity |]. cbn [small_text]. rewrite !app_length, IH.
  change (length (bs "(")) with 1. change (length (bs ")")) with 1. change (length (bs " ")) with 1.
  change (length (bs "0")) with 1. change (length small_fields_text) with 13.
  change (length small_envelope_text) with 37. change (length (bs """MESSAGE"" ""RFC822"" ")) with 19.
  cbn [length]. lia.
Qed.
Definition fetch_text (t : bytes) : bytes :=
  bs "* " ++ (bs "1" ++ bs " FETCH " ++ (bs "(" ++ (bs "BODY " ++ t) ++ bs ")")) ++ [bCR; bLF].
Lemma fetch_decodes t b : G_body 6 t b ->
  decode_response (fetch_text t) = Decoded [] (RData (DFetch 1 [MDBody b])).
Proof.
  intros G. rewrite <- (app_nil_r (fetch_text t)). apply C45_response. apply g_rsp_data; [| now left].
  apply g_data_fetch; [| apply same_refl |].
  - split; [| discriminate]. split; [discriminate |]. split; [| vm_compute; discriminate].
    apply one_digit; [vm_compute; split; discriminate | reflexivity].
  - apply parens_intro. apply sep_one. apply g_ma_body; [apply same_refl | exact G].
Qed.
Theorem C21_nesting_bytes_attained : forall n, exists i m b,
  decode_response i = Decoded [] m /\ In b (bodies m) /\
  message_depth b = n /\ length i = 75 * n + 40.
Proof.
  intros n. exists (fetch_text (small_text n)), (RData (DFetch 1 [MDBody (small n)])), (small n).
  split; [apply fetch_decodes, G_small |]. split; [now left |]. split.
  - induction n as [| n IH]; [reflexivity |]. cbn [small message_depth]. now rewrite IH.
  - unfold fetch_text. rewrite !app_length, small_length.
    change (length (bs "* ")) with 2. change (length (bs "(")) with 1. change (length (bs ")")) with 1.
    change (length (bs "1")) with 1. change (length (bs " FETCH ")) with 7. change (length (bs "BODY ")) with 5.
    cbn [length]. lia.
Qed.
(** [k] multiparts around a body *)
Fixpoint wrap (k : nat) (b : body_structure) : body_structure :=
  match k with O => b | S k => BSMulti [wrap k b] empty_string None end.
Fixpoint wrap_text (k : nat) (t : bytes) : bytes :=
  match k with O => t | S k => bs "(" ++ (wrap_text k t ++ []) ++ bs " " ++ q2 ++ [] ++ bs ")" end.
Lemma G_wrap k d t b : G_body d t b -> G_body (k + d) (wrap_text k t) (wrap k b).
Proof.
  intros G. induction k as [| k IH]; [exact G |]. cbn [wrap wrap_text]. apply (g_body_multi (k + d)).
  - split; [| cbn; lia]. apply many_more; [exact IH | constructor].
  - apply G_empty.
  - constructor.
Qed.
Fixpoint deep (n : nat) : body_structure :=
  match n with
  | O => small 0
  | S n => BSSingle small_fields (SFMessage small_envelope (wrap 5 (deep n)) 0) None
  end.
Fixpoint deep_text (n : nat) : bytes :=
  match n with
  | O => small_text 0
  | S n => bs "(" ++ bs """MESSAGE"" ""RFC822"" " ++ small_fields_text ++ bs " " ++ small_envelope_text
             ++ bs " " ++ wrap_text 5 (deep_text n) ++ bs " " ++ bs "0" ++ [] ++ bs ")"
  end.
Lemma G_deep n : G_body 0 (deep_text n) (deep n).
Proof.
  induction n as [| n IH]; cbn [deep_text deep]; [apply G_small |].
  apply g_body_message; [apply same_refl | apply G_small_fields | apply G_small_envelope
                        | apply (G_wrap 5 0), IH | apply G_zero | constructor].
Qed.
Lemma wrap_depth k b : body_depth (wrap k b) = k + body_depth b /\ message_depth (wrap k b) = message_depth b.
Proof.
  induction k as [| k [IH1 IH2]]; [split; reflexivity |]. cbn [wrap body_depth message_depth map list_max fold_right].
  rewrite IH1, IH2. lia.
Qed.
Theorem C21_nesting_depth_attained : forall n, exists i m b,
  decode_response i = Decoded [] m /\ In b (bodies m) /\
  message_depth b = n /\ body_depth b = 6 + 6 * n.
Proof.
  intros n. exists (fetch_text (wrap_text 6 (deep_text n))), (RData (DFetch 1 [MDBody (wrap 6 (deep n))])), (wrap 6 (deep n)).
  split; [apply fetch_decodes, (G_wrap 6 0), G_deep |]. split; [now left |].
  destruct (wrap_depth 6 (deep n)) as [-> ->].
  assert (K : message_depth (deep n) = n /\ body_depth (deep n) = 6 * n).
  { induction n as [| n [IH1 IH2]]; [split; reflexivity |]. cbn [deep message_depth body_depth].
    destruct (wrap_depth 5 (deep n)) as [-> ->]. lia. }
  destruct K. lia.
Qed.
End Depth.
Print Assumptions C21_nesting_needs_bytes.
Print Assumptions C21_nesting_limited.
Print Assumptions C21_nesting_bytes_attained.
Print Assumptions C21_nesting_depth_attained.
Example C21_nesting_example :
  @decode_response default_features (fetch_text (small_text 2)) =
    Decoded [] (RData (DFetch 1 [MDBody (small 2)])) /\
  In (small 2) (bodies (RData (DFetch 1 [MDBody (small 2)]))) /\ message_depth (small 2) = 2 /\
  length (fetch_text (small_text 2)) = 190.
Proof. split; [apply fetch_decodes, G_small |]. split; [now left |]. split; reflexivity. Qed.
