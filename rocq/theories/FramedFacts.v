(** Proofs for C73: which texts of the grammar of AbnfSpec.v can be followed by the rest of a message.
    [typed s a s']: a text of [a] leads from [s] to [s'], where in [Out] a message may end with the
    next line ending, and [Open] is somewhere in the middle of a line, for example in a quoted string. *)

From Verif Require Import Bytes BytesFacts Features Nom Types ValueSpec ValueFacts Grammar Fragmentizer FragSpec FragFacts
  SyncSpec SyncFacts AbnfSpec.
Open Scope N_scope.
Open Scope abnf_scope.

Inductive state := Out | Open.
Definition leads (s s' : state) (t : bytes) : Prop :=
  match s, s' with
  | Out, Out => calm t
  | Out, Open => exists a w, t = a ++ w /\ calm a /\ forallb on_line w = true
  | Open, Open => forallb on_line t = true
  | Open, Out => exists w b c, t = w ++ b :: c /\ forallb on_line w = true /\ stopb b = true /\ calm c
  end.
(** An open line is not closed and opened again within a rule. *)
Definition fits (s1 s2 s3 : state) : bool := match s1, s2, s3 with Open, Out, Open => false | _, _, _ => true end.

Lemma leads_app s1 s2 s3 t u : fits s1 s2 s3 = true -> leads s1 s2 t -> leads s2 s3 u -> leads s1 s3 (t ++ u).
Proof.
  destruct s1, s2; cbn [leads]; intros Fi H.
  - destruct s3; intros K; [now apply calm_app |]. destruct K as (a & w & -> & A & W).
    exists (t ++ a), w. rewrite app_assoc. split; [reflexivity |]. split; [now apply calm_app | exact W].
  - destruct H as (a & w & -> & A & W). destruct s3; intros K.
    + rewrite <- app_assoc. apply calm_app; [exact A |]. destruct K as (v & b & c & -> & V & S & C).
      rewrite app_assoc. apply calm_closed; auto. rewrite forallb_app, W, V. reflexivity.
    + exists a, (w ++ u). rewrite app_assoc. split; [reflexivity |]. split; [exact A |]. rewrite forallb_app, W. exact K.
  - destruct H as (w & b & c & -> & W & S & C). destruct s3; intros K; [| discriminate Fi].
    exists w, b, (c ++ u). rewrite <- app_assoc. split; [reflexivity |]. repeat split; auto. now apply calm_app.
  - destruct s3; intros K.
    + destruct K as (v & b & c & -> & V & S & C). exists (t ++ v), b, c. rewrite app_assoc. repeat split; auto.
      rewrite forallb_app, H, V. reflexivity.
    + rewrite forallb_app, H. exact K.
Qed.
Lemma leads_nil s : leads s s [].
Proof. destruct s; [apply calm_nil | reflexivity]. Qed.
Lemma leads_open t : leads Out Out t -> leads Out Open t.
Proof. intros H. exists t, []. rewrite app_nil_r. auto. Qed.
Lemma leads_line t : leads Open Open t -> leads Out Open t.
Proof. intros H. exists [], t. repeat split; auto. apply calm_nil. Qed.

(** ** Constants and characters *)
Definition okb (s : state) : byte -> bool := match s with Out => plainb | Open => on_line end.
Lemma leads_ok s t : forallb (okb s) t = true -> leads s s t.
Proof. destruct s; cbn; [apply calm_plains | auto]. Qed.
Lemma same_letter_ok s a b : same_letter a b -> okb s b = true -> okb s a = true.
Proof.
  intros [-> | H]; [auto |]. intros _.
  assert (X : bN a <> 10 /\ bN a <> 13 /\ bN a <> 123) by lia. destruct X as (X & Y & Z).
  assert (L : beq a bLF = false) by (destruct (beq_spec a bLF) as [-> |]; [now elim X | reflexivity]).
  assert (C : beq a bCR = false) by (destruct (beq_spec a bCR) as [-> |]; [now elim Y | reflexivity]).
  assert (B : beq a "{"%byte = false) by (destruct (beq_spec a "{"%byte) as [-> |]; [now elim Z | reflexivity]).
  destruct s; cbn; unfold plainb, on_line; rewrite L, ?C, ?B; reflexivity.
Qed.
Lemma letters_ok s t u : same_letters t u -> forallb (okb s) u = true -> forallb (okb s) t = true.
Proof.
  induction 1 as [| a b t u E H IH]; [auto |]. cbn. rewrite !andb_true_iff. intros [A B]. split; [exact (same_letter_ok _ _ _ E A) | auto].
Qed.
Lemma chr_ok s (X : byte -> Prop) : (forall b, X b -> okb s b = true) -> forall b, X b -> leads s s [b].
Proof. intros H b B. apply leads_ok. cbn. now rewrite (H b B). Qed.

Lemma bad_byte s b : bN b <> 10 -> bN b <> 13 -> bN b <> 123 -> okb s b = true.
Proof.
  intros X Y Z.
  assert (L : beq b bLF = false) by (destruct (beq_spec b bLF) as [-> |]; [now elim X | reflexivity]).
  assert (C : beq b bCR = false) by (destruct (beq_spec b bCR) as [-> |]; [now elim Y | reflexivity]).
  assert (B : beq b "{"%byte = false) by (destruct (beq_spec b "{"%byte) as [-> |]; [now elim Z | reflexivity]).
  destruct s; cbn; unfold plainb, on_line; rewrite L, ?C, ?B; reflexivity.
Qed.
Lemma ok_atom s b : ATOM_CHAR b -> okb s b = true.
Proof.
  intros [C N]. apply bad_byte; intros E; apply N; unfold atom_specials, CTL; [right; right; right; right; left; lia .. |].
  right. right. left. revert E. destruct b; intros E; try discriminate E. reflexivity.
Qed.
Lemma ok_astring s b : ASTRING_CHAR b -> okb s b = true.
Proof. intros [H | ->]; [now apply ok_atom | now destruct s]. Qed.
Lemma ok_tag s b : TAG_CHAR b -> okb s b = true.
Proof. intros [H _]. now apply ok_astring. Qed.
Lemma ok_list s b : LIST_CHAR b -> okb s b = true.
Proof. intros [H | [[-> | ->] | ->]]; [now apply ok_atom | now destruct s ..]. Qed.
Lemma ok_digit s b : is_DIGIT b -> okb s b = true.
Proof. unfold is_DIGIT. intros H. apply bad_byte; lia. Qed.
Lemma ok_digit_nz s b : 0x31 <= bN b <= 0x39 -> okb s b = true.
Proof. intros H. apply bad_byte; lia. Qed.
Lemma ok_base64 s b : (exists v, b64_value b v) -> okb s b = true.
Proof. intros (v & H). unfold b64_value in H. apply bad_byte; intros E; destruct H as [H | [H | [H | [[-> _] | [-> _]]]]]; try lia; discriminate E. Qed.
Lemma on_line_neq b : b <> bLF -> okb Open b = true.
Proof. intros H. cbn. unfold on_line. destruct (beq_spec b bLF); [contradiction | reflexivity]. Qed.
Lemma ok_text b : TEXT_CHAR b -> okb Open b = true.
Proof. intros (_ & _ & H). now apply on_line_neq. Qed.
Lemma ok_quoted b : TEXT_CHAR b /\ ~ quoted_specials b -> okb Open b = true.
Proof. intros [H _]. now apply ok_text. Qed.
Lemma ok_special b : quoted_specials b -> okb Open b = true.
Proof. unfold quoted_specials. intros H. apply on_line_neq. intros ->. cbn in H. lia. Qed.
Lemma ok_code b : TEXT_CHAR b /\ b <> "]"%byte -> okb Open b = true.
Proof. intros [H _]. now apply ok_text. Qed.
Lemma ok_other_code b : b <> "]"%byte /\ b <> bCR /\ b <> bLF -> okb Open b = true.
Proof. intros (_ & _ & H). now apply on_line_neq. Qed.
Lemma ok_utf8 (X : byte -> Prop) t : (forall b, X b -> b <> bLF) -> utf8_text X t -> leads Open Open t.
Proof.
  intros HX (_ & s & Q & A). cbn. revert A. induction Q as [| b w s N Q IH | b w s S Q IH]; intros A; [reflexivity | |];
    inversion A as [| ? ? B C]; subst; cbn; rewrite (IH C), andb_true_r.
  - exact (on_line_neq _ (HX _ B)).
  - rewrite (ok_special b S : on_line b = true). reflexivity.
Qed.

Section Typed.
Context {F : features}.
Variables extras limits : bool.
Hypothesis U : ext_utf8 = true -> extras = true -> False.

Definition inside (r : rule) : bool :=
  match r with
  | QuotedChar | AttrFlag | AttrFlagKeyword | AttrFlagExtension | Atom | DateText | DateDay | DateMonth | DateYear | DateDayFixed
  | Time | Zone | Text | RespText | RespTextCode | Charset | Quoted | CapabilityData | Capability | AuthType | Flag | FlagKeyword
  | FlagExtension | FlagPerm | NzNumber | Number | MetadataCode | RespCodeApnd | AppendUid | Uniqueid | RespCodeCopy | UidSet | UidRange
  | ModSequenceValue | SequenceSet | SeqRange | SeqNumber => true
  | _ => false
  end.
Definition outside (r : rule) : bool :=
  match r with
  | CRLF | Command | AuthenticateData | IdleDone | Greeting | Response | ContinueReq | ResponseData | ResponseDone | ResponseTagged
  | ResponseFatal | QuotedChar | Text | RespTextCode | RespText | RespCondAuth | RespCondBye | RespCondState => false
  | _ => true
  end.
Definition ending (r : rule) : bool :=
  match r with RespText | RespCondAuth | RespCondBye | RespCondState => true | _ => false end.
Definition goes (r : rule) (s : state) : option state :=
  match s with
  | Out => if ending r then Some Open else if outside r then Some Out else None
  | Open => if inside r then Some Open else None
  end.

Inductive typed : state -> abnf -> state -> Prop :=
| ty_word s u : forallb (okb s) u = true -> typed s (Str u) s
| ty_quote : typed Out DQUOTE Open
| ty_close : typed Open DQUOTE Out
| ty_chr s (X : byte -> Prop) : (forall b, X b -> okb s b = true) -> typed s (Chr X) s
| ty_eps s : typed s Eps s
| ty_cat s1 s2 s3 a b : typed s1 a s2 -> typed s2 b s3 -> fits s1 s2 s3 = true -> typed s1 (Cat a b) s3
| ty_or s s' a b : typed s a s' -> typed s b s' -> typed s (Or a b) s'
| ty_many s a : typed s a s -> typed s (Many a) s
| ty_ref s s' r : goes r s = Some s' -> typed s (Ref r) s'
| ty_prose s s' (P : bytes -> Prop) : (forall t, P t -> leads s s' t) -> typed s (Prose P) s'
| ty_where s s' P a : typed s a s' -> typed s (Where P a) s'
| ty_feature s s' b a : (b = true -> typed s a s') -> typed s (Feature b a) s'
| ty_extra s s' a : (extras = true -> typed s a s') -> typed s (Extra a) s'
| ty_limit s s' P a : typed s a s' -> typed s (Limit P a) s'
| ty_beyond s s' a : typed s a s' -> typed s (Beyond a) s'
| ty_open a : typed Out a Out -> typed Out a Open
| ty_line a : typed Open a Open -> typed Out a Open.

Lemma literal_calm start (e : bytes -> Prop) t (X : byte -> Prop) : (forall x, calm x -> calm (start ++ x)) -> (forall x, e x -> eol x) ->
  literal_text (start ++ bs "{") e X t -> calm t.
Proof.
  intros St He (d & p & l & s & -> & N & D & L & P & E & _). rewrite <- app_assoc. apply St.
  apply digits_spec in D as [D1 D2].
  assert (M : exists m, p = plus_of m) by (destruct P as [-> | ->]; [now exists Sync | now exists NonSync]). destruct M as (m & ->).
  destruct (header_line d m l N D1) as [H1 H2]; [lia | exact (He _ E) |].
  replace (bs "{" ++ d ++ plus_of m ++ bs "}" ++ l ++ s) with ((bs "{" ++ d ++ plus_of m ++ bs "}" ++ l) ++ s ++ [])
    by (now rewrite app_nil_r, <- !app_assoc).
  apply (calm_literal _ s _ [] H1 H2); [| apply calm_nil]. cbn [ann_length]. rewrite D2. reflexivity.
Qed.

Ltac chars := first [apply ok_digit | apply ok_atom | apply ok_astring | apply ok_tag | apply ok_list | apply ok_digit_nz | apply ok_base64
  | apply ok_text | apply ok_quoted | apply ok_special | apply ok_code | apply ok_other_code].
Ltac ty q :=
  cbv beta;
  lazymatch goal with
  | |- typed _ (opt _) _ => unfold opt; ty q
  | |- typed _ (some _) _ => unfold some; ty q
  | |- typed _ (times _ _) _ => cbn [times]; ty q
  | |- typed Out (Str [bDQ]) _ => apply ty_quote
  | |- typed Open (Str [bDQ]) _ => q
  | |- typed Out DQUOTE _ => apply ty_quote
  | |- typed Open DQUOTE _ => q
  | |- typed _ SP _ => unfold SP; ty q
  | |- typed _ DIGIT _ => unfold DIGIT; ty q
  | |- typed _ digit_nz _ => unfold digit_nz; ty q
  | |- typed _ (Str _) _ => apply ty_word; reflexivity
  | |- typed _ (Chr _) _ => apply ty_chr; chars
  | |- typed _ Eps _ => apply ty_eps
  | |- typed _ (Cat _ _) _ => eapply ty_cat; [ty q | ty q | reflexivity]
  | |- typed _ (Or _ _) _ => eapply ty_or; [ty q | ty q]
  | |- typed _ (Many _) _ => apply ty_many; ty q
  | |- typed _ (Ref _) _ => apply ty_ref; reflexivity
  | |- typed _ (Where _ _) _ => apply ty_where; ty q
  | |- typed _ (Feature _ _) _ => apply ty_feature; intros ?; ty q
  | |- typed _ (Extra _) _ => apply ty_extra; intros ?; ty q
  | |- typed _ (Limit _ _) _ => apply ty_limit; ty q
  | |- typed _ (Beyond _) _ => apply ty_beyond; ty q
  | |- _ => idtac
  end.

Ltac tyo := ty ltac:(apply ty_close).
Ltac tyi := ty ltac:(apply ty_word; reflexivity).

Lemma ty_string : typed Out (rules String_) Out.
Proof.
  cbn [rules]. apply ty_or; [apply ty_or; [apply ty_or |] |].
  - tyo.
  - tyo.
  - apply ty_feature. intros _. apply (ty_cat _ Open); [tyo | | reflexivity]. apply (ty_cat _ Open); [| tyo | reflexivity].
    apply ty_prose. intros t. apply ok_utf8. now intros b (_ & _ & H).
  - apply ty_extra. intros E1. apply ty_feature. intros E2. elim (U E2 E1).
Qed.
Lemma ty_literal : typed Out (rules Literal) Out.
Proof.
  cbn [rules]. apply ty_or; [| apply ty_extra; intros _; apply ty_feature; intros Q]; apply ty_prose; intros t.
  - apply (literal_calm []); [auto |]. intros x ->. now left.
  - apply (literal_calm []); [auto |]. intros x ->. now right.
Qed.
Lemma ty_literal8 : typed Out (rules Literal8) Out.
Proof.
  assert (T : forall x, calm x -> calm (bs "~" ++ x)) by (intros x H; now apply calm_plain).
  cbn [rules]. apply ty_or; [| apply ty_extra; intros _; apply ty_feature; intros Q]; apply ty_prose; intros t.
  - apply (literal_calm (bs "~")); [exact T |]. intros x ->. now left.
  - apply (literal_calm (bs "~")); [exact T |]. intros x ->. now right.
Qed.
Lemma typed_rules r s s' : goes r s = Some s' -> typed s (rules r) s'.
Proof.
  destruct s; cbn [goes]; intros G.
  - destruct (ending r) eqn:N.
    + injection G as <-. destruct r; try discriminate N; cbn [rules]; [tyo | tyo | apply ty_line; tyi | tyo].
    + destruct (outside r) eqn:O; [| discriminate G]. injection G as <-.
      destruct r; try discriminate O; try discriminate N; try exact ty_string; try exact ty_literal; try exact ty_literal8; try match goal with n : nat |- _ => destruct n end; cbn [rules deeper]; tyo.
  - destruct (inside r) eqn:N; [| discriminate G]. injection G as <-.
    destruct r; try discriminate N; cbn [rules deeper]; tyi.
Qed.

Lemma dquote_only t : same_letters t [bDQ] -> t = [bDQ].
Proof.
  intros H. inversion H as [| a b x y E K]; subst. inversion K; subst. f_equal.
  destruct E as [-> | [[A B] | [A B]]]; [reflexivity | exfalso; cbn in B; lia | exfalso; cbn in A; lia].
Qed.
Lemma leads_quote t : same_letters t [bDQ] -> leads Out Open t.
Proof. intros H. rewrite (dquote_only t H). exists [], [bDQ]. repeat split; auto. apply calm_nil. Qed.
Lemma leads_close t : same_letters t [bDQ] -> leads Open Out t.
Proof. intros H. rewrite (dquote_only t H). exists [], bDQ, []. repeat split; auto. apply calm_nil. Qed.
Lemma typed_leads a t : derives extras limits a t -> forall s s', typed s a s' -> leads s s' t.
Proof.
  induction 1; intros s1 s2 T; (match type of T with typed _ ?x _ => remember x as y eqn:E; induction T; try discriminate E end);
    try (apply leads_open; now apply IHT); try (apply leads_line; now apply IHT);
    first [injection E; clear E; intros; subst | idtac]; auto.
  all: try (apply leads_ok; eapply letters_ok; eassumption).
  all: try (apply leads_quote; assumption).
  all: try (apply leads_close; assumption).
  all: try apply leads_nil.
  all: try (eapply leads_app; eauto; fail).
  all: try (apply IHderives, typed_rules; assumption).
  all: try (apply leads_ok; cbn; match goal with H : forall b, _ -> okb _ b = true |- _ => rewrite H by assumption end; reflexivity).
  all: try (apply (leads_app s s); [now destruct s | auto | apply IHderives2; now apply ty_many]).
Qed.
End Typed.

(** ** Whole messages *)
Section Messages.
Context {F : features}.
Lemma D_cat_inv x l a b t : derives x l (Cat a b) t -> exists u v, t = u ++ v /\ derives x l a u /\ derives x l b v.
Proof. inversion 1; subst. eauto. Qed.
Lemma crlf_inv x l t : derives x l (Ref CRLF) t -> t = [bCR; bLF] \/ t = [bLF].
Proof.
  assert (N : forall s, forallb (fun b => bN b <? 65) s = true -> forall u, same_letters u s -> u = s).
  { intros s H u E. induction E as [| a b u s E K IH]; [reflexivity |]. cbn in H. apply andb_true_iff in H as [H1 H2]. rewrite (IH H2). f_equal.
    apply N.ltb_lt in H1. destruct E as [E | [[A B] | [A B]]]; [exact E | lia | lia]. }
  intros H. inversion H as [| | | | | | | | r u K | | | | | |]; subst. cbn in K. inversion K as [| | | | a b u J | a b u J | | | | | | | | |]; subst.
  - left. inversion J; subst. now apply N.
  - right. inversion J as [| | | | | | | | | | | | a u X Y | |]; subst. inversion Y as [| | | | | | | | | | | b a u B Z | | |]; subst.
    inversion Z; subst. now apply N.
Qed.
Lemma eol_line e : e = [bCR; bLF] \/ e = [bLF] -> is_line e /\ forall w, ~ In bLF w -> is_line (w ++ e).
Proof.
  intros [-> | ->].
  - assert (L : is_line [bCR; bLF]) by (exists [bCR]; split; [reflexivity | intros [K | []]; discriminate]).
    split; [exact L |]. intros w W. now apply is_line_app.
  - assert (L : is_line [bLF]) by (exists []; split; [reflexivity | intros []]).
    split; [exact L |]. intros w W. now apply is_line_app.
Qed.
Lemma eol_quiet e a : e = [bCR; bLF] \/ e = [bLF] -> ~ announces e a.
Proof.
  intros E (pre & ds & el & H & _). assert (K : In "{"%byte e) by (rewrite H; apply in_or_app; right; now left).
  destruct E as [-> | ->]; repeat (destruct K as [K | K]; [discriminate |]); contradiction.
Qed.
Lemma calm_framed t e : calm t -> e = [bCR; bLF] \/ e = [bLF] -> message (t ++ e).
Proof.
  intros C E. apply calm_message; [exact C |]. apply message_last; [now apply eol_line |]. intros a. now apply eol_quiet.
Qed.
Lemma line_framed t e : leads Out Open t -> e = [bCR; bLF] \/ e = [bLF] -> (forall a, ~ announces (t ++ e) a) -> message (t ++ e).
Proof.
  intros (a & w & -> & C & W) E N. rewrite <- app_assoc. apply calm_message; [exact C |].
  apply message_last; [apply eol_line; [exact E | now apply on_line_lf] |].
  intros n (pre & ds & el & H & R). apply (N n). exists (a ++ pre), ds, el. split; [| exact R]. now rewrite <- !app_assoc, H.
Qed.
Lemma end1 x l a t : derives x l (Cat a (Ref CRLF)) t -> exists u e, t = u ++ e /\ derives x l a u /\ (e = [bCR; bLF] \/ e = [bLF]).
Proof. intros H. apply D_cat_inv in H as (u & e & -> & H & E). apply crlf_inv in E. eauto. Qed.
Lemma end2 x l a b t : derives x l (Cat a (Cat b (Ref CRLF))) t -> exists u e, t = u ++ e /\ derives x l (Cat a b) u /\ (e = [bCR; bLF] \/ e = [bLF]).
Proof.
  intros H. apply D_cat_inv in H as (u & v & -> & H & K). apply end1 in K as (w & e & -> & K & E).
  exists (u ++ w), e. rewrite app_assoc. split; [reflexivity |]. split; [now apply d_cat | exact E].
Qed.
Lemma end3 x l a b c t : derives x l (Cat a (Cat b (Cat c (Ref CRLF)))) t ->
  exists u e, t = u ++ e /\ derives x l (Cat a (Cat b c)) u /\ (e = [bCR; bLF] \/ e = [bLF]).
Proof.
  intros H. apply D_cat_inv in H as (u & v & -> & H & K). apply end2 in K as (w & e & -> & K & E).
  exists (u ++ w), e. rewrite app_assoc. split; [reflexivity |]. split; [now apply d_cat | exact E].
Qed.
Lemma D_ref_inv x l r t : derives x l (Ref r) t -> derives x l (rules r) t.
Proof. now inversion 1. Qed.
End Messages.
