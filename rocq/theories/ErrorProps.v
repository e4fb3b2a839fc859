(** C75: the texts of the errors can be logged and shown: they say what is wrong with which argument, they are unambiguous,
    they are one line of printable ASCII whatever the arguments are, and they do not contain the arguments. *)

From Verif Require Import Bytes BytesFacts Dec Types Conv Ctors ValueSpec ValueFacts Base64 ValueProps BuildProps SentFacts SeqSpec SeqText SeqProps ErrorText.
Open Scope nat_scope.

(** ** What the texts say *)
Definition PRINTABLE (b : byte) : Prop := (0x20 <= bN b <= 0x7e)%N.
(** A digit of a hexadecimal number (lower case) *)
Definition hex_value (c : byte) (v : N) : Prop :=
  (0x30 <= bN c <= 0x39 /\ v = bN c - 0x30)%N \/ (0x61 <= bN c <= 0x66 /\ v = bN c - 0x61 + 10)%N.
(** A number as it is usually written *)
Definition number (t : bytes) (n : N) : Prop := t <> [] /\ digits t n /\ (forall u, t = bs "0" ++ u -> u = []).
Inductive integer : bytes -> Z -> Prop :=
| int_pos t n : number t n -> integer t (Z.of_N n)
| int_neg t n : number t n -> n <> 0%N -> integer (bs "-" ++ t) (- Z.of_N n).
Inductive says : bytes -> verror -> Prop :=
| says_empty : says (bs "Validation failed: Must not be empty") VEmpty
| says_invalid : says (bs "Validation failed: Invalid value") VInvalid
| says_few t n : number t (N.of_nat n) -> says (bs "Validation failed: Must have at least " ++ t ++ bs " elements") (VNotEnough n)
| says_byte h1 h2 v1 v2 b t i : hex_value h1 v1 -> hex_value h2 v2 -> bN b = (16 * v1 + v2)%N -> number t (N.of_nat i) ->
    says (bs "Validation failed: Invalid byte b'\x" ++ [h1; h2] ++ bs "' at index " ++ t) (VInvalidByteAt b i).
Inductive says_date : bytes -> date_error -> Prop :=
| says_year t z : integer t z -> says_date (bs "expected `0 <= year <= 9999`, got " ++ t) (YearOutOfRange z)
| says_nanos t n : number t n -> says_date (bs "expected `nanos == 0`, got " ++ t) (UnalignedNanoSeconds n)
| says_offset t z : integer t z -> says_date (bs "expected `offset % 60 == 0`, got " ++ t) (UnalignedOffset z).

(** ** Facts *)
Lemma number_dec n : number (dec n) n.
Proof.
  split; [apply dec_nonempty |]. split; [apply dec_is |]. intros u E.
  destruct (N.eq_dec n 0) as [-> | H]; [now injection E |].
  destruct (SentFacts.dec_head n H) as (b & t & E2 & B & _). rewrite E2 in E. injection E as -> _. cbn in B. lia.
Qed.
Lemma digits_fun t n m : digits t n -> digits t m -> n = m.
Proof. rewrite !digits_spec. intros [_ <-] [_ <-]. reflexivity. Qed.
Lemma number_fun t n m : number t n -> number t m -> n = m.
Proof. intros (_ & A & _) (_ & B & _). exact (digits_fun _ _ _ A B). Qed.
Lemma number_digit t n : number t n -> Forall (fun b => 0x30 <= bN b <= 0x39)%N t.
Proof.
  intros (_ & H & _). induction H as [| s n b H IH B]; [constructor |]. apply Forall_app. split; [exact IH |]. now constructor.
Qed.
Lemma number_printable t n : number t n -> Forall PRINTABLE t.
Proof. intros H. apply number_digit in H. revert H. apply Forall_impl. unfold PRINTABLE. lia. Qed.
Lemma number_no_minus t n : number t n -> forall u, t <> bs "-" ++ u.
Proof. intros H u ->. apply number_digit in H. inversion H as [| b l B]; subst. cbn in B. lia. Qed.
Lemma integer_fun t x y : integer t x -> integer t y -> x = y.
Proof.
  intros X Y. destruct X as [t n N | t n N Z]; inversion Y as [t' m M E | t' m M Z' E]; subst.
  - now rewrite (number_fun _ _ _ N M).
  - now destruct (number_no_minus _ _ N t').
  - now destruct (number_no_minus _ _ M t).
  - now rewrite (number_fun _ _ _ N M).
Qed.
Lemma integer_printable t z : integer t z -> Forall PRINTABLE t.
Proof.
  destruct 1 as [t n N | t n N Z]; [now apply (number_printable t n) |].
  constructor; [unfold PRINTABLE; cbn; lia | now apply (number_printable t n)].
Qed.
Lemma integer_str z : integer (int_str z) z.
Proof.
  unfold int_str. destruct (Z.ltb_spec z 0) as [L | L].
  - replace z with (- Z.of_N (Z.abs_N z))%Z at 2 by lia. apply int_neg; [apply number_dec | lia].
  - replace z with (Z.of_N (Z.abs_N z)) at 2 by lia. apply int_pos, number_dec.
Qed.
Lemma hex_digit_value n : (n < 16)%N -> hex_value (hex_digit n) n.
Proof.
  intros H. assert (K : In n (map N.of_nat (seq 0 16))).
  { apply in_map_iff. exists (N.to_nat n). split; [lia |]. apply in_seq. lia. }
  cbn in K. unfold hex_value. repeat (destruct K as [<- | K]; [cbn; lia |]). destruct K.
Qed.
Lemma hex_value_fun c x y : hex_value c x -> hex_value c y -> x = y.
Proof. unfold hex_value. lia. Qed.
Lemma hex_printable c x : hex_value c x -> PRINTABLE c.
Proof. unfold hex_value, PRINTABLE. lia. Qed.
Lemma printable_text t : forallb (inb 0x20 0x7e) t = true -> Forall PRINTABLE t.
Proof.
  intros H. apply Forall_forall. intros b I. rewrite forallb_forall in H. specialize (H b I). unfold inb in H.
  apply andb_true_iff in H as [A B]. unfold PRINTABLE. apply N.leb_le in A, B. now split.
Qed.
Lemma says_printable t e : says t e -> Forall PRINTABLE t.
Proof.
  destruct 1 as [| | t n N | h1 h2 v1 v2 b t i H1 H2 _ N].
  - now apply printable_text.
  - now apply printable_text.
  - apply Forall_app. split; [now apply printable_text |]. apply Forall_app. split; [now apply (number_printable t (N.of_nat n)) | now apply printable_text].
  - apply Forall_app. split; [now apply printable_text |]. apply Forall_app.
    split; [constructor; [now apply (hex_printable h1 v1) | constructor; [now apply (hex_printable h2 v2) | constructor]] |].
    apply Forall_app. split; [now apply printable_text | now apply (number_printable t (N.of_nat i))].
Qed.
Lemma says_head t e : says t e -> exists u, t = bs "Validation failed: " ++ u.
Proof. destruct 1; eexists; reflexivity. Qed.
Lemma says_fun t e f : says t e -> says t f -> e = f.
Proof.
  intros A B. destruct A as [| | t n N | h1 h2 v1 v2 b t i H1 H2 V N].
  - inversion B; try reflexivity; discriminate.
  - inversion B; try reflexivity; discriminate.
  - inversion B as [E | E | t' n' N' E | g1 g2 w1 w2 c t' j G1 G2 W N' E]; try discriminate.
    f_equal. apply app_inv_tail in E as ->. apply Nnat.Nat2N.inj. exact (number_fun _ _ _ N N').
  - inversion B as [E | E | t' n' N' E | g1 g2 w1 w2 c t' j G1 G2 W N' E]; try discriminate.
    subst.
    rewrite (hex_value_fun _ _ _ G1 H1), (hex_value_fun _ _ _ G2 H2) in W. rewrite <- V in W.
    f_equal; [symmetry; now apply bN_inj | apply Nnat.Nat2N.inj; exact (number_fun _ _ _ N N')].
Qed.

(** ** C75 *)
(** Every error is described by its text ... *)
Theorem C75_says : forall e, says (verror_str e) e.
Proof.
  intros [| n | | b i].
  - apply says_empty.
  - exact (says_few _ n (number_dec _)).
  - apply says_invalid.
  - apply (says_byte _ _ (bN b / 16) (bN b mod 16)).
    + apply hex_digit_value. apply N.div_lt_upper_bound; [lia |]. pose proof (bN_lt b). lia.
    + apply hex_digit_value. apply N.mod_lt. lia.
    + apply N.div_mod. lia.
    + apply number_dec.
Qed.
Theorem C75_says_date : forall e, says_date (date_error_str e) e.
Proof. intros [z | n | z]; constructor; apply integer_str || apply number_dec. Qed.
(** ... and by no other one: a text is the description of only one error. *)
Theorem C75_unambiguous : forall t e f, says t e -> says t f -> e = f.
Proof. exact says_fun. Qed.
Theorem C75_unambiguous_date : forall t e f, says_date t e -> says_date t f -> e = f.
Proof.
  intros t e f A B. destruct A as [t z Z | t n N | t z Z]; inversion B as [t' y Y E | t' y Y E | t' y Y E]; subst; try discriminate.
  - f_equal. exact (integer_fun _ _ _ Z Y).
  - f_equal. exact (number_fun _ _ _ N Y).
  - f_equal. exact (integer_fun _ _ _ Z Y).
Qed.
(** The texts of a constructor's errors also say which argument is wrong. *)
Lemma prefixes_apart v i j a b s t : In v all_variants -> nth_error v i = Some a -> nth_error v j = Some b ->
  a ++ bs "Validation failed: " ++ s = b ++ bs "Validation failed: " ++ t -> i = j.
Proof.
  intros V A B E. unfold all_variants in V. cbn in V.
  repeat (destruct V as [<- | V]; [destruct i as [| [| [| i]]]; cbn in A; try (destruct i; discriminate A); try discriminate A;
    destruct j as [| [| [| j]]]; cbn in B; try (destruct j; discriminate B); try discriminate B;
    try reflexivity; injection A as <-; injection B as <-; discriminate E |]).
  destruct V.
Qed.
Theorem C75_argument : forall A B v (x : built A) (y : built B) t, In v all_variants ->
  error_str v x = Some t -> error_str v y = Some t -> exists i e, x = BadArg i e /\ y = BadArg i e.
Proof.
  intros A B v x y t V X Y. destruct x as [| i e |]; try discriminate. destruct y as [| j f |]; try discriminate.
  cbn in X, Y. destruct (nth_error v i) as [a |] eqn:I; [| discriminate]. destruct (nth_error v j) as [b |] eqn:J; [| discriminate].
  cbn in X, Y. injection X as <-. injection Y as E.
  assert (i = j) as <- by exact (prefixes_apart v i j a b _ _ V I J (eq_sym E)).
  rewrite I in J. injection J as <-. apply (app_inv_head a (verror_str f) (verror_str e)) in E.
  assert (e = f) as <- by (apply (says_fun (verror_str e)); [apply C75_says | rewrite <- E; apply C75_says]).
  now exists i, e.
Qed.
(** Whatever the arguments are, the text is one line of printable ASCII. *)
Theorem C75_printable : forall A v (r : built A) t, In v all_variants -> error_str v r = Some t -> Forall PRINTABLE t.
Proof.
  intros A v r t V E. destruct r as [| i e |]; try discriminate. cbn in E.
  destruct (nth_error v i) as [a |] eqn:I; [| discriminate]. injection E as <-. apply Forall_app. split; [| exact (says_printable _ _ (C75_says e))].
  apply printable_text. apply nth_error_In in I. revert a I. apply (proj1 (forallb_forall _ v)). revert v V.
  apply (proj1 (forallb_forall (fun v => forallb (forallb (inb 0x20 0x7e)) v) all_variants)). reflexivity.
Qed.
Theorem C75_printable_date : forall e, Forall PRINTABLE (date_error_str e).
Proof.
  intros e. destruct e as [z | n | z]; apply Forall_app; (split; [now apply printable_text |]);
    [exact (integer_printable _ _ (integer_str z)) | exact (number_printable _ _ (number_dec n)) | exact (integer_printable _ _ (integer_str z))].
Qed.

(** ** The constructors
    [first_nul s i]: the first NUL byte of [s] is at [i]; it is the only byte that cannot be in a string. *)
Definition first_nul (s : bytes) (i : nat) : Prop := exists l r, s = l ++ x00 :: r /\ length l = i /\ ~ In x00 l.
Lemma first_nul_wrong s i : first_nul s i <-> first_wrong CHAR8 s x00 i.
Proof.
  split; intros (l & r & E & L & H); exists l, r; (split; [exact E |]); (split; [exact L |]).
  - split; [| intros K; apply K; reflexivity]. apply Forall_forall. intros b B. unfold CHAR8. intros K. apply H.
    replace x00 with b; [exact B | now apply bN_inj].
  - destruct H as [H _]. rewrite Forall_forall in H. intros K. exact (H _ K eq_refl).
Qed.
Lemma no_nul s : ~ In x00 s <-> many_of CHAR8 s.
Proof.
  unfold many_of. rewrite Forall_forall. unfold CHAR8. split.
  - intros H b B K. apply H. replace x00 with b; [exact B | now apply bN_inj].
  - intros H K. exact (H _ K eq_refl).
Qed.
Lemma wrong_nul s b i : first_wrong CHAR8 s b i -> b = x00.
Proof. intros (l & r & _ & _ & _ & H). destruct (N.eq_dec (bN b) 0) as [E | E]; [now apply bN_inj | contradiction]. Qed.
Definition nul_at (t : bytes) (i : nat) : Prop :=
  exists n, number n (N.of_nat i) /\ t = bs "Validation failed: Invalid byte b'\x00' at index " ++ n.
Lemma nul_str i : nul_at (verror_str (VInvalidByteAt x00 i)) i.
Proof. exists (dec (N.of_nat i)). split; [apply number_dec | reflexivity]. Qed.
(** A conversion of a string *)
Definition refuses_nul {A} (f : bytes -> conv A) : Prop := forall s,
  (~ In x00 s -> exists a, f s = COk a) /\ (forall i, first_nul s i -> f s = CErr (VInvalidByteAt x00 i)).
Lemma astring_nul : refuses_nul astring_from_bytes.
Proof.
  intros s. rewrite no_nul. split; [intros H; destruct (proj1 (C26_astring s) H) as (a & E & _); eauto |].
  intros i H. apply first_nul_wrong in H. now apply C26_astring.
Qed.
Lemma mailbox_nul : refuses_nul mailbox_from_bytes.
Proof.
  intros s. rewrite no_nul. split; [intros H; destruct (C27_convert s H) as (a & E & _); eauto |].
  intros i H. apply first_nul_wrong in H. now apply C27_convert_error.
Qed.
Lemma list_mailbox_nul : refuses_nul list_mailbox_from_str.
Proof.
  intros s. rewrite no_nul. split; [intros H; destruct (proj1 (C26_list_mailbox s) H) as (a & E & _); eauto |].
  intros i H. apply first_nul_wrong in H. now apply C26_list_mailbox.
Qed.
Lemma literal_nul : refuses_nul literal_from_bytes.
Proof.
  destruct C26_literal as (A & B & _). intros s. rewrite no_nul. split; [intros H; rewrite (A s H); eauto |].
  intros i H. apply first_nul_wrong in H. now apply B.
Qed.
(** A constructor of two strings *)
Definition names_both {A} (first second : bytes) (v : variants) (make : bytes -> bytes -> built A) : Prop := forall s t,
  (forall i, first_nul s i -> exists x, nul_at x i /\ error_str v (make s t) = Some (first ++ x)) /\
  (forall i, ~ In x00 s -> first_nul t i -> exists x, nul_at x i /\ error_str v (make s t) = Some (second ++ x)) /\
  (~ In x00 s -> ~ In x00 t -> error_str v (make s t) = None /\ exists a, make s t = Built a).
Lemma both {A B C} (f : bytes -> conv A) (g : bytes -> conv B) (k : A -> B -> C) first second :
  refuses_nul f -> refuses_nul g ->
  names_both first second [first; second] (fun s t => with_arg 0 (f s) (fun a => with_arg 1 (g t) (fun b => Built (k a b)))).
Proof.
  intros F G s t. split; [| split].
  - intros i H. rewrite (proj2 (F s) i H). eexists. split; [apply nul_str | reflexivity].
  - intros i N H. destruct (proj1 (F s) N) as (a & ->). cbn [with_arg]. rewrite (proj2 (G t) i H). eexists. split; [apply nul_str | reflexivity].
  - intros N M. destruct (proj1 (F s) N) as (a & ->). destruct (proj1 (G t) M) as (b & ->). cbn. split; [reflexivity | eauto].
Qed.
Theorem C75_strings :
  names_both (bs "Invalid username: ") (bs "Invalid password: ") login_error cb_login /\
  names_both (bs "Invalid (from) mailbox: ") (bs "Invalid (to) mailbox: ") rename_error cb_rename /\
  names_both (bs "Invalid reference: ") (bs "Invalid mailbox: ") list_error cb_list /\
  names_both (bs "Invalid reference: ") (bs "Invalid mailbox: ") list_error cb_lsub /\
  forall flags date, names_both (bs "Invalid mailbox: ") (bs "Invalid data: ") append_error (fun m d => cb_append m flags date d).
Proof.
  split; [exact (both _ _ CLogin _ _ astring_nul astring_nul) |].
  split; [exact (both _ _ CRename _ _ mailbox_nul mailbox_nul) |].
  split; [exact (both _ _ CList _ _ mailbox_nul list_mailbox_nul) |].
  split; [exact (both _ _ CLsub _ _ mailbox_nul list_mailbox_nul) |].
  intros flags date. exact (both _ _ (fun m d => CAppend m flags date (LLiteral d)) _ _ mailbox_nul literal_nul).
Qed.
(** COPY and MOVE *)
Theorem C75_copy : forall s m uid,
  let both v := error_str v (cb_copy s m uid) = error_str v (cb_move s m uid) in
  both copy_error /\ error_str copy_error (cb_copy s m uid) = error_str move_error (cb_copy s m uid) /\
  (wrong_set s -> error_str copy_error (cb_copy s m uid) = Some (bs "Invalid sequence: Validation failed: Invalid value")) /\
  (forall x i, sequence_set_text s x -> first_nul m i ->
     exists t, nul_at t i /\ error_str copy_error (cb_copy s m uid) = Some (bs "Invalid mailbox: " ++ t)).
Proof.
  intros s m uid. split; [| split; [reflexivity | split]].
  - unfold cb_copy, cb_move. destruct (sequence_set_conv s); try reflexivity. cbn. now destruct (mailbox_from_bytes m).
  - intros W. destruct (C43_set_error s W) as (_ & _ & H & _). now rewrite H.
  - intros x i X N. apply first_nul_wrong in N. rewrite (proj1 (C43_copy_error s x m x00 i uid X N)). eexists. split; [apply nul_str | reflexivity].
Qed.
(** Quotas *)
Theorem C75_quota : forall s,
  (forall i, first_nul s i -> exists t, nul_at t i /\
     (forall l, error_str quota_error (data_quota s l) = Some (bs "Invalid root: " ++ t)) /\
     (forall l, error_str quota_root_error (data_quota_root s l) = Some (bs "Invalid mailbox: " ++ t)) /\
     (forall l, error_str set_quota_error (cb_set_quota s l) = Some (bs "Invalid root: " ++ t)) /\
     error_str plain_error (cb_get_quota s) = Some t) /\
  (~ In x00 s -> error_str quota_error (data_quota s []) = Some (bs "Invalid quotas: Validation failed: Must have at least 1 elements") /\
     (forall l, l <> [] -> error_str quota_error (data_quota s l) = None) /\
     (forall l, error_str quota_root_error (data_quota_root s l) = None) /\
     (forall l, error_str set_quota_error (cb_set_quota s l) = None) /\
     error_str plain_error (cb_get_quota s) = None).
Proof.
  intros s. split.
  - intros i H. eexists. split; [apply nul_str |]. pose proof (proj2 (astring_nul s) i H) as A. pose proof (proj2 (mailbox_nul s) i H) as M.
    unfold data_quota, data_quota_root, cb_set_quota, cb_get_quota. rewrite A, M. cbn. auto.
  - intros H. destruct (proj1 (astring_nul s) H) as (a & A). destruct (proj1 (mailbox_nul s) H) as (m & M).
    unfold data_quota, data_quota_root, cb_set_quota, cb_get_quota. rewrite A, M.
    split; [reflexivity |]. split; [| cbn; auto]. intros [| q l] L; [contradiction |]. reflexivity.
Qed.
(** Tags *)
Theorem C75_tag : forall tag b,
  (tag = [] -> error_str plain_error (command_new tag b) = Some (bs "Validation failed: Must not be empty")) /\
  (forall c i, first_wrong TAG_CHAR tag c i -> exists t, says t (VInvalidByteAt c i) /\ error_str plain_error (command_new tag b) = Some t) /\
  (some_of TAG_CHAR tag -> error_str plain_error (command_new tag b) = None).
Proof.
  intros tag b. destruct (C43_tag tag b) as (A & B & C). split; [| split].
  - intros H. now rewrite (B H).
  - intros c i H. rewrite (C c i H). eexists. split; [apply C75_says | reflexivity].
  - intros H. now rewrite (A H).
Qed.

(** ** Secrets
    The text of a failed LOGIN depends on the password only through the positions of NUL bytes in it. *)
Definition same_nuls (s t : bytes) : Prop := forall i, nth_error s i = Some x00 <-> nth_error t i = Some x00.
Lemma nul_dec s : (~ In x00 s) \/ exists i, first_nul s i.
Proof.
  induction s as [| b s IH]; [left; intros [] |].
  destruct (Byte.byte_eq_dec b x00) as [-> | B]; [right; exists 0, [], s; split; [reflexivity |]; split; [reflexivity | intros []] |].
  destruct IH as [H | (i & l & r & -> & L & H)].
  - left. intros [K | K]; [now apply B | now apply H].
  - right. exists (S i), (b :: l), r. split; [reflexivity |]. split; [now rewrite <- L |]. intros [K | K]; [now apply B | now apply H].
Qed.
Lemma same_first s t i : same_nuls s t -> first_nul s i -> first_nul t i.
Proof.
  intros S (l & r & -> & <- & N). assert (K : nth_error t (length l) = Some x00).
  { apply S. rewrite nth_error_app2 by lia. now rewrite Nat.sub_diag. }
  apply nth_error_split in K as (l' & r' & -> & L). exists l', r'. split; [reflexivity |]. split; [exact L |].
  intros I. apply In_nth_error in I as (j & J). assert (j < length l') by (apply nth_error_Some; congruence).
  apply N. apply (nth_error_In _ j). rewrite <- (nth_error_app1 l (x00 :: r)) by lia. apply S. rewrite nth_error_app1 by lia. exact J.
Qed.
Lemma same_none s t : same_nuls s t -> ~ In x00 s -> ~ In x00 t.
Proof. intros S N I. apply In_nth_error in I as (j & J). apply N. apply (nth_error_In _ j). now apply S. Qed.
Theorem C75_password : forall u p p', same_nuls p p' -> error_str login_error (cb_login u p) = error_str login_error (cb_login u p').
Proof.
  intros u p p' S. unfold cb_login. destruct (astring_from_bytes u) as [a | e |]; try reflexivity. cbn [with_arg].
  destruct (nul_dec p) as [N | (i & N)].
  - destruct (proj1 (astring_nul p) N) as (b & ->). destruct (proj1 (astring_nul p') (same_none _ _ S N)) as (c & ->). reflexivity.
  - rewrite (proj2 (astring_nul p) i N), (proj2 (astring_nul p') i (same_first _ _ _ S N)). reflexivity.
Qed.

(** ** Dates *)
Theorem C75_dates : forall year nanos offset,
  let text := option_map date_error_str (validate_date_time year nanos offset) in
  ((year < 0 \/ 9999 < year)%Z -> exists t, integer t year /\ text = Some (bs "expected `0 <= year <= 9999`, got " ++ t) /\
     option_map date_error_str (validate_naive_date year) = text) /\
  ((0 <= year <= 9999)%Z -> option_map date_error_str (validate_naive_date year) = None) /\
  ((0 <= year <= 9999)%Z -> nanos <> 0%N -> exists t, number t nanos /\ text = Some (bs "expected `nanos == 0`, got " ++ t)) /\
  ((0 <= year <= 9999)%Z -> nanos = 0%N -> (exists k, offset = 60 * k)%Z -> text = None) /\
  ((0 <= year <= 9999)%Z -> nanos = 0%N -> ~ (exists k, offset = 60 * k)%Z ->
     exists t r, integer t r /\ text = Some (bs "expected `offset % 60 == 0`, got " ++ t) /\
       (exists k, offset = 60 * k + r)%Z /\ (r <> 0)%Z /\ (Z.abs r < 60)%Z /\ (0 < offset * r)%Z).
Proof.
  intros year nanos offset text. unfold text, validate_date_time, validate_naive_date.
  assert (R : (0 <= year <= 9999)%Z -> (0 <=? year)%Z && (year <=? 9999)%Z = true) by (intros; apply andb_true_iff; lia).
  split; [| split; [| split; [| split]]].
  - intros H. assert ((0 <=? year)%Z && (year <=? 9999)%Z = false) as -> by (apply andb_false_iff; lia).
    eexists. split; [apply integer_str |]. split; reflexivity.
  - intros H. now rewrite R.
  - intros H N. rewrite (R H). cbn [negb]. apply N.eqb_neq in N. rewrite N. eexists. split; [apply number_dec | reflexivity].
  - intros H -> (k & ->). rewrite (R H). cbn [negb N.eqb]. rewrite Z.mul_comm, Z.rem_mul by lia. reflexivity.
  - intros H -> N. rewrite (R H). cbn [negb N.eqb].
    assert (Q : Z.rem offset 60 <> 0%Z).
    { intros E. apply N. exists (Z.quot offset 60). pose proof (Z.quot_rem offset 60). lia. }
    destruct (Z.eqb_spec (Z.rem offset 60) 0) as [E | _]; [contradiction |].
    exists (int_str (Z.rem offset 60)), (Z.rem offset 60). split; [apply integer_str |]. split; [reflexivity |].
    split; [exists (Z.quot offset 60); pose proof (Z.quot_rem offset 60); lia |]. split; [exact Q |].
    split; [pose proof (Z.rem_bound_abs offset 60); lia |].
    destruct (Z_lt_le_dec offset 0) as [L | L].
    + assert (Z.rem offset 60 <= 0)%Z by (apply Z.rem_nonpos; lia). nia.
    + assert (0 <= Z.rem offset 60)%Z by (apply Z.rem_nonneg; lia).
      assert (offset <> 0)%Z by (intros ->; now apply Q). nia.
Qed.
(** ** The other errors *)
Theorem C75_continue : forall c t,
  (~ some_of TEXT_CHAR t -> continue_error_str (continue_basic_new c t) = Some (bs "invalid text")) /\
  (some_of TEXT_CHAR t -> c = None -> (exists u, t = bs "[" ++ u) \/ (exists p, base64 p t) ->
     continue_error_str (continue_basic_new c t) = Some (bs "ambiguity detected")) /\
  (some_of TEXT_CHAR t -> c <> None \/ (~ (exists u, t = bs "[" ++ u) /\ ~ (exists p, base64 p t)) ->
     continue_error_str (continue_basic_new c t) = None).
Proof.
  intros c t. unfold continue_basic_new.
  assert (St : starts_with (bs "[") t = true <-> exists u, t = bs "[" ++ u).
  { split; [| intros (u & ->); reflexivity]. unfold starts_with. intros H. apply beqs_eq in H. cbn in H.
    destruct t as [| b t]; [discriminate |]. injection H as <-. now exists t. }
  assert (B64 : (match b64_decode t with Some _ => true | None => false end) = true <-> exists p, base64 p t).
  { split.
    - destruct (b64_decode t) as [p |] eqn:E; [| discriminate]. intros _. exists p. now apply base64_spec.
    - intros (p & H). apply base64_spec in H. now rewrite H. }
  split; [| split].
  - intros N. destruct text_conv as (_ & Em & W & Cs). destruct (Cs t) as [K | [-> | (b & i & K)]]; [contradiction | now rewrite Em | now rewrite (W t b i K)].
  - intros T -> H. rewrite (proj1 text_conv t T). cbn [with_arg andb]. destruct H as [H | H].
    + apply St in H. now rewrite H.
    + apply B64 in H. destruct (starts_with (bs "[") t); [reflexivity |]. now rewrite H.
  - intros T H. rewrite (proj1 text_conv t T). cbn [with_arg]. destruct c as [c |]; [reflexivity |]. destruct H as [H | [H1 H2]]; [contradiction |].
    rewrite <- St in H1. rewrite <- B64 in H2. apply not_true_is_false in H1, H2. now rewrite H1, H2.
Qed.
Theorem C75_mailbox_other : forall s,
  (same_letters s (bs "inbox") -> mailbox_other_error_str (mailbox_other_from_bytes s) = Some (bs "Reserved: Please use one of the typed variants")) /\
  (forall i, first_nul s i -> exists t, nul_at t i /\ mailbox_other_error_str (mailbox_other_from_bytes s) = Some t) /\
  (~ same_letters s (bs "inbox") -> ~ In x00 s -> mailbox_other_error_str (mailbox_other_from_bytes s) = None).
Proof.
  intros s. destruct (C27_other s) as (A & B & C). split; [| split].
  - intros H. now rewrite (A H).
  - intros i H. apply first_nul_wrong in H. rewrite (C _ _ H). eexists. split; [apply nul_str | reflexivity].
  - intros H N. apply no_nul in N. destruct (B H N) as (a & -> & _). reflexivity.
Qed.
Theorem C75_fetch : forall n l, (n <= u32_max)%N ->
  (n = 0%N -> fetch_error_str (data_fetch n l) = Some (bs "Invalid sequence or UID: TryFromIntError(())")) /\
  (n <> 0%N -> l = [] -> fetch_error_str (data_fetch n l) = Some (bs "Invalid items: ValidationError { kind: NotEnough { min: 1 } }")) /\
  (n <> 0%N -> l <> [] -> fetch_error_str (data_fetch n l) = None).
Proof.
  intros n l _. unfold data_fetch, nz_from. split; [| split].
  - intros ->. reflexivity.
  - intros N ->. apply N.eqb_neq in N. rewrite N. reflexivity.
  - intros N L. apply N.eqb_neq in N. rewrite N. destruct l; [contradiction | reflexivity].
Qed.
Print Assumptions C75_continue.
Print Assumptions C75_mailbox_other.
Print Assumptions C75_fetch.
Print Assumptions C75_says.
Print Assumptions C75_says_date.
Print Assumptions C75_unambiguous.
Print Assumptions C75_unambiguous_date.
Print Assumptions C75_argument.
Print Assumptions C75_printable.
Print Assumptions C75_printable_date.
Print Assumptions C75_strings.
Print Assumptions C75_copy.
Print Assumptions C75_quota.
Print Assumptions C75_tag.
Print Assumptions C75_password.
Print Assumptions C75_dates.

Example C75_cases :
  error_str login_error (cb_login (bs "u") [x41; x00; x42]) = Some (bs "Invalid password: Validation failed: Invalid byte b'\x00' at index 1") /\
  error_str plain_error (command_new [x61; xff] CNoop) = Some (bs "Validation failed: Invalid byte b'\xff' at index 1") /\
  error_str copy_error (cb_copy (bs "1,,2") (bs "x") true) = Some (bs "Invalid sequence: Validation failed: Invalid value") /\
  first_nul [x41; x00; x42] 1 /\ same_nuls [x41; x00; x42] [x61; x00; x62] /\
  date_error_str (YearOutOfRange (-5)) = bs "expected `0 <= year <= 9999`, got -5" /\
  option_map date_error_str (validate_date_time 2024 0 (-3601)) = Some (bs "expected `offset % 60 == 0`, got -1") /\
  continue_error_str (continue_basic_new None (bs "[x")) = Some (bs "ambiguity detected") /\
  continue_error_str (continue_basic_new None (bs "idling")) = None /\
  mailbox_other_error_str (mailbox_other_from_bytes (bs "iNBOX")) = Some (bs "Reserved: Please use one of the typed variants") /\
  verror_debug (VInvalidByteAt xff 3) = bs "ValidationError { kind: InvalidByteAt { byte: 255, at: 3 } }".
Proof.
  split; [reflexivity |]. split; [reflexivity |]. split; [reflexivity |].
  split; [exists [x41], [x42]; split; [reflexivity |]; split; [reflexivity | intros [K | []]; discriminate K] |].
  split; [| repeat split].
  intros [| [| [| i]]]; cbn; split; try discriminate; auto.
Qed.
