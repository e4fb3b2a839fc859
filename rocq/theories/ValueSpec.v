(** What the values of imap-types are, stated without the model's own functions.

    Character classes and string rules as the RFC 3501 ABNF gives them (the rules are quoted in
    the doc comments of /repo/imap-types/src/core.rs and utils.rs), over the numeric value of a
    byte. *)

From Verif Require Import Bytes Features Types Ctors.
Open Scope N_scope.

(** CHAR = %x01-7F *)
Definition CHAR (b : byte) : Prop := 0x01 <= bN b <= 0x7F.
(** CHAR8 = %x01-ff *)
Definition CHAR8 (b : byte) : Prop := bN b <> 0.
(** CTL = %x00-1F / %x7F *)
Definition CTL (b : byte) : Prop := bN b <= 0x1F \/ bN b = 0x7F.
(** TEXT-CHAR = <any CHAR except CR and LF> *)
Definition TEXT_CHAR (b : byte) : Prop := CHAR b /\ b <> x0d /\ b <> x0a.
(** quoted-specials = DQUOTE / backslash *)
Definition quoted_specials (b : byte) : Prop := bN b = 0x22 \/ bN b = 0x5C.
(** list-wildcards = "%" / "*" *)
Definition list_wildcards (b : byte) : Prop := b = "%"%byte \/ b = "*"%byte.
(** resp-specials = "]" *)
Definition resp_specials (b : byte) : Prop := b = "]"%byte.
(** atom-specials = "(" / ")" / "{" / SP / CTL / list-wildcards / quoted-specials /
    resp-specials *)
Definition atom_specials (b : byte) : Prop :=
  b = "("%byte \/ b = ")"%byte \/ b = "{"%byte \/ b = " "%byte \/ CTL b \/ list_wildcards b
  \/ quoted_specials b \/ resp_specials b.
(** ATOM-CHAR = <any CHAR except atom-specials> *)
Definition ATOM_CHAR (b : byte) : Prop := CHAR b /\ ~ atom_specials b.
(** ASTRING-CHAR = ATOM-CHAR / resp-specials *)
Definition ASTRING_CHAR (b : byte) : Prop := ATOM_CHAR b \/ resp_specials b.
(** tag = 1*<any ASTRING-CHAR except "+"> *)
Definition TAG_CHAR (b : byte) : Prop := ASTRING_CHAR b /\ b <> "+"%byte.
(** list-char = ATOM-CHAR / list-wildcards / resp-specials *)
Definition LIST_CHAR (b : byte) : Prop := ATOM_CHAR b \/ list_wildcards b \/ resp_specials b.
(** QUOTED-CHAR = <any TEXT-CHAR except quoted-specials> / backslash quoted-specials:
    the characters it can stand for, by code point. *)
Definition QUOTED_CHAR_VALUE (c : N) : Prop := exists b, TEXT_CHAR b /\ c = bN b.

(** 1*X and *X *)
Definition some_of (X : byte -> Prop) (s : bytes) : Prop := s <> [] /\ Forall X s.
Definition many_of (X : byte -> Prop) (s : bytes) : Prop := Forall X s.

(** [b] at position [i] is the first byte of [s] outside the class [X]. *)
Definition first_wrong (X : byte -> Prop) (s : bytes) (b : byte) (i : nat) : Prop :=
  exists l r, s = l ++ b :: r /\ length l = i /\ Forall X l /\ ~ X b.

(** A conversion from byte strings whose rule is 1*X (or *X): it keeps the bytes, refuses the
    empty string with [VEmpty] and any other string by naming its first wrong byte. *)
Definition converts_some {A} (X : byte -> Prop) (inj : bytes -> A) (f : bytes -> conv A) : Prop :=
  (forall s, some_of X s -> f s = COk (inj s)) /\
  f [] = CErr VEmpty /\
  (forall s b i, first_wrong X s b i -> f s = CErr (VInvalidByteAt b i)) /\
  (forall s, some_of X s \/ s = [] \/ exists b i, first_wrong X s b i).
Definition converts_many {A} (X : byte -> Prop) (inj : bytes -> A) (f : bytes -> conv A) : Prop :=
  (forall s, many_of X s -> f s = COk (inj s)) /\
  (forall s b i, first_wrong X s b i -> f s = CErr (VInvalidByteAt b i)) /\
  (forall s, many_of X s \/ exists b i, first_wrong X s b i).

(** The bytes a string value stands for. *)
Definition bytes_of_istring (s : istring) : bytes :=
  match s with IQuoted s => s | IQuotedUtf8 s => s | ILiteral (mkLit d _) => d end.
Definition bytes_of_astring (a : astring) : bytes :=
  match a with AAtom s => s | AString s => bytes_of_istring s end.
Definition bytes_of_list_mailbox (m : list_mailbox) : bytes :=
  match m with LMToken s => s | LMString s => bytes_of_istring s end.
Definition bytes_of_charset (c : charset) : bytes :=
  match c with CharsetAtom s => s | CharsetQuoted s => s end.

(** Two bytes that differ at most in the case of a letter; the same for strings. *)
Definition same_letter (a b : byte) : Prop :=
  a = b \/ (0x41 <= bN a <= 0x5A /\ bN b = bN a + 32) \/ (0x41 <= bN b <= 0x5A /\ bN a = bN b + 32).
Definition same_letters : bytes -> bytes -> Prop := Forall2 same_letter.

(** ** Quoted strings on the wire
    quoted = DQUOTE *QUOTED-CHAR DQUOTE. [quoted_body w s]: the characters between the quotes
    are [w], and they stand for [s]. *)
Inductive quoted_body : bytes -> bytes -> Prop :=
| qb_nil : quoted_body [] []
| qb_plain b w s : ~ quoted_specials b -> quoted_body w s -> quoted_body (b :: w) (b :: s)
| qb_escaped b w s : quoted_specials b -> quoted_body w s ->
    quoted_body ("\"%byte :: b :: w) (b :: s).

(** ** Base64 (RFC 4648 section 4), over the numeric values of the symbols *)
Definition b64_value (c : byte) (v : N) : Prop :=
  (0x41 <= bN c <= 0x5A /\ v = bN c - 0x41) \/          (* A-Z *)
  (0x61 <= bN c <= 0x7A /\ v = bN c - 0x61 + 26) \/     (* a-z *)
  (0x30 <= bN c <= 0x39 /\ v = bN c - 0x30 + 52) \/     (* 0-9 *)
  (c = "+"%byte /\ v = 62) \/ (c = "/"%byte /\ v = 63).
(** [base64 p t]: the text [t] is the base64 encoding of the payload [p]. *)
Inductive base64 : bytes -> bytes -> Prop :=
| b64_0 : base64 [] []
| b64_1 x c1 c2 v1 v2 : b64_value c1 v1 -> b64_value c2 v2 ->
    bN x * 16 = v1 * 64 + v2 ->
    base64 [x] [c1; c2; "="%byte; "="%byte]
| b64_2 x y c1 c2 c3 v1 v2 v3 : b64_value c1 v1 -> b64_value c2 v2 -> b64_value c3 v3 ->
    (bN x * 256 + bN y) * 4 = (v1 * 64 + v2) * 64 + v3 ->
    base64 [x; y] [c1; c2; c3; "="%byte]
| b64_3 x y z c1 c2 c3 c4 v1 v2 v3 v4 p t :
    b64_value c1 v1 -> b64_value c2 v2 -> b64_value c3 v3 -> b64_value c4 v4 ->
    (bN x * 256 + bN y) * 256 + bN z = ((v1 * 64 + v2) * 64 + v3) * 64 + v4 ->
    base64 p t -> base64 (x :: y :: z :: p) (c1 :: c2 :: c3 :: c4 :: t).

(** ** The calendar *)
Definition divides (a b : N) : Prop := exists k, b = a * k.
Definition leap_year (y : N) : Prop :=
  divides 4 y /\ (~ divides 100 y \/ divides 400 y).
Definition month_length (y m n : N) : Prop :=
  (In m [1; 3; 5; 7; 8; 10; 12] /\ n = 31) \/ (In m [4; 6; 9; 11] /\ n = 30) \/
  (m = 2 /\ leap_year y /\ n = 29) \/ (m = 2 /\ ~ leap_year y /\ n = 28).
Definition real_date (d : naive_date) : Prop :=
  exists n, month_length (d_year d) (d_month d) n /\ 1 <= d_day d <= n /\ d_year d <= 9999.
(** A local time with an offset of whole minutes, less than a day. *)
Definition real_date_time (t : date_time) : Prop :=
  real_date (dt_date t) /\ dt_hour t < 24 /\ dt_min t < 60 /\ dt_sec t < 60 /\
  (-1440 * 60 < dt_offset t < 1440 * 60)%Z /\ (exists k, dt_offset t = 60 * k)%Z.

(** ** Numbers: [digits s n], the decimal digits [s] stand for the number [n]. *)
Inductive digits : bytes -> N -> Prop :=
| digits_nil : digits [] 0
| digits_snoc s n b : digits s n -> 0x30 <= bN b <= 0x39 -> digits (s ++ [b]) (10 * n + (bN b - 0x30)).

(** ** Tag generators: how often an execution creates a generator, and uses the [i]-th one. *)
Fixpoint count_events (P : tag_event -> bool) (l : list tag_event) : N :=
  match l with [] => 0 | e :: l' => (if P e then 1 else 0) + count_events P l' end.
Definition creates (e : tag_event) : bool := match e with TNew => true | _ => false end.
Definition uses (i : nat) (e : tag_event) : bool :=
  match e with TGenerate j _ => Nat.eqb i j | _ => false end.
(** Only generators that exist are used; [n] exist already. *)
Fixpoint only_existing (n : nat) (l : list tag_event) : Prop :=
  match l with
  | [] => True
  | TNew :: l' => only_existing (S n) l'
  | TGenerate i _ :: l' => (i < n)%nat /\ only_existing n l'
  end.
(** Letters and digits, as the random token consists of. *)
Definition ALNUM (b : byte) : Prop :=
  0x30 <= bN b <= 0x39 \/ 0x41 <= bN b <= 0x5A \/ 0x61 <= bN b <= 0x7A.
Fixpoint tokens_alnum (l : list tag_event) : Prop :=
  match l with
  | [] => True
  | TNew :: l' => tokens_alnum l'
  | TGenerate _ t :: l' => Forall ALNUM t /\ tokens_alnum l'
  end.

(** ** Known names of the extensible types: the variants of each enumeration except [Other] (or
    [Extension]), and except the variants that no conversion from text returns (see DESIGN.md). *)
Definition auth_known (m : auth_mechanism) : Prop :=
  match m with AMOther _ | AMScramSha3_512 | AMScramSha3_512Plus => False | _ => True end.
Definition resource_known (r : resource) : Prop := match r with ROther _ => False | _ => True end.
Definition sort_known (a : sort_algorithm) : Prop := match a with SAOther _ => False | _ => True end.
Definition threading_known (a : threading_algorithm) : Prop :=
  match a with TAOther _ => False | _ => True end.
Definition flag_known (f : flag) : Prop :=
  match f with FExtension _ | FKeyword _ => False | _ => True end.
Definition attribute_flag_known (f : attribute_flag) : Prop :=
  match f with AFExtension _ | AFKeyword _ => False | _ => True end.
Definition flag_name_known (f : flag_name_attribute) : Prop :=
  match f with FNExtension _ => False | _ => True end.
Definition enable_known `{features} (c : capability_enable) : Prop :=
  match c with
  | CEOther _ => False
  | CECondStore => ext_condstore_qresync = true
  | CEMetadata | CEMetadataServer => ext_metadata = true
  | CEUtf8 _ => ext_utf8 = true
  end.
Definition capability_known `{features} (c : capability) : Prop :=
  match c with
  | CapOther _ | CapNamespace => False
  | CapStartTls => starttls = true
  | CapMailboxReferrals => ext_mailbox_referrals = true
  | CapLoginReferrals => ext_login_referrals = true
  | CapId => ext_id = true
  | CapMetadata | CapMetadataServer => ext_metadata = true
  | CapCondStore | CapQResync => ext_condstore_qresync = true
  | CapUtf8 _ => ext_utf8 = true
  | CapAuth m => auth_known m
  | CapQuotaRes r => resource_known r
  | CapSort (Some a) => sort_known a
  | CapThread a => threading_known a
  | _ => True
  end.

(** ** The dates and times a message contains *)
Fixpoint dates_of_search_key (k : search_key) : list naive_date :=
  match k with
  | KAnd l => flat_map dates_of_search_key l
  | KNot k => dates_of_search_key k
  | KOr a b => dates_of_search_key a ++ dates_of_search_key b
  | KBefore d | KOn d | KSince d | KSentBefore d | KSentOn d | KSentSince d => [d]
  | _ => []
  end.
Definition dates_of_command (c : command) : list naive_date :=
  match cmd_body c with
  | CSearch _ l _ | CSort _ _ l _ | CThread _ _ l _ => flat_map dates_of_search_key l
  | _ => []
  end.
Definition times_of_command (c : command) : list date_time :=
  match cmd_body c with CAppend _ _ (Some t) _ => [t] | _ => [] end.
Definition times_of_response (r : response) : list date_time :=
  match r with
  | RData (DFetch _ l) => flat_map (fun m => match m with MDInternalDate t => [t] | _ => [] end) l
  | _ => []
  end.

(** ** Constructors that take strings
    The bytes of a mailbox name, [INBOX] in any case for the inbox. *)
Definition names_mailbox (s : bytes) (m : mailbox) : Prop :=
  match m with
  | MInbox => same_letters s (bs "inbox")
  | MOther a => bytes_of_astring a = s /\ ~ same_letters s (bs "inbox")
  end.
