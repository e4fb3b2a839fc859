(** The [Arbitrary] generators of imap-types and the fuzz targets built on them.

    Models /repo/imap-types/src/arbitrary.rs, /repo/imap-types/src/extensions/thread.rs:92-137,
    the derived [Arbitrary] implementations of the message types, and
    /repo/imap-codec/fuzz/src/lib.rs with /repo/imap-codec/fuzz/fuzz_targets.

    A generator reads an [Unstructured] (the fuzzer's input). Which value it makes of which
    input is decided by the external crate [arbitrary]; the model abstracts from that: a
    generator is the set of its possible outcomes. The primitives of the crate are over-
    approximated: an integer in range may be any integer of the range, a [Vec] may have any
    length, a string or byte slice may have any content that is not longer than the input, and
    every primitive may fail ([arbitrary::Error]). What is proved of all outcomes of the model
    therefore holds for the outcomes of the code. *)

From Verif Require Import Bytes Dec Features Nom Types Utf8 Conv SeqSet Base64 Date Ctors
  ParseCore Decode Fragmentizer.
Open Scope nat_scope.

(** [arbitrary::Result<A>], or a panic *)
Inductive gout (A : Type) := GVal (a : A) | GFail | GPanic.
Arguments GVal {A} a.
Arguments GFail {A}.
Arguments GPanic {A}.
Definition gen (A : Type) := gout A -> Prop.

Definition g_ret {A} (a : A) : gen A := fun o => o = GVal a.
Definition g_fail {A} : gen A := fun o => o = GFail.
Definition g_panic {A} : gen A := fun o => o = GPanic.
(** [let a = g(u)?; f a] *)
Definition g_bind {A B} (g : gen A) (f : A -> gen B) : gen B := fun o =>
  (exists a, g (GVal a) /\ f a o) \/ (g GFail /\ o = GFail) \/ (g GPanic /\ o = GPanic).
Local Notation "x <~ g ;; e" := (g_bind g (fun x => e)) (at level 61, g at next level, right associativity).
Definition g_map {A B} (f : A -> B) (g : gen A) : gen B := x <~ g ;; g_ret (f x).

(** Primitives of the crate [arbitrary] *)
Definition g_any {A} (P : A -> Prop) : gen A := fun o =>
  match o with GVal a => P a | GFail => True | GPanic => False end.
Definition g_int (lo hi : nat) : gen nat := g_any (fun n => lo <= n <= hi).
Definition g_bool : gen bool := g_any (fun _ => True).
Definition g_u32 : gen N := g_any (fun n => (n <= u32_max)%N).
Definition g_nz32 : gen N := g_any (fun n => (0 < n <= u32_max)%N).
Definition g_u64 : gen N := g_any (fun n => (n <= u64_max)%N).
Definition g_nz64 : gen N := g_any (fun n => (0 < n <= u64_max)%N).
(** a Unicode scalar value *)
Definition g_char : gen N := g_any (fun c => (c < 0xD800)%N \/ (0xDFFF < c <= 0x10FFFF)%N).
(** [Unstructured::arbitrary_len] *)
Definition g_len : gen nat := g_any (fun _ => True).
Definition g_option {A} (g : gen A) : gen (option A) := fun o =>
  o = GFail \/ o = GVal None \/ g_map Some g o.
Definition g_pair {A B} (g : gen A) (h : gen B) : gen (A * B) := a <~ g ;; b <~ h ;; g_ret (a, b).
(** [for _ in 0..n { tmp.push(g(u)?) }] *)
Fixpoint g_times {A} (n : nat) (g : gen A) : gen (list A) :=
  match n with
  | O => g_ret []
  | S n' => a <~ g ;; l <~ g_times n' g ;; g_ret (a :: l)
  end.
Definition g_vec {A} (g : gen A) : gen (list A) := n <~ g_len ;; g_times n g.
(** [#[derive(Arbitrary)]] of an enum: any of its variants *)
Definition g_enum {A} (l : list (gen A)) : gen A := fun o => o = GFail \/ exists g, In g l /\ g o.
(** a variant behind [#[cfg(feature)]] *)
Definition g_cfg {A} (feature : bool) (l : list (gen A)) : list (gen A) := if feature then l else [].
(** [match u.int_in_range(lo..=hi)? { first => .., first + 1 => .., .., _ => unreachable!() }] *)
Definition g_match {A} (lo hi first : nat) (arms : list (gen A)) : gen A :=
  n <~ g_int lo hi ;; if Nat.ltb n first then g_panic else nth (n - first) arms g_panic.

(** [T::try_from(x)] with the error mapped to [IncorrectFormat] *)
Definition g_try {A} (c : conv A) : gen A :=
  match c with COk a => g_ret a | CErr _ => g_fail | CPanic => g_panic end.
(** [T::try_from(x).unwrap()], and [T::unvalidated(x)] in a debug build *)
Definition g_unwrap {A} (c : conv A) : gen A :=
  match c with COk a => g_ret a | _ => g_panic end.

Section Arb.
Context {F : features}.
(** feature [arbitrary_simplified] of imap-types *)
Variable simplified : bool.
(** the number of bytes of the fuzzer's input *)
Variable size : N.

(** [&str]: a prefix of the input that is UTF-8; [&[u8]], [Cow<[u8]>]: a part of the input *)
Definition g_str : gen bytes := g_any (fun s => utf8_ok s = true /\ (lenN s <= size)%N).
Definition g_bytes : gen bytes := g_any (fun s => (lenN s <= size)%N).

(** ** arbitrary.rs:31-82: generators by [TryFrom] *)
(* arbitrary.rs:63-68; the conversions are those from [&str], core.rs:194-225 etc. *)
Definition arb_atom : gen bytes := s <~ g_str ;; g_try (cmap (fun _ => s) (validate_atom s)).
Definition arb_atom_ext : gen bytes := s <~ g_str ;; g_try (cmap (fun _ => s) (validate_atom_ext s)).
Definition arb_quoted : gen bytes := s <~ g_str ;; g_try (cmap (fun _ => s) (validate_quoted s)).
Definition arb_tag : gen bytes := s <~ g_str ;; g_try (cmap (fun _ => s) (validate_tag s)).
Definition arb_text : gen bytes := s <~ g_str ;; g_try (cmap (fun _ => s) (validate_text s)).
Definition arb_list_char_string : gen bytes := s <~ g_str ;; g_try (list_char_string_from_str s).
(* arbitrary.rs:69 *)
Definition arb_quoted_char : gen byte :=
  c <~ g_char ;; g_try (cmap byte_trunc (quoted_char_from c)).
(* arbitrary.rs:70 *)
Definition arb_mailbox : gen mailbox := s <~ g_str ;; g_try (mailbox_from_bytes s).
(* arbitrary.rs:71 *)
Definition arb_capability : gen capability := a <~ arb_atom ;; g_ret (capability_from a).
(* arbitrary.rs:72 *)
Definition arb_flag : gen flag := s <~ g_str ;; g_try (flag_from_str s).
(* arbitrary.rs:73-74 *)
Definition arb_attribute_flag : gen attribute_flag := s <~ g_str ;; g_try (attribute_flag_from_str s).
(* arbitrary.rs:75 *)
Definition arb_flag_name : gen flag_name_attribute :=
  a <~ arb_atom ;; g_ret (flag_name_attribute_from a).
(* arbitrary.rs:77 *)
Definition arb_capability_enable : gen capability_enable :=
  s <~ g_str ;; g_try (capability_enable_from_str s).
(* arbitrary.rs:78 *)
Definition arb_resource : gen resource := s <~ g_str ;; g_try (resource_from_bytes s).
(* arbitrary.rs:79 *)
Definition arb_auth_mechanism : gen auth_mechanism :=
  s <~ g_str ;; g_try (auth_mechanism_from_bytes s).
(* arbitrary.rs:80-81 *)
Definition arb_vec1 {A} (g : gen A) : gen (list A) := l <~ g_vec g ;; g_try (vec_n_from 1 l).
(* extensions/sort.rs:40 (only reachable through [Capability], which does not use it),
   extensions/thread.rs:169 *)
Definition arb_threading_algorithm : gen threading_algorithm :=
  a <~ arb_atom ;; g_ret (threading_algorithm_from a).

(** ** core.rs, extensions/binary.rs *)
(* core.rs:724-730 *)
Definition arb_literal_mode : gen lit_mode := g_enum [g_ret Sync; g_ret NonSync].
(* arbitrary.rs:200-210 *)
Definition arb_literal : gen literal_t :=
  s <~ g_bytes ;;
  match literal_from_bytes s with
  | COk l => m <~ arb_literal_mode ;; g_ret (mkLit (lit_data l) m)
  | CErr _ => g_fail
  | CPanic => g_panic
  end.
(* arbitrary.rs:169-198; [QuotedUtf8] (utf8.rs:32-36) derives its generator from [Cow<str>] *)
Definition arb_istring : gen istring :=
  if ext_utf8
  then g_match 0 2 0
    [ g_map IQuoted arb_quoted;
      s <~ g_str ;;
      match validate_quoted s with
      | COk _ => g_ret (IQuoted s)
      | CErr _ => g_ret (IQuotedUtf8 s)
      | CPanic => g_panic
      end;
      g_map ILiteral arb_literal ]
  else g_match 0 1 0 [ g_map IQuoted arb_quoted; g_map ILiteral arb_literal ].
(* core.rs:877-886 *)
Definition arb_nstring : gen nstring := g_option arb_istring.
(* core.rs:941-948 *)
Definition arb_astring : gen astring := g_enum [g_map AAtom arb_atom_ext; g_map AString arb_istring].
(* core.rs:1431-1438 *)
Definition arb_charset : gen charset :=
  g_enum [g_map CharsetAtom arb_atom; g_map CharsetQuoted arb_quoted].
(* extensions/binary.rs:27-33 *)
Definition arb_literal8 : gen literal8_t :=
  d <~ g_bytes ;; m <~ arb_literal_mode ;; g_ret (mkLit8 d m).
(* extensions/binary.rs:17-24 *)
Definition arb_lit_or_lit8 : gen lit_or_lit8 :=
  g_enum [g_map LLiteral arb_literal; g_map LLiteral8 arb_literal8].
(* core.rs:1511-1518 *)
Definition arb_nstring8 : gen nstring8 :=
  g_enum [g_map N8NString arb_nstring; g_map N8Literal8 arb_literal8].

(** ** sequence.rs:33-36, 206-213, 318-325; uidplus.rs:11-23 *)
Definition arb_seq_or_uid : gen seq_or_uid := g_enum [g_map SValue g_nz32; g_ret SAsterisk].
Definition arb_sequence : gen sequence :=
  g_enum [ g_map SSingle arb_seq_or_uid;
           a <~ arb_seq_or_uid ;; b <~ arb_seq_or_uid ;; g_ret (SRange a b) ].
Definition arb_sequence_set : gen sequence_set := arb_vec1 arb_sequence.
Definition arb_uid_set : gen uid_set :=
  arb_vec1 (g_enum [g_map UESingle g_nz32; a <~ g_nz32 ;; b <~ g_nz32 ;; g_ret (UERange a b)]).

(** ** datetime.rs; arbitrary.rs:494-527 *)
(* arbitrary.rs:522-527; [chrono::NaiveDate::arbitrary] is external: any date of [chrono]
   (for years before 0 any month and day) *)
Definition arb_naive_date : gen naive_date :=
  y <~ g_any (fun y : Z => True) ;;
  p <~ g_any (fun p : N * N => (0 <= y)%Z -> ymd_ok (Z.to_N y) (fst p) (snd p) = true) ;;
  match validate_naive_date y with
  | Some _ => g_fail
  | None => g_ret (mkDate (Z.to_N y) (fst p) (snd p))
  end.
(* arbitrary.rs:494-520; [chrono::NaiveTime::arbitrary] is external: any time of day, with
   nanoseconds up to 1_999_999_999. [FixedOffset::east_opt] is [None] from 86400 seconds on.
   [from_local_datetime] of a [FixedOffset] is a single value for these years. *)
Definition arb_date_time : gen date_time :=
  y <~ g_any (fun y => (y <= 9999)%N) ;;
  m <~ g_any (fun m => (1 <= m <= 12)%N) ;;
  d <~ g_any (fun d => (1 <= d <= 31)%N) ;;
  if negb (ymd_ok y m d) then g_fail else
  t <~ g_any (fun t : N * N * N * N => let '(h, mi, s, n) := t in
         (h < 24 /\ mi < 60 /\ s < 60 /\ n <= 1999999999)%N) ;;
  hours <~ g_any (fun s => (0 <= s <= 23 * 3600)%Z) ;;
  minutes <~ g_any (fun mi => (0 <= mi <= 59)%Z) ;;
  let offset := (hours + minutes * 60)%Z in
  if negb (Z.ltb (-86400) offset && Z.ltb offset 86400) then g_panic else
  let '(h, mi, s, n) := t in
  match validate_date_time (Z.of_N y) n offset with
  | Some _ => g_fail
  | None => g_ret (mkDateTime (mkDate y m d) h mi s offset)
  end.

(** ** flag.rs, status.rs, mailbox.rs *)
(* flag.rs:95-102, 117-124, 205-220 *)
Definition arb_flag_fetch : gen flag_fetch := g_enum [g_map FFFlag arb_flag; g_ret FFRecent].
Definition arb_flag_perm : gen flag_perm := g_enum [g_map FPFlag arb_flag; g_ret FPAsterisk].
Definition arb_store_type : gen store_type := g_enum [g_ret STReplace; g_ret STAdd; g_ret STRemove].
Definition arb_store_response : gen store_response := g_enum [g_ret SRAnswer; g_ret SRSilent].
(* status.rs:10-36 *)
Definition arb_status_name : gen status_data_item_name :=
  g_enum ([ g_ret SNMessages; g_ret SNRecent; g_ret SNUidNext; g_ret SNUidValidity;
            g_ret SNUnseen; g_ret SNDeleted; g_ret SNDeletedStorage ]
          ++ g_cfg ext_condstore_qresync [g_ret SNHighestModSeq]).
(* status.rs:42-78 *)
Definition arb_status_item : gen status_data_item :=
  g_enum ([ g_map SIMessages g_u32; g_map SIRecent g_u32; g_map SIUidNext g_nz32;
            g_map SIUidValidity g_nz32; g_map SIUnseen g_u32; g_map SIDeleted g_u32;
            g_map SIDeletedStorage g_u64 ]
          ++ g_cfg ext_condstore_qresync [g_map SIHighestModSeq g_u64]).
(* mailbox.rs:89-96 *)
Definition arb_list_mailbox : gen list_mailbox :=
  g_enum [g_map LMToken arb_list_char_string; g_map LMString arb_istring].

(** ** search.rs; arbitrary.rs:219-348 *)
(* arbitrary.rs:310-348 *)
Definition arb_search_key_leaf : gen search_key :=
  g_match 0 33 0
    [ g_map KSequenceSet arb_sequence_set; g_ret KAll; g_ret KAnswered; g_map KBcc arb_astring;
      g_map KBefore arb_naive_date; g_map KBody arb_astring; g_map KCc arb_astring;
      g_ret KDeleted; g_ret KDraft; g_ret KFlagged; g_map KFrom arb_astring;
      k <~ arb_astring ;; v <~ arb_astring ;; g_ret (KHeader k v);
      g_map KKeyword arb_atom; g_map KLarger g_u32; g_ret KNew; g_ret KOld;
      g_map KOn arb_naive_date; g_ret KRecent; g_ret KSeen; g_map KSentBefore arb_naive_date;
      g_map KSentOn arb_naive_date; g_map KSentSince arb_naive_date; g_map KSince arb_naive_date;
      g_map KSmaller g_u32; g_map KSubject arb_astring; g_map KText arb_astring;
      g_map KTo arb_astring; g_map KUid arb_sequence_set; g_ret KUnanswered; g_ret KUndeleted;
      g_ret KUndraft; g_ret KUnflagged; g_map KUnkeyword arb_atom; g_ret KUnseen ].
(* condstore_qresync.rs:71-78 *)
Definition arb_entry_type_req : gen entry_type_req :=
  g_enum [g_ret ETPrivate; g_ret ETShared; g_ret ETAll].
(* [if !l.is_empty() { Vec1::try_from(l).unwrap() } else { Vec1::from(leaf(u)?) }],
   arbitrary.rs:256-260, 404-408, 471-475 *)
Definition g_nonempty_or {A} (l : list A) (leaf : gen A) : gen (list A) :=
  match l with [] => g_map (fun a => [a]) leaf | _ => g_unwrap (vec_n_from 1 l) end.
(* arbitrary.rs:228-308 *)
Fixpoint arb_search_key_limited (depth : nat) : gen search_key :=
  match depth with
  | O => arb_search_key_leaf
  | S depth' =>
    let rec := arb_search_key_limited depth' in
    let till := if ext_condstore_qresync then 37 else 36 in
    g_match 0 till 0
      ([ n <~ g_len ;; l <~ g_times n rec ;; g_map KAnd (g_nonempty_or l arb_search_key_leaf);
         g_map KSequenceSet arb_sequence_set; g_ret KAll; g_ret KAnswered; g_map KBcc arb_astring;
         g_map KBefore arb_naive_date; g_map KBody arb_astring; g_map KCc arb_astring;
         g_ret KDeleted; g_ret KDraft; g_ret KFlagged; g_map KFrom arb_astring;
         k <~ arb_astring ;; v <~ arb_astring ;; g_ret (KHeader k v);
         g_map KKeyword arb_atom; g_map KLarger g_u32; g_ret KNew;
         g_map KNot rec; g_ret KOld; g_map KOn arb_naive_date;
         a <~ rec ;; b <~ rec ;; g_ret (KOr a b);
         g_ret KRecent; g_ret KSeen; g_map KSentBefore arb_naive_date;
         g_map KSentOn arb_naive_date; g_map KSentSince arb_naive_date;
         g_map KSince arb_naive_date;
         g_map KSmaller g_u32; g_map KSubject arb_astring; g_map KText arb_astring;
         g_map KTo arb_astring; g_map KUid arb_sequence_set; g_ret KUnanswered; g_ret KUndeleted;
         g_ret KUndraft; g_ret KUnflagged; g_map KUnkeyword arb_atom; g_ret KUnseen ]
       ++ g_cfg ext_condstore_qresync
         [ e <~ g_option (g_pair arb_attribute_flag arb_entry_type_req) ;; n <~ g_u64 ;;
           g_ret (KModSequence e n) ])
  end.
(* arbitrary.rs:219-226 *)
Definition arb_search_key : gen search_key :=
  if simplified then arb_search_key_leaf else arb_search_key_limited 7.

(** ** envelope.rs:11-52 *)
Definition arb_address : gen address :=
  a <~ arb_nstring ;; b <~ arb_nstring ;; c <~ arb_nstring ;; d <~ arb_nstring ;;
  g_ret (mkAddress a b c d).
Definition arb_envelope : gen envelope :=
  date <~ arb_nstring ;; subject <~ arb_nstring ;;
  from <~ g_vec arb_address ;; sender <~ g_vec arb_address ;; reply_to <~ g_vec arb_address ;;
  to <~ g_vec arb_address ;; cc <~ g_vec arb_address ;; bcc <~ g_vec arb_address ;;
  irt <~ arb_nstring ;; mid <~ arb_nstring ;;
  g_ret (mkEnvelope date subject from sender reply_to to cc bcc irt mid).

(** ** body.rs; arbitrary.rs:350-492 *)
(* arbitrary.rs:483-492 *)
Definition arb_body_extension_leaf : gen body_extension :=
  g_match 1 2 1 [g_map BENString arb_nstring; g_map BENumber g_u32].
(* arbitrary.rs:449-481 *)
Fixpoint arb_body_extension_limited (depth : nat) : gen body_extension :=
  match depth with
  | O => arb_body_extension_leaf
  | S depth' =>
    g_match 1 2 1
      [ g_map BENString arb_nstring;
        g_map BENumber g_u32;
        n <~ g_len ;; l <~ g_times n (arb_body_extension_limited depth') ;;
        g_map BEList (g_nonempty_or l arb_body_extension_leaf) ]
  end.
(* arbitrary.rs:440-447 *)
Definition arb_body_extension : gen body_extension :=
  if simplified then arb_body_extension_leaf else arb_body_extension_limited 3.
(* body.rs:252-330 *)
Definition arb_location : gen location :=
  l <~ arb_nstring ;; e <~ g_vec arb_body_extension ;; g_ret (mkLocation l e).
Definition arb_language : gen language :=
  l <~ g_vec arb_istring ;; t <~ g_option arb_location ;; g_ret (mkLanguage l t).
Definition arb_params : gen (list (istring * istring)) := g_vec (g_pair arb_istring arb_istring).
Definition arb_disposition : gen disposition :=
  d <~ g_option (g_pair arb_istring arb_params) ;; t <~ g_option arb_language ;;
  g_ret (mkDisposition d t).
Definition arb_single_ext : gen single_ext :=
  m <~ arb_nstring ;; t <~ g_option arb_disposition ;; g_ret (mkSingleExt m t).
Definition arb_multi_ext : gen multi_ext :=
  p <~ arb_params ;; t <~ g_option arb_disposition ;; g_ret (mkMultiExt p t).
(* body.rs:26-45 *)
Definition arb_basic : gen basic_fields :=
  p <~ arb_params ;; i <~ arb_nstring ;; d <~ arb_nstring ;; e <~ arb_istring ;; s <~ g_u32 ;;
  g_ret (mkBasic p i d e s).
(* arbitrary.rs:417-438 *)
Definition arb_body_structure_leaf : gen body_structure :=
  basic <~ arb_basic ;;
  specific <~ g_match 1 2 1
    [ t <~ arb_istring ;; s <~ arb_istring ;; g_ret (SFBasic t s);
      s <~ arb_istring ;; n <~ g_u32 ;; g_ret (SFText s n) ] ;;
  ext <~ g_option arb_single_ext ;; g_ret (BSSingle basic specific ext).
(* arbitrary.rs:359-415 *)
Fixpoint arb_body_structure_limited (depth : nat) : gen body_structure :=
  match depth with
  | O => arb_body_structure_leaf
  | S depth' =>
    let rec := arb_body_structure_limited depth' in
    g_match 1 2 1
      [ basic <~ arb_basic ;;
        specific <~ g_match 1 3 1
          [ t <~ arb_istring ;; s <~ arb_istring ;; g_ret (SFBasic t s);
            e <~ arb_envelope ;; b <~ rec ;; n <~ g_u32 ;; g_ret (SFMessage e b n);
            s <~ arb_istring ;; n <~ g_u32 ;; g_ret (SFText s n) ] ;;
        ext <~ g_option arb_single_ext ;; g_ret (BSSingle basic specific ext);
        n <~ g_len ;; l <~ g_times n rec ;;
        bodies <~ g_nonempty_or l arb_body_structure_leaf ;;
        s <~ arb_istring ;; ext <~ g_option arb_multi_ext ;; g_ret (BSMulti bodies s ext) ]
  end.
(* arbitrary.rs:350-357 *)
Definition arb_body_structure : gen body_structure :=
  if simplified then arb_body_structure_leaf else arb_body_structure_limited 3.

(** ** fetch.rs *)
(* fetch.rs:25-34, 64-73 *)
Definition arb_macro : gen macro := g_enum [g_ret MacroFast; g_ret MacroAll; g_ret MacroFull].
(* fetch.rs:434-463 *)
Definition arb_part : gen part := arb_vec1 g_nz32.
Definition arb_section : gen section :=
  g_enum
    [ g_map SecPart arb_part; g_map SecHeader (g_option arb_part);
      p <~ g_option arb_part ;; l <~ arb_vec1 arb_astring ;; g_ret (SecHeaderFields p l);
      p <~ g_option arb_part ;; l <~ arb_vec1 arb_astring ;; g_ret (SecHeaderFieldsNot p l);
      g_map SecText (g_option arb_part); g_map SecMime arb_part ].
(* fetch.rs:86-248 *)
Definition arb_item_name : gen item_name :=
  g_enum
    ([ g_ret INBody;
       s <~ g_option arb_section ;; p <~ g_option (g_pair g_u32 g_nz32) ;; k <~ g_bool ;;
       g_ret (INBodyExt s p k);
       g_ret INBodyStructure; g_ret INEnvelope; g_ret INFlags; g_ret INInternalDate;
       g_ret INRfc822; g_ret INRfc822Header; g_ret INRfc822Size; g_ret INRfc822Text; g_ret INUid;
       s <~ g_vec g_nz32 ;; p <~ g_option (g_pair g_u32 g_nz32) ;; k <~ g_bool ;;
       g_ret (INBinary s p k);
       g_map INBinarySize (g_vec g_nz32) ]
     ++ g_cfg ext_condstore_qresync [g_ret INModSeq]).
Definition arb_macro_or_items : gen macro_or_items :=
  g_enum [g_map MIMacro arb_macro; g_map MIItems (g_vec arb_item_name)].
(* fetch.rs:250-430 *)
Definition arb_message_data_item : gen message_data_item :=
  g_enum
    ([ g_map MDBody arb_body_structure;
       s <~ g_option arb_section ;; o <~ g_option g_u32 ;; d <~ arb_nstring ;;
       g_ret (MDBodyExt s o d);
       g_map MDBodyStructure arb_body_structure; g_map MDEnvelope arb_envelope;
       g_map MDFlags (g_vec arb_flag_fetch); g_map MDInternalDate arb_date_time;
       g_map MDRfc822 arb_nstring; g_map MDRfc822Header arb_nstring; g_map MDRfc822Size g_u32;
       g_map MDRfc822Text arb_nstring; g_map MDUid g_nz32;
       s <~ g_vec g_nz32 ;; v <~ arb_nstring8 ;; g_ret (MDBinary s v);
       s <~ g_vec g_nz32 ;; n <~ g_u32 ;; g_ret (MDBinarySize s n) ]
     ++ g_cfg ext_condstore_qresync [g_map MDModSeq g_nz64]).

(** ** extensions *)
(* sort.rs:52-77 *)
Definition arb_sort_key : gen sort_key :=
  g_enum [ g_ret SKArrival; g_ret SKCc; g_ret SKDate; g_ret SKFrom; g_ret SKSize; g_ret SKSubject;
           g_ret SKTo; g_ret SKDisplayFrom; g_ret SKDisplayTo ].
Definition arb_sort_criterion : gen sort_criterion :=
  r <~ g_bool ;; k <~ arb_sort_key ;; g_ret (mkSort r k).
(* compress.rs:36-43 *)
Definition arb_compression : gen compression_algorithm := g_enum [g_ret Deflate].
(* quota.rs:223-256 *)
Definition arb_quota_get : gen quota_get :=
  r <~ arb_resource ;; u <~ g_u64 ;; l <~ g_u64 ;; g_ret (mkQuotaGet r u l).
Definition arb_quota_set : gen quota_set := r <~ arb_resource ;; l <~ g_u64 ;; g_ret (mkQuotaSet r l).
(* metadata.rs:12-95; [Entry] is an [AString] *)
Definition arb_entry_value : gen entry_value :=
  e <~ arb_astring ;; v <~ arb_nstring8 ;; g_ret (mkEntryValue e v).
Definition arb_depth : gen depth := g_enum [g_ret DepthNull; g_ret DepthOne; g_ret DepthInfinity].
Definition arb_get_metadata_option : gen get_metadata_option :=
  g_enum [g_map GMMaxSize g_u32; g_map GMDepth arb_depth].
Definition arb_metadata_code : gen metadata_code :=
  g_enum [g_map MCLongEntries g_u32; g_map MCMaxSize g_u32; g_ret MCTooMany; g_ret MCNoPrivate].
Definition arb_metadata_response : gen metadata_response :=
  g_enum [ g_map MRWithValues (arb_vec1 arb_entry_value);
           g_map MRWithoutValues (arb_vec1 arb_astring) ].
(* namespace.rs:63-96 *)
Definition arb_namespace_ext : gen namespace_ext :=
  k <~ arb_istring ;; v <~ arb_vec1 arb_istring ;; g_ret (mkNsExt k v).
Definition arb_namespace : gen namespace :=
  p <~ arb_istring ;; d <~ g_option arb_quoted_char ;; e <~ g_vec arb_namespace_ext ;;
  g_ret (mkNamespace p d e).
(* command.rs:1858-1891 *)
Definition arb_select_parameter : gen select_parameter :=
  g_enum
    [ g_ret SPCondStore;
      v <~ g_nz32 ;; m <~ g_nz64 ;; k <~ g_option arb_sequence_set ;;
      s <~ g_option (g_pair arb_sequence_set arb_sequence_set) ;; g_ret (SPQResync v m k s) ].
Definition arb_fetch_modifier : gen fetch_modifier :=
  g_enum [g_map FMChangedSince g_nz64; g_ret FMVanished].
Definition arb_store_modifier : gen store_modifier := g_enum [g_map SMUnchangedSince g_u64].
(** a [Vec] field behind a feature, absent (here empty) without it *)
Definition g_field {A} (feature : bool) (g : gen A) : gen (list A) :=
  if feature then g_vec g else g_ret [].
(* ID parameters, command.rs / response.rs *)
Definition arb_id_params : gen (option (list (istring * nstring))) :=
  g_option (g_vec (g_pair arb_istring arb_nstring)).

(** thread.rs:92-137 *)
(* thread.rs:131-137 *)
Definition arb_thread_leaf : gen thread := p <~ arb_vec1 g_nz32 ;; g_ret (TMembers p None).
(* thread.rs:105-125: the loop; [return] leaves it *)
Fixpoint arb_thread_loop (n : nat) (current : thread) : gen thread :=
  match n with
  | O => g_ret current
  | S n' =>
    g_match 0 2 0
      [ p <~ arb_vec1 g_nz32 ;; l <~ g_unwrap (vec_n_from 2 [current; current]) ;;
        arb_thread_loop n' (TMembers p (Some l));
        l <~ g_unwrap (vec_n_from 2 [current; current]) ;; arb_thread_loop n' (TNested l);
        g_ret current ]
  end.
(* thread.rs:102-129 *)
Definition arb_thread_limited (depth : nat) : gen thread :=
  c <~ arb_thread_leaf ;; arb_thread_loop depth c.
(* thread.rs:92-99 *)
Definition arb_thread : gen thread := if simplified then arb_thread_leaf else arb_thread_limited 7.

(** ** command.rs:40-1544 *)
Definition arb_command_body : gen command_body :=
  g_enum
    ([ g_ret CCapability; g_ret CNoop; g_ret CLogout ]
     ++ g_cfg starttls [g_ret CStartTls]
     ++ [ m <~ arb_auth_mechanism ;; i <~ g_option g_bytes ;; g_ret (CAuthenticate m i);
          u <~ arb_astring ;; p <~ arb_astring ;; g_ret (CLogin u p);
          m <~ arb_mailbox ;; p <~ g_field ext_condstore_qresync arb_select_parameter ;;
          g_ret (CSelect m p);
          g_ret CUnselect;
          m <~ arb_mailbox ;; p <~ g_field ext_condstore_qresync arb_select_parameter ;;
          g_ret (CExamine m p);
          g_map CCreate arb_mailbox; g_map CDelete arb_mailbox;
          a <~ arb_mailbox ;; b <~ arb_mailbox ;; g_ret (CRename a b);
          g_map CSubscribe arb_mailbox; g_map CUnsubscribe arb_mailbox;
          r <~ arb_mailbox ;; p <~ arb_list_mailbox ;; g_ret (CList r p);
          r <~ arb_mailbox ;; p <~ arb_list_mailbox ;; g_ret (CLsub r p);
          m <~ arb_mailbox ;; l <~ g_vec arb_status_name ;; g_ret (CStatus m l);
          m <~ arb_mailbox ;; f <~ g_vec arb_flag ;; d <~ g_option arb_date_time ;;
          l <~ arb_lit_or_lit8 ;; g_ret (CAppend m f d l);
          g_ret CCheck; g_ret CClose; g_ret CExpunge; g_map CExpungeUid arb_sequence_set;
          cs <~ g_option arb_charset ;; k <~ arb_vec1 arb_search_key ;; u <~ g_bool ;;
          g_ret (CSearch cs k u);
          so <~ arb_vec1 arb_sort_criterion ;; cs <~ arb_charset ;;
          k <~ arb_vec1 arb_search_key ;; u <~ g_bool ;; g_ret (CSort so cs k u);
          a <~ arb_threading_algorithm ;; cs <~ arb_charset ;;
          k <~ arb_vec1 arb_search_key ;; u <~ g_bool ;; g_ret (CThread a cs k u);
          s <~ arb_sequence_set ;; i <~ arb_macro_or_items ;; u <~ g_bool ;;
          m <~ g_field ext_condstore_qresync arb_fetch_modifier ;; g_ret (CFetch s i u m);
          s <~ arb_sequence_set ;; k <~ arb_store_type ;; r <~ arb_store_response ;;
          f <~ g_vec arb_flag ;; u <~ g_bool ;;
          m <~ g_field ext_condstore_qresync arb_store_modifier ;; g_ret (CStore s k r f u m);
          s <~ arb_sequence_set ;; m <~ arb_mailbox ;; u <~ g_bool ;; g_ret (CCopy s m u);
          g_ret CIdle; g_map CEnable (arb_vec1 arb_capability_enable);
          g_map CCompress arb_compression; g_map CGetQuota arb_astring;
          g_map CGetQuotaRoot arb_mailbox;
          r <~ arb_astring ;; q <~ g_vec arb_quota_set ;; g_ret (CSetQuota r q);
          s <~ arb_sequence_set ;; m <~ arb_mailbox ;; u <~ g_bool ;; g_ret (CMove s m u) ]
     ++ g_cfg ext_id [g_map CId arb_id_params]
     ++ g_cfg ext_metadata
       [ m <~ arb_mailbox ;; l <~ arb_vec1 arb_entry_value ;; g_ret (CSetMetadata m l);
         o <~ g_vec arb_get_metadata_option ;; m <~ arb_mailbox ;; l <~ arb_vec1 arb_astring ;;
         g_ret (CGetMetadata o m l) ]
     ++ g_cfg ext_namespace [g_ret CNamespace]).
Definition arb_command : gen command :=
  t <~ arb_tag ;; b <~ arb_command_body ;; g_ret (mkCommand t b).

(** ** response.rs *)
(* arbitrary.rs:212-217 *)
Definition arb_code_other : gen bytes := g_ret (bs "IMAP-CODEC-CODE-OTHER>").
(* response.rs:781-1003 *)
Definition arb_code : gen code :=
  g_enum
    ([ g_ret CdAlert; g_map CdBadCharset (g_vec arb_charset);
       g_map CdCapability (arb_vec1 arb_capability); g_ret CdParse;
       g_map CdPermanentFlags (g_vec arb_flag_perm);
       g_ret CdReadOnly; g_ret CdReadWrite; g_ret CdTryCreate;
       g_map CdUidNext g_nz32; g_map CdUidValidity g_nz32; g_map CdUnseen g_nz32 ]
     ++ g_cfg (ext_mailbox_referrals || ext_login_referrals) [g_map CdReferral g_str]
     ++ [ g_ret CdCompressionActive; g_ret CdOverQuota; g_ret CdTooBig ]
     ++ g_cfg ext_metadata [g_map CdMetadata arb_metadata_code]
     ++ [ g_ret CdUnknownCte;
          v <~ g_nz32 ;; u <~ g_nz32 ;; g_ret (CdAppendUid v u);
          v <~ g_nz32 ;; s <~ arb_uid_set ;; d <~ arb_uid_set ;; g_ret (CdCopyUid v s d);
          g_ret CdUidNotSticky ]
     ++ g_cfg ext_condstore_qresync
       [ g_map CdHighestModSeq g_nz64; g_map CdModified arb_sequence_set; g_ret CdNoModSeq;
         g_ret CdClosed ]
     ++ [ g_map CdOther arb_code_other ]).
(* response.rs:97-106 *)
Definition arb_greeting_kind : gen greeting_kind :=
  g_enum [g_ret GKOk; g_ret GKPreAuth; g_ret GKBye].
(* arbitrary.rs:97-105, 115-123: a text that does not start with "[" *)
Definition arb_plain_text : gen bytes :=
  t <~ arb_text ;;
  if starts_with (bs "[") t
  then g_unwrap (cmap (fun _ => bs "...") (validate_text (bs "...")))
  else g_ret t.
(* arbitrary.rs:91-107 *)
Definition arb_greeting : gen greeting :=
  k <~ arb_greeting_kind ;; c <~ g_option arb_code ;; t <~ arb_plain_text ;;
  g_ret (mkGreeting k c t).
(* arbitrary.rs:110-166 *)
Definition arb_tagged_or_not (b : status_body) : gen status :=
  t <~ g_option arb_tag ;;
  g_ret (match t with Some tag => StTagged tag b | None => StUntagged b end).
Definition arb_status : gen status :=
  c <~ g_option arb_code ;;
  t <~ match c with Some _ => arb_text | None => arb_plain_text end ;;
  g_match 0 3 0
    [ arb_tagged_or_not (mkStatusBody SKOk c t);
      arb_tagged_or_not (mkStatusBody SKNo c t);
      arb_tagged_or_not (mkStatusBody SKBad c t);
      g_ret (StBye c t) ].
(* response.rs:316-670 *)
Definition arb_modseq : gen (option N) :=
  if ext_condstore_qresync then g_option g_nz64 else g_ret None.
Definition arb_data : gen data :=
  g_enum
    ([ g_map DCapability (arb_vec1 arb_capability);
       i <~ g_vec arb_flag_name ;; d <~ g_option arb_quoted_char ;; m <~ arb_mailbox ;;
       g_ret (DList i d m);
       i <~ g_vec arb_flag_name ;; d <~ g_option arb_quoted_char ;; m <~ arb_mailbox ;;
       g_ret (DLsub i d m);
       m <~ arb_mailbox ;; i <~ g_vec arb_status_item ;; g_ret (DStatus m i);
       l <~ g_vec g_nz32 ;; m <~ arb_modseq ;; g_ret (DSearch l m);
       l <~ g_vec g_nz32 ;; m <~ arb_modseq ;; g_ret (DSort l m);
       g_map DThread (g_vec arb_thread); g_map DFlags (g_vec arb_flag);
       g_map DExists g_u32; g_map DRecent g_u32; g_map DExpunge g_nz32;
       n <~ g_nz32 ;; i <~ arb_vec1 arb_message_data_item ;; g_ret (DFetch n i);
       g_map DEnabled (g_vec arb_capability_enable);
       r <~ arb_astring ;; q <~ arb_vec1 arb_quota_get ;; g_ret (DQuota r q);
       m <~ arb_mailbox ;; r <~ g_vec arb_astring ;; g_ret (DQuotaRoot m r) ]
     ++ g_cfg ext_id [g_map DId arb_id_params]
     ++ g_cfg ext_metadata
       [ m <~ arb_mailbox ;; i <~ arb_metadata_response ;; g_ret (DMetadata m i) ]
     ++ g_cfg ext_condstore_qresync
       [ e <~ g_bool ;; s <~ arb_sequence_set ;; g_ret (DVanished e s) ]
     ++ g_cfg ext_namespace
       [ a <~ g_vec arb_namespace ;; b <~ g_vec arb_namespace ;; c <~ g_vec arb_namespace ;;
         g_ret (DNamespace a b c) ]).
(* arbitrary.rs:83-88 *)
Definition arb_continuation_basic : gen continuation :=
  c <~ g_option arb_code ;; t <~ arb_text ;;
  match continue_basic_new c t with
  | Built (Some r) => g_ret r
  | Built None => g_fail
  | BadArg _ _ => g_fail
  | BuildPanic => g_panic
  end.
(* response.rs:676-686 *)
Definition arb_continuation : gen continuation :=
  g_enum [arb_continuation_basic; g_map CRBase64 g_bytes].
(* response.rs:117-128 *)
Definition arb_response : gen response :=
  g_enum [g_map RContinue arb_continuation; g_map RData arb_data; g_map RStatus arb_status].

(* auth.rs:207-219 *)
Definition arb_authenticate_data : gen authenticate_data :=
  g_enum [g_map ADContinue g_bytes; g_ret ADCancel].

End Arb.

(** ** The fuzz targets, /repo/imap-codec/fuzz/fuzz_targets

    A run of a fuzz target on one input: it is skipped (the generator or the first decoder
    refuses the input), passes, or panics (a failed assertion, an [unwrap] of an error, a panic
    below it). *)
Inductive fuzz_run := RunSkipped | RunPassed | RunPanicked.

(* fuzz/src/lib.rs:78-108 [impl_to_bytes_and_back]; [dump] of the encoding is [enc] *)
Inductive to_bytes_and_back {E A} (g : gen A) (enc : A -> bytes) (dec : bytes -> outcome E A)
  : fuzz_run -> Prop :=
| TB_no_input : g GFail -> to_bytes_and_back g enc dec RunSkipped
| TB_generator_panics : g GPanic -> to_bytes_and_back g enc dec RunPanicked
| TB_same a : g (GVal a) -> dec (enc a) = Decoded [] a -> to_bytes_and_back g enc dec RunPassed
| TB_different a : g (GVal a) -> dec (enc a) <> Decoded [] a ->
    to_bytes_and_back g enc dec RunPanicked.

(* fuzz/src/lib.rs:1-76 [impl_decode_target] *)
Inductive decode_target {E A} (enc : A -> bytes) (dec : bytes -> outcome E A) (input : bytes)
  : fuzz_run -> Prop :=
| DT_invalid e : dec input = Error e -> decode_target enc dec input RunSkipped
| DT_panics : dec input = Panic -> decode_target enc dec input RunPanicked
| DT_same rem a : dec input = Decoded rem a -> dec (enc a) = Decoded [] a ->
    decode_target enc dec input RunPassed
| DT_different rem a : dec input = Decoded rem a -> dec (enc a) <> Decoded [] a ->
    decode_target enc dec input RunPanicked.

(* fuzz_targets/tags_structured.rs:27-51; [input] is [tag ++ noise], [fuzz_tag_imap] is
   [tag_imap] with another error type *)
Definition tags_structured (input : bytes) : fuzz_run :=
  match p_tag_imap input with
  | ROk _ t => if starts_with t input then RunPassed else RunPanicked
  | RPanic => RunPanicked
  | _ => RunPassed
  end.

(* fuzz_targets/fragmentizer.rs:12-35: the bytes [emitted] while the chunks are enqueued *)
Inductive emits : fragmentizer -> list bytes -> bytes -> Prop :=
| EM_end s : emits s [] []
| EM_fragment s s' f chunk chunks e : progress s = (s', Some f) ->
    emits s' (chunk :: chunks) e -> emits s (chunk :: chunks) (fragment_bytes s' f ++ e)
| EM_enqueue s s' chunk chunks e : progress s = (s', None) ->
    emits (enqueue s' chunk) chunks e -> emits s (chunk :: chunks) e.
(* fuzz_targets/fragmentizer.rs:37-50: the two assertions *)
Definition fragmentizer_checks (mms : option N) (data : list bytes) (emitted : bytes) : fuzz_run :=
  let flat := concat data in
  if negb (Nat.leb (length emitted) (length flat)) then RunPanicked
  else
    let check_prefix := match mms with Some m => N.leb (lenN flat) m | None => true end in
    if check_prefix && negb (beqs emitted (firstn (length emitted) flat)) then RunPanicked
    else RunPassed.
