(** Token-level parsers: imap-codec/src/core.rs, sequence.rs, mailbox.rs (list_mailbox,
    mailbox), flag.rs, status.rs, datetime.rs, extensions/{utf8,binary,condstore_qresync}.rs.

    Conventions, used by all [Parse*.v] files:
    - [unwrap], [expect], [assert!] and [unreachable!] are modelled by [RPanic];
    - [T::unvalidated] is modelled as in debug builds, where it panics on an invalid value
      (in release builds it does not check);
    - [gate f p] is an alternative behind [#[cfg(feature = f)]]: without the feature it is
      an alternative that always fails with [Err(Error)], which [alt] skips.  *)

From Verif Require Import Bytes Dec Features Nom Types Utf8 Conv Base64 Date.

(** [map(p, |x| f(x).unwrap())]: conversion failure is a panic. *)
Definition expect {A B} (p : parser A) (f : A -> option B) : parser B :=
  a <- p ;; match f a with Some b => ret b | None => fun _ => RPanic end.

(** A [str] newtype built by [X::unvalidated(from_utf8(bytes).unwrap())] with validator [ok]. *)
Definition str_of (ok : bytes -> bool) (s : bytes) : option bytes :=
  if utf8_ok s && ok s then Some s else None.
Definition validated (ok : bytes -> bool) (p : parser bytes) : parser bytes :=
  expect p (str_of ok).

(** [VecN::unvalidated] and [VecN::try_from(..).unwrap()], imap-types/src/core.rs:1530-1625
    ([Vec1 = VecN<_, 1>], [Vec2 = VecN<_, 2>]). *)
Definition vecn {A} (n : nat) (p : parser (list A)) : parser (list A) :=
  expect p (fun l => if Nat.leb n (length l) then Some l else None).
Definition vec1 {A} (p : parser (list A)) : parser (list A) := vecn 1 p.
Definition vec2 {A} (p : parser (list A)) : parser (list A) := vecn 2 p.

Definition gate {A} (b : bool) (p : parser A) : parser A := if b then p else perr.

(** [preceded]/[delimited]/[terminated] *)
Definition delimited {A B C} (p : parser A) (q : parser B) (r : parser C) : parser B :=
  p ;;; x <- q ;; r ;;; ret x.
Definition terminated {A B} (p : parser A) (q : parser B) : parser A :=
  x <- p ;; q ;;; ret x.

(** [unwrap_or_default] on an optional list *)
Definition dflt {A} (o : option (list A)) : list A := match o with Some l => l | None => [] end.

Notation "'kw' s" := (tag_no_case (bs s%bytestr)) (at level 5, s at level 0).
Notation "'tg' s" := (tag (bs s%bytestr)) (at level 5, s at level 0).

Section ParseCore.
Context {F : features}.

(** ** core.rs *)

(* core.rs:38-47, 55-64 *)
Definition p_digits (max : N) : parser N :=
  map_res (expect (take_while1 is_digit) (fun s => if utf8_ok s then Some s else None))
    (parse_max max).
Definition p_number : parser N := p_digits u32_max.
Definition p_number64 : parser N := p_digits u64_max.

(* core.rs:68-70 *)
Definition nonzero (n : N) : option N := if N.eqb n 0 then None else Some n.
Definition p_nz_number : parser N := map_res p_number nonzero.

(* core.rs:89-109 *)
Definition p_quoted : parser bytes :=
  dquote ;;;
  s <- expect (escaped is_any_text_char_except_quoted_specials bBS is_quoted_specials)
         (fun s => if utf8_ok s then Some s else None) ;;
  dquote ;;;
  expect (ret (unescape_quoted s)) (fun s => if quoted_ok s then Some s else None).

(* extensions/utf8.rs:38-55 *)
Definition p_quoted_utf8 : parser bytes :=
  dquote ;;;
  s <- map_res (escaped (fun b => negb (is_quoted_specials b)) bBS is_quoted_specials)
         (fun s => if utf8_ok s then Some s else None) ;;
  dquote ;;;
  ret (unescape_quoted s).

(* core.rs:153-195; [header] is the part up to and including the CRLF *)
Definition p_lit_mode : parser lit_mode :=
  pmap (fun o => match o with Some _ => NonSync | None => Sync end) (opt (char "+"%byte)).
Definition p_lit_header (open : bytes) : parser (N * lit_mode) :=
  tag open ;;; n <- p_number ;; m <- p_lit_mode ;; tg "}" ;;; crlf ;;; ret (n, m).
(** "Signal that an continuation request could be required." (core.rs:171-183) *)
Definition p_lit_found (n : N) (m : lit_mode) : parser unit := fun i =>
  match i with [] => RFail (FLit None n m) | _ => ROk i tt end.
Definition p_literal : parser literal_t :=
  ' (n, m) <- p_lit_header (bs "{") ;;
  p_lit_found n m ;;;
  d <- take n ;;
  if literal_ok d then ret (mkLit d m) else pfail.

(* extensions/binary.rs:32-70 *)
Definition p_literal8 : parser literal8_t :=
  ' (n, m) <- p_lit_header (bs "~{") ;;
  p_lit_found n m ;;;
  d <- take n ;;
  ret (mkLit8 d m).

(* core.rs:75-83 *)
Definition p_string : parser istring :=
  alt [pmap IQuoted p_quoted; gate ext_utf8 (pmap IQuotedUtf8 p_quoted_utf8);
       pmap ILiteral p_literal].

(* core.rs:112-132 *)
Definition one_byte (s : bytes) : option byte := match s with [b] => Some b | _ => None end.
Definition p_quoted_char : parser byte :=
  expect
    (alt [expect (take_while_m_n 1 1 is_any_text_char_except_quoted_specials) one_byte;
          expect (tg "\" ;;; take_while_m_n 1 1 is_quoted_specials) one_byte])
    (fun b => if quoted_char_ok b then Some b else None).

(* core.rs:200-214 *)
Definition p_astring : parser astring :=
  alt [pmap AAtom (validated atom_ext_ok (take_while1 is_astring_char));
       pmap AString p_string].

(* core.rs:217-231 *)
Definition p_atom : parser atom_t := validated atom_ok (take_while1 is_atom_char).

(* core.rs:245-247, 236-241 *)
Definition p_nil : parser unit := kw "NIL".
Definition p_nstring : parser nstring := alt [pmap Some p_string; value None p_nil].

(* core.rs:252-259 *)
Definition p_text : parser bytes := validated text_ok (take_while1 is_text_char).

(* core.rs:264-277 *)
Definition is_base64_char (b : byte) : bool :=
  is_alpha b || is_digit b || beq b "+"%byte || beq b "/"%byte.
Definition p_base64 : parser bytes :=
  map_res (recognize (take_while is_base64_char ;;; opt (alt [tg "=="; tg "="])))
    b64_decode.

(* core.rs:286-288 *)
Definition p_charset : parser charset :=
  alt [pmap CharsetAtom p_atom; pmap CharsetQuoted p_quoted].

(* core.rs:293-300 *)
Definition p_tag_imap : parser bytes := validated tag_ok (take_while1 is_tag_char).

(** ** sequence.rs *)

(* sequence.rs:77-82 *)
Definition p_seq_number : parser seq_or_uid :=
  alt [pmap SValue p_nz_number; value SAsterisk (tg "*")].
(* sequence.rs:56-62 *)
Definition p_seq_range : parser sequence :=
  a <- p_seq_number ;; tg ":" ;;; b <- p_seq_number ;; ret (SRange a b).
(* sequence.rs:34-46 *)
Definition p_sequence_set : parser sequence_set :=
  vec1 (sep_list1 (tg ",") (alt [p_seq_range; pmap SSingle p_seq_number])).

(** ** mailbox.rs *)

(* mailbox.rs:37-51 *)
Definition p_list_mailbox : parser list_mailbox :=
  alt [pmap LMToken (validated list_char_string_ok (take_while1 is_list_char));
       pmap LMString p_string].
(* mailbox.rs:62-64 *)
Definition p_mailbox : parser mailbox := expect p_astring mailbox_from.

(** ** flag.rs *)

(* flag.rs:25-30 *)
Definition p_flag : parser flag :=
  alt [pmap flag_system (char bBS ;;; p_atom); pmap FKeyword p_atom].
(* flag.rs:54-56 *)
Definition p_flag_list : parser (list flag) :=
  delimited (tg "(") (sep_list0 sp p_flag) (tg ")").
(* flag.rs:59-67 *)
Definition p_flag_fetch : parser flag_fetch := fun i =>
  match recognize (char bBS ;;; p_atom) i with
  | ROk r s => if eqi s (bs "\recent") then ROk r FFRecent else pmap FFFlag p_flag i
  | RPanic => RPanic
  | _ => pmap FFFlag p_flag i
  end.
(* flag.rs:70-75 *)
Definition p_flag_perm : parser flag_perm :=
  alt [value FPAsterisk (tg "\*"); pmap FPFlag p_flag].
(* flag.rs:84-100 *)
Definition p_mbx_list_flags : parser (list flag_name_attribute) :=
  sep_list1 sp (pmap flag_name_attribute_from (char bBS ;;; p_atom)).

(** ** datetime.rs *)

(* datetime.rs:182-215 *)
Definition p_digit_m_n (m n : nat) (max : N) : parser N :=
  map_res (expect (take_while_m_n m n is_digit) (fun s => if utf8_ok s then Some s else None))
    (parse_max max).
Definition p_digit_1_2 : parser N := p_digit_m_n 1 2 255.
Definition p_digit_2 : parser N := p_digit_m_n 2 2 255.
Definition p_digit_4 : parser N := p_digit_m_n 4 4 65535.

(* datetime.rs:54-69 *)
Definition p_date_month : parser N :=
  alt [value 1%N (kw "Jan"); value 2%N (kw "Feb"); value 3%N (kw "Mar");
       value 4%N (kw "Apr"); value 5%N (kw "May"); value 6%N (kw "Jun");
       value 7%N (kw "Jul"); value 8%N (kw "Aug"); value 9%N (kw "Sep");
       value 10%N (kw "Oct"); value 11%N (kw "Nov"); value 12%N (kw "Dec")].

(** [chrono::NaiveDate::from_ymd_opt], [NaiveTime::from_hms_opt], [FixedOffset::east_opt],
    [west_opt] (chrono is not part of /repo). *)
Definition from_ymd_opt (y m d : N) : option naive_date :=
  if ymd_ok y m d then Some (mkDate y m d) else None.
Definition from_hms_opt (h m s : N) : option (N * N * N) :=
  if (N.ltb h 24 && N.ltb m 60 && N.ltb s 60)%bool then Some (h, m, s) else None.
Definition offset_opt (o : Z) : option Z :=
  if (Z.ltb (-86400) o && Z.ltb o 86400)%bool then Some o else None.

(* datetime.rs:29-38; NaiveDate::unvalidated panics on a year > 9999 in debug builds *)
Definition p_date_text : parser (option naive_date) :=
  d <- p_digit_1_2 ;; tg "-" ;;; m <- p_date_month ;; tg "-" ;;; y <- p_digit_4 ;;
  match from_ymd_opt y m d with
  | None => ret None
  | Some dt => if N.leb y 9999 then ret (Some dt) else (fun _ => RPanic)
  end.
(* datetime.rs:22-24 *)
Definition p_date_opt : parser (option naive_date) :=
  alt [p_date_text; delimited dquote p_date_text dquote].
(* the [map_opt(date, |date| date)] of search.rs *)
Definition p_date : parser naive_date := map_res p_date_opt (fun o => o).

(* datetime.rs:83-92 *)
Definition p_time : parser (option (N * N * N)) :=
  h <- p_digit_2 ;; tg ":" ;;; m <- p_digit_2 ;; tg ":" ;;; s <- p_digit_2 ;;
  ret (from_hms_opt h m s).
(* datetime.rs:147-155; [bytes[0] - b'0'] *)
Definition p_date_day_fixed : parser N :=
  alt [expect (sp ;;; take_while_m_n 1 1 is_digit)
         (fun s => match s with b :: _ => Some (bN b - 48)%N | [] => None end);
       p_digit_2].
(* datetime.rs:166-180 *)
Definition p_zone : parser (option Z) :=
  sign <- alt [char "+"%byte; char "-"%byte] ;;
  hh <- p_digit_2 ;; mm <- p_digit_2 ;;
  let offset := (3600 * Z.of_N hh + 60 * Z.of_N mm)%Z in
  ret (if beq sign "+"%byte then offset_opt offset else offset_opt (- offset)).
(* datetime.rs:101-140; [from_local_datetime] of a fixed offset is always [Single];
   DateTime::unvalidated panics on a bad value in debug builds *)
Definition p_date_time : parser date_time :=
  dquote ;;;
  d <- p_date_day_fixed ;; tg "-" ;;; m <- p_date_month ;; tg "-" ;;; y <- p_digit_4 ;;
  sp ;;; t <- p_time ;; sp ;;; z <- p_zone ;;
  dquote ;;;
  match from_ymd_opt y m d, t, z with
  | Some date, Some (hh, mm, ss), Some o =>
    if (N.leb y 9999 && Z.eqb (Z.rem o 60) 0)%bool
    then ret (mkDateTime date hh mm ss o) else (fun _ => RPanic)
  | _, _, _ => pfail
  end.

(** ** extensions/condstore_qresync.rs *)

(* condstore_qresync.rs:22-33 *)
Definition p_mod_sequence_valzer : parser N := p_number64.
Definition p_mod_sequence_value : parser N := map_res p_number64 nonzero.
(* condstore_qresync.rs:38-44 *)
Definition p_search_sort_mod_seq : parser N :=
  delimited (char "("%byte) (kw "MODSEQ " ;;; p_mod_sequence_value) (char ")"%byte).
(* condstore_qresync.rs:98-103 *)
Definition p_attr_flag : parser attribute_flag :=
  alt [pmap attribute_flag_system (tg "\\" ;;; p_atom); pmap AFKeyword p_atom].
(* condstore_qresync.rs:84-86 *)
Definition p_entry_flag_name : parser attribute_flag :=
  delimited (tag_no_case (bDQ :: bs "/flags/")) p_attr_flag (char bDQ).
(* condstore_qresync.rs:133-139 *)
Definition p_entry_type_req : parser entry_type_req :=
  alt [value ETPrivate (kw "priv"); value ETShared (kw "shared"); value ETAll (kw "all")].
(* condstore_qresync.rs:62-64 *)
Definition p_search_modseq_ext : parser (attribute_flag * entry_type_req) :=
  sp ;;; a <- p_entry_flag_name ;; sp ;;; t <- p_entry_type_req ;; ret (a, t).
(* condstore_qresync.rs:50-57 *)
Definition p_search_modsequence : parser search_key :=
  kw "MODSEQ" ;;; e <- opt p_search_modseq_ext ;; sp ;;; n <- p_mod_sequence_valzer ;;
  ret (KModSequence e n).

(** ** status.rs *)

(* status.rs:23-42 *)
Definition p_status_att : parser status_data_item_name :=
  alt [value SNMessages (kw "MESSAGES"); value SNRecent (kw "RECENT");
       value SNUidNext (kw "UIDNEXT"); value SNUidValidity (kw "UIDVALIDITY");
       value SNUnseen (kw "UNSEEN"); value SNDeletedStorage (kw "DELETED-STORAGE");
       value SNDeleted (kw "DELETED");
       gate ext_condstore_qresync (value SNHighestModSeq (kw "HIGHESTMODSEQ"))].
(* status.rs:60-96 *)
Definition p_status_att_val : parser status_data_item :=
  alt [pmap SIMessages (kw "MESSAGES " ;;; p_number);
       pmap SIRecent (kw "RECENT " ;;; p_number);
       pmap SIUidNext (kw "UIDNEXT " ;;; p_nz_number);
       pmap SIUidValidity (kw "UIDVALIDITY " ;;; p_nz_number);
       pmap SIUnseen (kw "UNSEEN " ;;; p_number);
       pmap SIDeletedStorage (kw "DELETED-STORAGE " ;;; p_number64);
       pmap SIDeleted (kw "DELETED " ;;; p_number);
       gate ext_condstore_qresync
         (pmap SIHighestModSeq (kw "HIGHESTMODSEQ " ;;; p_mod_sequence_valzer))].
(* status.rs:46-48 *)
Definition p_status_att_list : parser (list status_data_item) :=
  sep_list1 sp p_status_att_val.

End ParseCore.
