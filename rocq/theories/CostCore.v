(** The parsers of ParseCore.v with their steps counted: the same text over the combinators
    of CostNom.v, with [q_] for [p_]. Where work is done outside a combinator ([unescape],
    checking the bytes of a literal) it is charged by [work]. *)

From Verif Require Import Bytes Dec Features Nom Types Utf8 Conv Base64 Date ParseCore CostNom.

(* [map(p, |x| f(x).unwrap())] *)
Definition expect {A B} (p : parser A) (f : A -> option B) : parser B :=
  conv p (fun a r => match f a with Some b => ROk r b | None => RPanic end).
Definition validated (ok : bytes -> bool) (p : parser bytes) : parser bytes :=
  expect p (str_of ok).
(* imap-types/src/core.rs:1530-1625; a comparison of lengths *)
Definition vecn {A} (n : nat) (p : parser (list A)) : parser (list A) :=
  l <- p ;; if Nat.leb n (length l) then ret l else panic.
Definition vec1 {A} (p : parser (list A)) : parser (list A) := vecn 1 p.
Definition vec2 {A} (p : parser (list A)) : parser (list A) := vecn 2 p.

Definition gate {A} (b : bool) (p : parser A) : parser A := if b then p else perr.

(** [preceded]/[delimited]/[terminated] *)
Definition delimited {A B C} (p : parser A) (q : parser B) (r : parser C) : parser B :=
  p ;;; x <- q ;; r ;;; ret x.
Definition terminated {A B} (p : parser A) (q : parser B) : parser A :=
  x <- p ;; q ;;; ret x.

Notation "'kw' s" := (tag_no_case (bs s%bytestr)) (at level 5, s at level 0).
Notation "'tg' s" := (tag (bs s%bytestr)) (at level 5, s at level 0).

Section ParseCore.
Context {F : features}.

(** ** core.rs *)

(* core.rs:38-47, 55-64 *)
Definition q_digits (max : N) : parser N :=
  map_res (expect (take_while1 is_digit) (fun s => if utf8_ok s then Some s else None))
    (parse_max max).
Definition q_number : parser N := q_digits u32_max.
Definition q_number64 : parser N := q_digits u64_max.

(* core.rs:68-70 *)
Definition q_nz_number : parser N := map_res q_number nonzero.

(* core.rs:89-109 *)
Definition q_quoted : parser bytes :=
  dquote ;;;
  s <- expect (escaped is_any_text_char_except_quoted_specials bBS is_quoted_specials)
         (fun s => if utf8_ok s then Some s else None) ;;
  dquote ;;;
  work (length s) ;;;
  expect (ret (unescape_quoted s)) (fun s => if quoted_ok s then Some s else None).

(* extensions/utf8.rs:38-55 *)
Definition q_quoted_utf8 : parser bytes :=
  dquote ;;;
  s <- map_res (escaped (fun b => negb (is_quoted_specials b)) bBS is_quoted_specials)
         (fun s => if utf8_ok s then Some s else None) ;;
  dquote ;;;
  work (length s) ;;;
  ret (unescape_quoted s).

(* core.rs:153-195; [header] is the part up to and including the CRLF *)
Definition q_lit_mode : parser lit_mode :=
  pmap (fun o => match o with Some _ => NonSync | None => Sync end) (opt (char "+"%byte)).
Definition q_lit_header (open : bytes) : parser (N * lit_mode) :=
  tag open ;;; n <- q_number ;; m <- q_lit_mode ;; tg "}" ;;; crlf ;;; ret (n, m).
(** "Signal that an continuation request could be required." (core.rs:171-183) *)
Definition q_lit_found (n : N) (m : lit_mode) : parser unit := fun i =>
  (match i with [] => RFail (FLit None n m) | _ => ROk i tt end, 1%nat).
Definition q_literal : parser literal_t :=
  ' (n, m) <- q_lit_header (bs "{") ;;
  q_lit_found n m ;;;
  d <- take n ;;
  work (length d) ;;;
  if literal_ok d then ret (mkLit d m) else pfail.

(* extensions/binary.rs:32-70 *)
Definition q_literal8 : parser literal8_t :=
  ' (n, m) <- q_lit_header (bs "~{") ;;
  q_lit_found n m ;;;
  d <- take n ;;
  ret (mkLit8 d m).

(* core.rs:75-83 *)
Definition q_string : parser istring :=
  alt [pmap IQuoted q_quoted; gate ext_utf8 (pmap IQuotedUtf8 q_quoted_utf8);
       pmap ILiteral q_literal].

(* core.rs:112-132 *)
Definition q_quoted_char : parser byte :=
  expect
    (alt [expect (take_while_m_n 1 1 is_any_text_char_except_quoted_specials) one_byte;
          expect (tg "\" ;;; take_while_m_n 1 1 is_quoted_specials) one_byte])
    (fun b => if quoted_char_ok b then Some b else None).

(* core.rs:200-214 *)
Definition q_astring : parser astring :=
  alt [pmap AAtom (validated atom_ext_ok (take_while1 is_astring_char));
       pmap AString q_string].

(* core.rs:217-231 *)
Definition q_atom : parser atom_t := validated atom_ok (take_while1 is_atom_char).

(* core.rs:245-247, 236-241 *)
Definition q_nil : parser unit := kw "NIL".
Definition q_nstring : parser nstring := alt [pmap Some q_string; value None q_nil].

(* core.rs:252-259 *)
Definition q_text : parser bytes := validated text_ok (take_while1 is_text_char).

(* core.rs:264-277 *)
Definition q_base64 : parser bytes :=
  map_res (recognize (take_while is_base64_char ;;; opt (alt [tg "=="; tg "="])))
    b64_decode.

(* core.rs:286-288 *)
Definition q_charset : parser charset :=
  alt [pmap CharsetAtom q_atom; pmap CharsetQuoted q_quoted].

(* core.rs:293-300 *)
Definition q_tag_imap : parser bytes := validated tag_ok (take_while1 is_tag_char).

(** ** sequence.rs *)

(* sequence.rs:77-82 *)
Definition q_seq_number : parser seq_or_uid :=
  alt [pmap SValue q_nz_number; value SAsterisk (tg "*")].
(* sequence.rs:56-62 *)
Definition q_seq_range : parser sequence :=
  a <- q_seq_number ;; tg ":" ;;; b <- q_seq_number ;; ret (SRange a b).
(* sequence.rs:34-46 *)
Definition q_sequence_set : parser sequence_set :=
  vec1 (sep_list1 (tg ",") (alt [q_seq_range; pmap SSingle q_seq_number])).

(** ** mailbox.rs *)

(* mailbox.rs:37-51 *)
Definition q_list_mailbox : parser list_mailbox :=
  alt [pmap LMToken (validated list_char_string_ok (take_while1 is_list_char));
       pmap LMString q_string].
(* mailbox.rs:62-64 *)
Definition q_mailbox : parser mailbox := expect q_astring mailbox_from.

(** ** flag.rs *)

(* flag.rs:25-30 *)
Definition q_flag : parser flag :=
  alt [pmap flag_system (char bBS ;;; q_atom); pmap FKeyword q_atom].
(* flag.rs:54-56 *)
Definition q_flag_list : parser (list flag) :=
  delimited (tg "(") (sep_list0 sp q_flag) (tg ")").
(* flag.rs:59-67 *)
Definition q_flag_fetch : parser flag_fetch := fun i =>
  match recognize (char bBS ;;; q_atom) i with
  | (ROk r s, c) =>
    if eqi s (bs "\recent") then (ROk r FFRecent, S (c + length s))
    else let '(y, d) := pmap FFFlag q_flag i in (y, S (c + length s + d))
  | (RPanic, c) => (RPanic, S c)
  | (_, c) => let '(y, d) := pmap FFFlag q_flag i in (y, S (c + d))
  end.
(* flag.rs:70-75 *)
Definition q_flag_perm : parser flag_perm :=
  alt [value FPAsterisk (tg "\*"); pmap FPFlag q_flag].
(* flag.rs:84-100 *)
Definition q_mbx_list_flags : parser (list flag_name_attribute) :=
  sep_list1 sp (pmap flag_name_attribute_from (char bBS ;;; q_atom)).

(** ** datetime.rs *)

(* datetime.rs:182-215 *)
Definition q_digit_m_n (m n : nat) (max : N) : parser N :=
  map_res (expect (take_while_m_n m n is_digit) (fun s => if utf8_ok s then Some s else None))
    (parse_max max).
Definition q_digit_1_2 : parser N := q_digit_m_n 1 2 255.
Definition q_digit_2 : parser N := q_digit_m_n 2 2 255.
Definition q_digit_4 : parser N := q_digit_m_n 4 4 65535.

(* datetime.rs:54-69 *)
Definition q_date_month : parser N :=
  alt [value 1%N (kw "Jan"); value 2%N (kw "Feb"); value 3%N (kw "Mar");
       value 4%N (kw "Apr"); value 5%N (kw "May"); value 6%N (kw "Jun");
       value 7%N (kw "Jul"); value 8%N (kw "Aug"); value 9%N (kw "Sep");
       value 10%N (kw "Oct"); value 11%N (kw "Nov"); value 12%N (kw "Dec")].

(** [chrono::NaiveDate::from_ymd_opt], [NaiveTime::from_hms_opt], [FixedOffset::east_opt],
    [west_opt] (chrono is not part of /repo). *)

(* datetime.rs:29-38; NaiveDate::unvalidated panics on a year > 9999 in debug builds *)
Definition q_date_text : parser (option naive_date) :=
  d <- q_digit_1_2 ;; tg "-" ;;; m <- q_date_month ;; tg "-" ;;; y <- q_digit_4 ;;
  match from_ymd_opt y m d with
  | None => ret None
  | Some dt => if N.leb y 9999 then ret (Some dt) else panic
  end.
(* datetime.rs:22-24 *)
Definition q_date_opt : parser (option naive_date) :=
  alt [q_date_text; delimited dquote q_date_text dquote].
(* the [map_opt(date, |date| date)] of search.rs *)
Definition q_date : parser naive_date := map_res q_date_opt (fun o => o).

(* datetime.rs:83-92 *)
Definition q_time : parser (option (N * N * N)) :=
  h <- q_digit_2 ;; tg ":" ;;; m <- q_digit_2 ;; tg ":" ;;; s <- q_digit_2 ;;
  ret (from_hms_opt h m s).
(* datetime.rs:147-155; [bytes[0] - b'0'] *)
Definition q_date_day_fixed : parser N :=
  alt [expect (sp ;;; take_while_m_n 1 1 is_digit)
         (fun s => match s with b :: _ => Some (bN b - 48)%N | [] => None end);
       q_digit_2].
(* datetime.rs:166-180 *)
Definition q_zone : parser (option Z) :=
  sign <- alt [char "+"%byte; char "-"%byte] ;;
  hh <- q_digit_2 ;; mm <- q_digit_2 ;;
  let offset := (3600 * Z.of_N hh + 60 * Z.of_N mm)%Z in
  ret (if beq sign "+"%byte then offset_opt offset else offset_opt (- offset)).
(* datetime.rs:101-140; [from_local_datetime] of a fixed offset is always [Single];
   DateTime::unvalidated panics on a bad value in debug builds *)
Definition q_date_time : parser date_time :=
  dquote ;;;
  d <- q_date_day_fixed ;; tg "-" ;;; m <- q_date_month ;; tg "-" ;;; y <- q_digit_4 ;;
  sp ;;; t <- q_time ;; sp ;;; z <- q_zone ;;
  dquote ;;;
  match from_ymd_opt y m d, t, z with
  | Some date, Some (hh, mm, ss), Some o =>
    if (N.leb y 9999 && Z.eqb (Z.rem o 60) 0)%bool
    then ret (mkDateTime date hh mm ss o) else panic
  | _, _, _ => pfail
  end.

(** ** extensions/condstore_qresync.rs *)

(* condstore_qresync.rs:22-33 *)
Definition q_mod_sequence_valzer : parser N := q_number64.
Definition q_mod_sequence_value : parser N := map_res q_number64 nonzero.
(* condstore_qresync.rs:38-44 *)
Definition q_search_sort_mod_seq : parser N :=
  delimited (char "("%byte) (kw "MODSEQ " ;;; q_mod_sequence_value) (char ")"%byte).
(* condstore_qresync.rs:98-103 *)
Definition q_attr_flag : parser attribute_flag :=
  alt [pmap attribute_flag_system (tg "\\" ;;; q_atom); pmap AFKeyword q_atom].
(* condstore_qresync.rs:84-86 *)
Definition q_entry_flag_name : parser attribute_flag :=
  delimited (tag_no_case (bDQ :: bs "/flags/")) q_attr_flag (char bDQ).
(* condstore_qresync.rs:133-139 *)
Definition q_entry_type_req : parser entry_type_req :=
  alt [value ETPrivate (kw "priv"); value ETShared (kw "shared"); value ETAll (kw "all")].
(* condstore_qresync.rs:62-64 *)
Definition q_search_modseq_ext : parser (attribute_flag * entry_type_req) :=
  sp ;;; a <- q_entry_flag_name ;; sp ;;; t <- q_entry_type_req ;; ret (a, t).
(* condstore_qresync.rs:50-57 *)
Definition q_search_modsequence : parser search_key :=
  kw "MODSEQ" ;;; e <- opt q_search_modseq_ext ;; sp ;;; n <- q_mod_sequence_valzer ;;
  ret (KModSequence e n).

(** ** status.rs *)

(* status.rs:23-42 *)
Definition q_status_att : parser status_data_item_name :=
  alt [value SNMessages (kw "MESSAGES"); value SNRecent (kw "RECENT");
       value SNUidNext (kw "UIDNEXT"); value SNUidValidity (kw "UIDVALIDITY");
       value SNUnseen (kw "UNSEEN"); value SNDeletedStorage (kw "DELETED-STORAGE");
       value SNDeleted (kw "DELETED");
       gate ext_condstore_qresync (value SNHighestModSeq (kw "HIGHESTMODSEQ"))].
(* status.rs:60-96 *)
Definition q_status_att_val : parser status_data_item :=
  alt [pmap SIMessages (kw "MESSAGES " ;;; q_number);
       pmap SIRecent (kw "RECENT " ;;; q_number);
       pmap SIUidNext (kw "UIDNEXT " ;;; q_nz_number);
       pmap SIUidValidity (kw "UIDVALIDITY " ;;; q_nz_number);
       pmap SIUnseen (kw "UNSEEN " ;;; q_number);
       pmap SIDeletedStorage (kw "DELETED-STORAGE " ;;; q_number64);
       pmap SIDeleted (kw "DELETED " ;;; q_number);
       gate ext_condstore_qresync
         (pmap SIHighestModSeq (kw "HIGHESTMODSEQ " ;;; q_mod_sequence_valzer))].
(* status.rs:46-48 *)
Definition q_status_att_list : parser (list status_data_item) :=
  sep_list1 sp q_status_att_val.

End ParseCore.
