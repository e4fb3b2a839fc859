(** The test vectors of imap-types, replayed on the model.

    As in [Conformance.v] these are tests of the model, not theorems about it. Tests that only
    check that a value is constructed are replayed as "no error and no panic". *)

From Verif Require Import Bytes Features Nom Types Conv SeqSet Base64 Date Ctors Serde SerdeTypes Debug.
From Verif Require Import Conformance.

Open Scope N_scope.
(** The tests do not depend on the features, except where one is given. *)
Local Instance types_features : features := all_features.
Definition converts {A} (f : bytes -> conv A) (t : bytes * conv A) : Prop := f (fst t) = snd t.
Definition constructs {A} (c : conv A) : Prop := match c with COk _ => True | _ => False end.
Definition refuses {A} (c : conv A) : Prop := match c with CErr _ => True | _ => False end.
Definition is_built {A} (b : built A) : Prop := match b with Built _ => True | _ => False end.
Definition is_some {A} (o : option A) : Prop := match o with Some _ => True | None => False end.
Definition is_none {A} (o : option A) : Prop := match o with Some _ => False | None => True end.

(** ** imap-types/src/core.rs *)

(* core.rs:1644-1750 test_conversion_atom *)
Example types_atom : all (converts atom_from_bytes) [
  (bs "A", COk (bs "A"));
  (bs "ABC", COk (bs "ABC"));
  (bs " A", CErr (VInvalidByteAt bSP 0%nat));
  (bs "A ", CErr (VInvalidByteAt bSP 1%nat));
  ([], CErr VEmpty);
  (bs "A" ++ ["000"%byte], CErr (VInvalidByteAt "000"%byte 1%nat))].
Proof. replay. Qed.

(* core.rs:1752-1872 test_conversion_atom_ext *)
Example types_atom_ext : all (converts atom_ext_from_bytes) [
  (bs "A", COk (bs "A"));
  (bs "ABC", COk (bs "ABC"));
  (bs "!partition/sda4", COk (bs "!partition/sda4"));
  (bs " A", CErr (VInvalidByteAt bSP 0%nat));
  (bs "A ", CErr (VInvalidByteAt bSP 1%nat));
  ([], CErr VEmpty);
  (bs "A" ++ ["000"%byte], CErr (VInvalidByteAt "000"%byte 1%nat));
  (["000"%byte], CErr (VInvalidByteAt "000"%byte 0%nat))].
Proof. replay. Qed.

(* core.rs:1874-2008 test_conversion_astring *)
Example types_astring : all (converts astring_from_bytes) [
  (bs "A", COk (AAtom (bs "A")));
  (bs "ABC", COk (AAtom (bs "ABC")));
  ([], COk (AString (IQuoted [])));
  (bs " A", COk (AString (IQuoted (bs " A"))));
  (bs "A ", COk (AString (IQuoted (bs "A "))));
  (bs """", COk (AString (IQuoted (bs """"))));
  (bs "\""", COk (AString (IQuoted (bs "\"""))));
  (bs "A" ++ ["000"%byte], CErr (VInvalidByteAt "000"%byte 1%nat));
  (["000"%byte], CErr (VInvalidByteAt "000"%byte 0%nat))].
Proof. replay. Qed.
(* [got.as_ref()] is the tested string *)
Example types_astring_as_ref :
  all (fun s => cmap astring_bytes (astring_from_bytes s) = COk s)
    [bs "A"; bs "ABC"; []; bs " A"; bs "A "; bs """"; bs "\"""].
Proof. replay. Qed.

(* core.rs:2010-2025 test_conversion_istring *)
Example types_istring :
  istring_from_bytes (bs "AAA") = cmap IQuoted (quoted_from_bytes (bs "AAA")) /\
  istring_from_bytes (bs """AAA") = cmap IQuoted (quoted_from_bytes (bs """AAA")) /\
  istring_from_bytes (bs """AAA") <> cmap IQuoted (quoted_from_bytes (bs "\""AAA")) /\
  constructs (quoted_from_bytes (bs "\""AAA")).
Proof. vm_compute. repeat split. discriminate. Qed.

(* core.rs:2034-2052 test_vec_n *)
Example types_vec_n :
  constructs (vec_n_from 0%nat (@nil N)) /\ constructs (vec_n_from 0%nat [1]) /\
  constructs (vec_n_from 0%nat [1; 2]) /\
  refuses (vec_n_from 1%nat (@nil N)) /\ constructs (vec_n_from 1%nat [1]) /\
  constructs (vec_n_from 1%nat [1; 2]) /\
  refuses (vec_n_from 2%nat (@nil N)) /\ refuses (vec_n_from 2%nat [1]) /\
  constructs (vec_n_from 2%nat [1; 2]).
Proof. replay. Qed.

(** The expected error messages are those of the validators. *)
(* core.rs:2056-2072 test_deserialization_text *)
Example types_de_text :
  de_text (TStr (bs "Hello, world!")) = Some (bs "Hello, world!") /\
  de_text (TStr (bs "Hello," ++ [bCR] ++ bs "world!")) = None /\
  validate_text (bs "Hello," ++ [bCR] ++ bs "world!") = CErr (VInvalidByteAt bCR 6%nat).
Proof. replay. Qed.

(* core.rs:2074-2108 test_deserialization_atom, test_deserialization_extended_atom *)
Example types_de_atom :
  de_atom (TStr (bs "OneWord")) = Some (bs "OneWord") /\
  de_atom (TStr (bs "Two Words")) = None /\
  validate_atom (bs "Two Words") = CErr (VInvalidByteAt bSP 3%nat) /\
  de_atom_ext (TStr (bs "OneWord")) = Some (bs "OneWord") /\
  de_atom_ext (TStr (bs "Two Words")) = None /\
  validate_atom_ext (bs "Two Words") = CErr (VInvalidByteAt bSP 3%nat).
Proof. replay. Qed.

(* core.rs:2110-2133 test_deserialization_literal *)
Example types_de_literal :
  de_literal_t (TMap [(bs "data", TSeq [TNum 1; TNum 2; TNum 3]); (bs "mode", TStr (bs "Sync"))])
    = Some (mkLit ["001"%byte; "002"%byte; "003"%byte] Sync) /\
  de_literal_t (TMap [(bs "data", TSeq [TNum 0; TNum 1; TNum 2; TNum 3]);
                      (bs "mode", TStr (bs "Sync"))]) = None /\
  validate_literal ["000"%byte; "001"%byte; "002"%byte; "003"%byte]
    = CErr (VInvalidByteAt "000"%byte 0%nat).
Proof. replay. Qed.

(* core.rs:2135-2167 test_deserialization_quoted, test_deserialization_tag *)
Example types_de_quoted_tag :
  de_quoted (TStr (bs "Hello, world!")) = Some (bs "Hello, world!") /\
  de_quoted (TStr (bs "Hello," ++ [bCR] ++ bs "world!")) = None /\
  validate_quoted (bs "Hello," ++ [bCR] ++ bs "world!") = CErr (VInvalidByteAt bCR 6%nat) /\
  de_tag (TStr (bs "A0001")) = Some (bs "A0001") /\
  de_tag (TStr (bs "A+0001")) = None /\
  validate_tag (bs "A+0001") = CErr (VInvalidByteAt "+"%byte 1%nat).
Proof. replay. Qed.

(* core.rs:2169-2199 test_deserialization_quoted_char, test_deserialization_vec_n *)
Example types_de_quoted_char_vec_n :
  de_quoted_char (TStr (bs "A")) = Some "A"%byte /\
  de_quoted_char (TStr [bCR]) = None /\
  quoted_char_from 13 = CErr VInvalid /\
  de_vec_n 3%nat (de_num 255) (TSeq [TNum 1; TNum 2; TNum 3]) = Some [1; 2; 3]%N /\
  de_vec_n 3%nat (de_num 255) (TSeq [TNum 1; TNum 2]) = None /\
  vec_n_from 3%nat [1; 2] = CErr (VNotEnough 3%nat).
Proof. replay. Qed.

(** ** imap-types/src/sequence.rs *)

(* sequence.rs:809-821 test_creation_of_sequence_from_u32 *)
Example types_sequence_from_u32 :
  option_map SSingle (seq_or_uid_from_num 1) = Some (SSingle (SValue 1)) /\
  option_map SSingle (seq_or_uid_from_num 0) = None.
Proof. replay. Qed.

(* sequence.rs:823-899 test_creation_of_sequence_from_range; the literals are [i32] *)
Definition i32_min : Z := (-2147483648)%Z.
Example types_sequence_from_range :
  seq_from_range_full = SRange (SValue 1) SAsterisk /\
  seq_from_range_from 1 = Some (SRange (SValue 1) SAsterisk) /\
  seq_from_range_from 1337 = Some (SRange (SValue 1337) SAsterisk) /\
  seq_from_range i32_min 1 1337 = Some (SRange (SValue 1) (SValue 1336)) /\
  seq_from_range_incl 1 1337 = Some (SRange (SValue 1) (SValue 1337)) /\
  seq_from_range_to i32_min 1337 = Some (SRange (SValue 1) (SValue 1336)) /\
  seq_from_range_to_incl 1337 = Some (SRange (SValue 1) (SValue 1337)).
Proof. replay. Qed.

(* sequence.rs:901-972 test_creation_of_sequence_set_from_str_positive *)
Example types_sequence_set_from_str :
  all (fun t => sequence_set_from_str (fst t) = Some (snd t)) [
  (bs "1", [SSingle (SValue 1)]);
  (bs "1,2,3", [SSingle (SValue 1); SSingle (SValue 2); SSingle (SValue 3)]);
  (bs "*", [SSingle SAsterisk]);
  (bs "1:2", [SRange (SValue 1) (SValue 2)]);
  (bs "1:2,3", [SRange (SValue 1) (SValue 2); SSingle (SValue 3)]);
  (bs "1:2,3,*", [SRange (SValue 1) (SValue 2); SSingle (SValue 3); SSingle SAsterisk])].
Proof. replay. Qed.

(* sequence.rs:974-986 test_creation_of_sequence_set_from_str_negative *)
Example types_sequence_set_from_str_negative :
  all (fun s => is_none (sequence_set_from_str s))
  [bs ""; bs "* "; bs " *"; bs " * "; bs "1 "; bs " 1"; bs " 1 "; bs "01"; bs " 01"; bs "01 ";
   bs " 01 "; bs "*1"; bs ":"; bs ":*"; bs "*:"; bs "*: "; bs "1:2:3"].
Proof. replay. Qed.

(** [Iterator::collect], for at most [n] elements; [None] is a panic or more elements *)
Fixpoint collect (n : nat) (st : iter_state) : option (list N) :=
  match n with
  | O => None
  | S n =>
    match iter_next st with
    | ItNone => Some []
    | ItSome x st => option_map (cons x) (collect n st)
    | ItPanic => None
    end
  end.
Definition naive (s : bytes) (largest : N) : option (list N) :=
  match sequence_set_from_str s with Some q => collect 250%nat (iter_naive q largest) | None => None end.
Definition clean (s : bytes) (largest : N) : option (list N) :=
  match sequence_set_from_str s with
  | Some q => match iter q largest with Some st => collect 250%nat st | None => None end
  | None => None
  end.
(** [Vec::dedup] *)
Fixpoint dedup (l : list N) : list N :=
  match l with
  | x :: ((y :: _) as l') => if N.eqb x y then dedup l' else x :: dedup l'
  | _ => l
  end.

(* sequence.rs:988-1015 test_iteration_over_some_sequence_sets *)
Example types_iteration : all (fun t => naive (fst t) 3 = Some (snd t)) [
  (bs "*", [3]);
  (bs "1:*", [1; 2; 3]);
  (bs "5,1:*,2:*", [5; 1; 2; 3; 2; 3]);
  (bs "*:2", [3; 2]);
  (bs "*:*", [3]);
  (bs "4:6,*", [4; 5; 6; 3])].
Proof. replay. Qed.

(* sequence.rs:1017-1043 test_issue_411 *)
Example types_issue_411 :
  naive (bs "22,21,22,*:20") 23 = Some [22; 21; 22; 23; 22; 21; 20] /\
  clean (bs "22,21,22,*:20") 23 = Some [20; 21; 22; 23].
Proof. replay. Qed.

(* sequence.rs:1045-1076 test_clean *)
Example types_clean :
  all (fun s => match naive s 13 with
    | Some l => clean s 13 = Some (dedup (sort_by (fun n => n) l))
    | None => False
    end)
  [bs "1"; bs "2"; bs "*"; bs "1:*"; bs "2:*"; bs "*:*"; bs "3,2,1"; bs "3,2,2,2,1,1,1";
   bs "3:1,5:1,1:2,1:1"; bs "4:5,5:1,1:2,1:1,*:*,*:10,1:100"].
Proof. replay. Qed.

(* sequence.rs:1078-1106 ordering_sequence *)
Example types_ordering :
  all (fun t => match sequence_from_str (fst (fst t)), sequence_from_str (snd (fst t)) with
    | Some a, Some b => sequence_partial_cmp a b = snd t
    | _, _ => False
    end) [
  (bs "1", bs "1", Some Eq); (bs "1", bs "2", Some Lt); (bs "2", bs "1", Some Gt);
  (bs "1", bs "2:4", Some Lt); (bs "2", bs "2:4", None); (bs "4", bs "2:4", None);
  (bs "7", bs "2:4", Some Gt); (bs "2:4", bs "1", Some Gt); (bs "2:4", bs "2", None);
  (bs "2:4", bs "4", None); (bs "2:4", bs "7", Some Lt); (bs "1:2", bs "3:4", Some Lt);
  (bs "3:4", bs "1:2", Some Gt); (bs "1:2", bs "2:4", None); (bs "2:4", bs "3:8", None)].
Proof. replay. Qed.

(* sequence.rs:1108-1125 normalize_sequence *)
Example types_normalize_sequence :
  all (fun t => is_some (sequence_from_str (fst t)) /\
    option_map sequence_normalize (sequence_from_str (fst t)) = sequence_from_str (snd t)) [
  (bs "1:*", bs "1:*"); (bs "*:1", bs "1:*"); (bs "1", bs "1"); (bs "1:1", bs "1");
  (bs "1:2", bs "1:2"); (bs "2:1", bs "1:2")].
Proof. replay. Qed.

(* sequence.rs:1127-1151 normalize_sequence_set *)
Example types_normalize_sequence_set :
  all (fun t => is_some (sequence_set_from_str (fst t)) /\
    option_map normalize (sequence_set_from_str (fst t)) = sequence_set_from_str (snd t)) [
  (bs "1,2,3,4", bs "1:4"); (bs "4,1,3,2", bs "1:4"); (bs "3,1,2,4", bs "1:4");
  (bs "3:1,5", bs "1:3,5"); (bs "5,3:1", bs "1:3,5"); (bs "3,3:1", bs "1:3");
  (bs "3:1,1", bs "1:3"); (bs "3:1,2:5", bs "1:5"); (bs "3:1,4:9", bs "1:9");
  (bs "9:4,3:1", bs "1:9"); (bs "9:5,3:1", bs "1:3,5:9");
  (bs "8:10,12,3:1,2:5,9", bs "1:5,8:10,12")].
Proof. replay. Qed.

(** ** imap-types/src/datetime.rs *)

(* datetime.rs:191-259 test_conversion_date_time_failing *)
Example types_date_time_failing :
  validate_date_time (-1) 0 3600 = Some (YearOutOfRange (-1)) /\
  validate_date_time 10000 0 3600 = Some (YearOutOfRange 10000) /\
  validate_date_time 0 0 1 = Some (UnalignedOffset 1) /\
  validate_date_time 9999 0 59 = Some (UnalignedOffset 59) /\
  validate_date_time 0 1 60 = Some (UnalignedNanoSeconds 1).
Proof. replay. Qed.

(* datetime.rs:261-302 test_deserialization_date_time, test_deserialization_naive_date *)
Example types_de_date :
  de_date_time (TDateTime 2015 5 15 11 22 33 0 3600)
    = Some (mkDateTime (mkDate 2015 5 15) 11 22 33 3600) /\
  de_date_time (TDateTime 12015 5 15 11 22 33 0 3600) = None /\
  validate_date_time 12015 0 3600 = Some (YearOutOfRange 12015) /\
  de_naive_date (TDate 2015 5 15) = Some (mkDate 2015 5 15) /\
  de_naive_date (TDate 12015 5 15) = None /\
  validate_naive_date 12015 = Some (YearOutOfRange 12015).
Proof. replay. Qed.

(** ** imap-types/src/utils.rs *)

(* utils.rs:144-160 test_escape_quoted, :162-178 test_unescape_quoted *)
Example types_escape :
  all (fun t => escape_quoted (fst t) = snd t /\ unescape_quoted (snd t) = fst t) [
  ([], []); (bs "\", bs "\\"); (bs """", bs "\"""); (bs "alice", bs "alice");
  (bs "\alice\", bs "\\alice\\"); (bs "alice""", bs "alice\""");
  (bs "\alice\ """, bs "\\alice\\ \""")].
Proof. replay. Qed.

(* utils.rs:180-185 test_that_unescape_is_inverse_of_escape *)
Example types_unescape_escape :
  all (fun s => unescape_quoted (escape_quoted s) = s)
    [bs "\""\¹²³abc_*:;059^$%§!"""].
Proof. replay. Qed.

(* utils.rs:187-221 test_escape_byte_string; the loop over all bytes *)
Definition is_punct (b : byte) : bool :=
  let r a z := N.leb a (bN b) && N.leb (bN b) z in r 33 47 || r 58 64 || r 91 96 || r 123 126.
Definition hex (n : N) : byte := byte_of (if N.ltb n 10 then 48 + n else 87 + n).
Definition escape_test (b : byte) : bool :=
  let got := escape_byte_string [b] in
  if is_alpha b || is_digit b then beqs got [b]
  else if beq b bSP || beq b "009"%byte || beq b bLF || beq b "012"%byte || beq b bCR then
    if beq b "009"%byte then beqs got (bs "\t")
    else if beq b bLF then beqs got (bs "\n") else true
  else if is_punct b then
    if beq b "\"%byte then beqs got (bs "\\")
    else if beq b """"%byte then beqs got (bs "\""") else beqs got [b]
  else beqs got (bs "\x" ++ [hex (bN b / 16); hex (bN b mod 16)]).
Example types_escape_byte : forallb (fun n => escape_test (byte_of (N.of_nat n))) (seq 0 256)%nat = true.
Proof. vm_compute. reflexivity. Qed.
Example types_escape_byte_string :
  escape_byte_string (bs "Hallo ""\" ++ ["000"%byte]) = bs "Hallo \""\\\x00".
Proof. reflexivity. Qed.

(** ** imap-types/src/mailbox.rs *)

(* mailbox.rs:295-319 test_conversion_mailbox, :321-329 test_conversion_mailbox_failing *)
Example types_mailbox : all (converts mailbox_from_bytes) [
  (bs "inbox", COk MInbox); (bs "inboX", COk MInbox); (bs "Inbox", COk MInbox);
  (bs "InboX", COk MInbox); (bs "INBOX", COk MInbox);
  (bs "INBO²", COk (MOther (AString (ILiteral (mkLit (bs "INBO" ++ ["194"%byte; "178"%byte]) Sync)))))].
Proof. replay. Qed.
Example types_mailbox_failing : all (fun s => refuses (mailbox_from_bytes s))
  [["000"%byte]; bs "A" ++ ["000"%byte]; ["000"%byte] ++ bs "A"].
Proof. replay. Qed.

(* mailbox.rs:331-370 test_deserialization_list_char_string, test_deserialization_mailbox_other *)
Example types_de_mailbox :
  de_list_char_string (TStr (bs "OneWord")) = Some (bs "OneWord") /\
  de_list_char_string (TStr (bs "Two Words")) = None /\
  validate_list_char_string (bs "Two Words") = CErr (VInvalidByteAt bSP 3%nat) /\
  de_mailbox_other (TMap [(bs "type", TStr (bs "Atom")); (bs "content", TStr (bs "other"))])
    = Some (AAtom (bs "other")) /\
  de_mailbox_other (TMap [(bs "type", TStr (bs "Atom")); (bs "content", TStr (bs "inbox"))]) = None.
Proof. replay. Qed.

(** ** imap-types/src/response.rs *)

(* response.rs:1316-1333 test_conversion_data, test_conversion_continue_failing *)
Example types_response :
  is_built (data_capability [CapImap4Rev1]) /\
  is_built (data_fetch 1 [MDRfc822Size 123]) /\
  continue_basic_new None [] = BadArg 0%nat VEmpty /\
  continue_basic_new (Some CdReadWrite) [] = BadArg 0%nat VEmpty.
Proof. replay. Qed.

(* response.rs:1335-1362 test_deserialization_command_continuation_request_basic *)
Example types_de_basic :
  @de_basic default_features (TMap [(bs "text", TStr (bs "Ready for additional command text"))])
    = Some (None, bs "Ready for additional command text") /\
  @de_basic default_features (TMap [(bs "text", TStr (bs "[Ready for additional command text"))])
    = None.
Proof. replay. Qed.

(** ** imap-types/src/auth.rs, flag.rs, extensions/compress.rs, extensions/enable.rs, secret.rs *)

(* auth.rs:234-243 test_conversion *)
Example types_auth : all (fun s => constructs (auth_mechanism_from_bytes s))
  [bs "plain"; bs "login"; bs "oauthbearer"; bs "xoauth2"; bs "xxxplain"; bs "xxxlogin"; bs "xxxxoauth2"].
Proof. replay. Qed.

(* compress.rs:98-119 test_conversion, :121-140 test_conversion_failing *)
Example types_compress :
  compression_from_bytes (bs "DEFLATE") = COk Deflate /\
  compression_try_from (bs "DEFLATE") = Some Deflate /\
  compression_str Deflate = bs "DEFLATE" /\
  all (fun s => refuses (compression_from_bytes s) /\ compression_try_from s = None)
    [bs ""; bs "D"; bs "DE"; bs "DEF"; bs "DEFL"; bs "DEFLA"; bs "DEFLAT"; bs "DEFLATX";
     bs "DEFLATEX"; bs "XDEFLATE"].
Proof. replay. Qed.

(* enable.rs:109-130 test_conversion_capability_enable *)
Example types_enable :
  @capability_enable_from all_features (bs "utf8=only") = CEUtf8 Utf8Only /\
  @capability_enable_from all_features (bs "utf8=accept") = CEUtf8 Utf8Accept /\
  @capability_enable_from_str all_features (bs "utf") = COk (CEOther (bs "utf")) /\
  @capability_enable_from_str all_features (bs "xxxxx") = COk (CEOther (bs "xxxxx")).
Proof. replay. Qed.

(** ** imap-types/src/command.rs *)

(* command.rs:1960-2122 test_conversion_command_body: every body is built and takes a tag *)
Definition tagged (b : built command_body) : Prop :=
  match b with Built b => is_built (command_new (bs "A0") b) | _ => False end.
Definition sup2 : bytes := ["194"%byte; "178"%byte].
Definition jul_2003 : date_time := mkDateTime (mkDate 2003 7 1) 10 52 37 7200.
Example types_command_body : all tagged [
  Built CCapability; Built CNoop; Built CLogout; Built CStartTls;
  Built (cb_authenticate AMPlain); Built (cb_authenticate AMLogin);
  Built (cb_authenticate_with_ir AMPlain (bs "XXXXXXXX"));
  Built (cb_authenticate_with_ir AMLogin (bs "YYYYYYYY"));
  cb_login (bs "alice") (bs "I_am_an_atom");
  cb_login (bs "alice") (bs "I am \ ""quoted""");
  cb_login (bs "alice") (bs "I am a literal" ++ sup2);
  cb_login (bs "alice") ["255"%byte; "255"%byte; "255"%byte];
  cb_select (bs "inbox"); cb_select (bs "atom"); cb_select (bs "C:\"); cb_select sup2;
  cb_select (bs "Trash");
  cb_examine (bs "inbox"); cb_examine (bs "atom"); cb_examine (bs "C:\"); cb_examine sup2;
  cb_examine (bs "Trash");
  cb_create (bs "inBoX"); cb_delete (bs "inBOX"); cb_rename (bs "iNBoS") (bs "INboX");
  cb_subscribe (bs "inbox"); cb_unsubscribe (bs "INBOX");
  cb_list (bs "iNbOx") (bs "test"); cb_list (bs "inbox") (bs "test");
  cb_lsub (bs "inbox") ["127"%byte]; cb_list (bs "inBoX") (bs "test");
  cb_lsub (bs "INBOX") ["127"%byte];
  cb_status (bs "inbox") [SNMessages];
  cb_append (bs "inbox") [] (Some jul_2003) ["255"%byte; "255"%byte; "255"%byte];
  cb_append (bs "inbox") [FKeyword (bs "test")] (Some jul_2003) ["255"%byte; "255"%byte; "255"%byte];
  Built CCheck; Built CClose; Built CExpunge;
  Built (cb_search None [KAnd [KAll; KNew; KUnseen]] false);
  Built (cb_search None [KAnd [KAll; KNew; KUnseen]] true);
  Built (cb_search None [KOr KDraft KAll] true);
  cb_fetch (bs "1") (MIItems [INBodyExt (Some (SecPart [1; 1])) None true]) false;
  cb_fetch (bs "1:*,2,3") (MIMacro MacroFull) true;
  cb_store (bs "1,2:*") STRemove SRAnswer [FSeen; FDraft] false;
  cb_store (bs "1:5") STAdd SRAnswer [FKeyword (bs "TEST")] true;
  cb_copy (bs "1") (bs "inbox") false; cb_copy (bs "1337") (bs "archive") true].
Proof. replay. Qed.

(* command.rs:2124-2332 test_command_body_name *)
Definition one : sequence_set := [SSingle (SValue 1)].
Example types_command_body_name : all (fun t => command_name (fst t) = snd t) [
  (CCapability, bs "CAPABILITY"); (CNoop, bs "NOOP"); (CLogout, bs "LOGOUT");
  (CStartTls, bs "STARTTLS"); (CAuthenticate AMPlain None, bs "AUTHENTICATE");
  (CLogin (AAtom (bs "user")) (AAtom (bs "pass")), bs "LOGIN");
  (CSelect MInbox [], bs "SELECT"); (CUnselect, bs "UNSELECT"); (CExamine MInbox [], bs "EXAMINE");
  (CCreate MInbox, bs "CREATE"); (CDelete MInbox, bs "DELETE");
  (CRename MInbox MInbox, bs "RENAME"); (CSubscribe MInbox, bs "SUBSCRIBE");
  (CUnsubscribe MInbox, bs "UNSUBSCRIBE");
  (CList MInbox (LMString (IQuoted [])), bs "LIST");
  (CLsub MInbox (LMString (IQuoted [])), bs "LSUB");
  (CStatus MInbox [], bs "STATUS");
  (CAppend MInbox [] None (LLiteral (mkLit [] Sync)), bs "APPEND");
  (CAppend MInbox [] None (LLiteral8 (mkLit8 (bs "Hello" ++ ["000"%byte] ++ bs "World" ++ ["000"%byte]) NonSync)), bs "APPEND");
  (CCheck, bs "CHECK"); (CClose, bs "CLOSE"); (CExpunge, bs "EXPUNGE");
  (CSearch None [KRecent] true, bs "SEARCH");
  (CFetch one (MIMacro MacroFull) true [], bs "FETCH");
  (CStore one STAdd SRSilent [] true [], bs "STORE");
  (CCopy one MInbox true, bs "COPY"); (CIdle, bs "IDLE");
  (CEnable [CEUtf8 Utf8Only], bs "ENABLE"); (CCompress Deflate, bs "COMPRESS");
  (CGetQuota (AAtom (bs "root")), bs "GETQUOTA"); (CGetQuotaRoot MInbox, bs "GETQUOTAROOT");
  (CSetQuota (AAtom (bs "root")) [], bs "SETQUOTA"); (CMove one MInbox true, bs "MOVE")].
Proof. replay. Qed.

(** ** imap-types/src/secret.rs *)

(* secret.rs:57-106 test_that_secret_is_redacted, without debug assertions; the [Debug] of a
   [str] without characters to be escaped *)
Fixpoint has (w s : bytes) : bool :=
  starts_with w s || match s with [] => false | _ :: s => has w s end.
Definition plain_str (s : bytes) : bytes := bs """" ++ s ++ bs """".
Definition redacted (d : dbg) : Prop :=
  all (fun alternate => has (bs "/* REDACTED */") (render alternate d) = true /\
    has (bs "xyz123") (render alternate d) = false /\
    has (bs "eHl6MTIz") (render alternate d) = false) [false; true].
Definition debug_of_command (c : command) : dbg :=
  command_debug false plain_str (fun _ => DUnit []) c.
Example types_redacted :
  match cb_login (bs "alice") (bs "xyz123") with
  | Built b => redacted (debug_of_command (mkCommand (bs "A") b))
  | _ => False
  end /\
  redacted (debug_of_command (mkCommand (bs "A") (cb_authenticate_with_ir AMPlain (bs "xyz123")))) /\
  redacted (authenticate_data_debug false (authenticate_continue (bs "xyz123"))).
Proof. replay. Qed.

(** ** imap-types/tests/api.rs, readme.rs *)

(* api.rs:53-71 test_constructions *)
Example types_constructions :
  constructs (tag_from_bytes (bs "tag")) /\ constructs (text_from_bytes (bs "text")) /\
  constructs (astring_from_bytes (bs "astring")) /\ constructs (atom_from_bytes (bs "atom")) /\
  constructs (atom_ext_from_bytes (bs "atomext")) /\ constructs (istring_from_bytes (bs "istring")) /\
  constructs (quoted_from_bytes (bs "quoted")) /\ constructs (literal_from_bytes (bs "literal")) /\
  constructs (nstring_from_bytes (bs "nstring")) /\ constructs (mailbox_from_bytes (bs "mailbox")) /\
  mailbox_other_from_bytes (bs "mailbox") = COk (Some (AAtom (bs "mailbox"))) /\
  constructs (charset_from_bytes (bs "charset")).
Proof. replay. Qed.

(* api.rs:73-117 test_construction_of_command *)
Example types_construction_of_command :
  command_new [] CNoop = BadArg 0%nat VEmpty /\
  command_new (bs "A ") CNoop = BadArg 0%nat (VInvalidByteAt bSP 1%nat) /\
  command_new ["255"%byte] CNoop = BadArg 0%nat (VInvalidByteAt "255"%byte 0%nat) /\
  atom_from_bytes [] = CErr VEmpty /\ refuses (atom_from_bytes sup2) /\
  atom_ext_from_bytes [] = CErr VEmpty /\ refuses (atom_ext_from_bytes sup2) /\
  cb_login ["000"%byte] [] = BadArg 0%nat (VInvalidByteAt "000"%byte 0%nat) /\
  cb_login [] ["000"%byte] = BadArg 1%nat (VInvalidByteAt "000"%byte 0%nat) /\
  ~ is_built (data_capability []).
Proof. vm_compute. repeat split. intros []. Qed.

(* api.rs:119-229 test_construction_of_sequence_etc *)
Example types_construction_of_sequence :
  is_some (seq_from_nz_range 1 u32_max) /\ is_some (seq_from_nz_range_to u32_max).
Proof. replay. Qed.
Open Scope Z_scope.
Definition constructible (tmin lo hi : Z) : Prop :=
  is_some (seq_or_uid_from_num lo) /\ is_some (seq_or_uid_from_num hi) /\
  is_some (seq_from_range_from lo) /\ is_some (seq_from_range tmin lo hi) /\
  is_some (seq_from_range_to tmin hi).
Definition fails_zero (tmin lo hi : Z) : Prop :=
  is_none (seq_or_uid_from_num lo) /\ is_none (seq_from_range_from lo) /\
  is_none (seq_from_range tmin lo hi).
Definition fails_max (tmin lo hi : Z) : Prop :=
  is_none (seq_or_uid_from_num hi) /\ is_none (seq_from_range tmin lo hi) /\
  is_none (seq_from_range_to tmin hi).
(** [i8], [i16], [i32], [i64] and [isize], then the unsigned types *)
Definition int_types : list (Z * Z) := [
  (-128, 127); (-32768, 32767); (-2147483648, 2147483647); (-9223372036854775808, 2147483647);
  (0, 255); (0, 65535); (0, 4294967295)].
Example types_sequence_ints :
  all (fun t => constructible (fst t) 1 (snd t) /\ fails_zero (fst t) 0 (snd t)) int_types /\
  fails_max (-9223372036854775808) 1 9223372036854775807 /\ fails_max 0 1 18446744073709551615.
Proof. replay. Qed.

(* readme.rs:7-38 test_readme, test_readme_failing *)
Example types_readme :
  tagged (cb_login (bs "alice") (bs "password")) /\
  tagged (cb_login (bs "alice""") ["202"%byte; "254"%byte]) /\
  ~ is_built (cb_login (bs "alice" ++ ["000"%byte]) (bs "password")).
Proof. vm_compute. repeat split. intros []. Qed.
