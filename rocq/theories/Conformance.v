(** The test vectors of the repository, replayed on the model.

    These are tests of the model, not theorems about it: they check on the inputs chosen by
    the authors of the code that the model computes what the code is tested to compute. The
    expected values are the ones of the tests; the constructors that the tests call
    ([CommandBody::login], [Status::ok], ...) are those of [Ctors.v]. *)

From Verif Require Import Bytes Features Nom Types Conv SeqSet Base64 Date EncodeCtx Encode EncodeApi.
From Verif Require Import ParseCore ParseBody ParseCmd ParseResp Decode Fragmentizer Ctors.

Definition crlf : bytes := [bCR; bLF].

(** [Result::unwrap] in a test: the test fails (here: the expected value is not a decoding
    result) when there is no value *)
Definition unb {A B E} (b : built A) (k : A -> outcome E B) : outcome E B :=
  match b with Built a => k a | _ => Panic end.
Definition unc {A B E} (c : conv A) (k : A -> outcome E B) : outcome E B :=
  match c with COk a => k a | _ => Panic end.

(** What [kat_inverse_*] asserts (imap-codec/src/testing.rs:57-85): decoding yields the
    expected remainder and value; encoding that value and decoding again yields the same
    value and no remainder. *)
Definition kat {E A} (dec : bytes -> outcome E A) (enc : A -> list fragment)
  (t : bytes * outcome E A) : Prop :=
  dec (fst t) = snd t /\
  match snd t with
  | Decoded _ a => dec (dump_fragments (enc a)) = Decoded [] a
  | _ => False
  end.
Fixpoint all {A} (P : A -> Prop) (l : list A) : Prop :=
  match l with [] => True | x :: l => P x /\ all P l end.
(** A decoding that a test expects to fail *)
Definition rejects {E A} (dec : bytes -> outcome E A) (t : bytes * E) : Prop :=
  dec (fst t) = Error (snd t).
(** What [test_lines_of_trace] asserts (imap-codec/tests/trace.rs:59-100) *)
Definition replays {E A} (dec : bytes -> outcome E A) (enc : A -> list fragment) (i : bytes) : Prop :=
  match dec i with
  | Decoded [] a => dec (dump_fragments (enc a)) = Decoded [] a
  | _ => False
  end.
(** [known_answer_test_encode] (imap-codec/src/testing.rs:17-40) *)
Definition encodes {A} (e : A -> list op) (t : A * bytes) : Prop := dump (e (fst t)) = snd t.
(** [known_answer_test_parse] (imap-codec/src/testing.rs:42-52) *)
Definition parses {A} (p : parser A) (t : bytes * bytes * A) : Prop :=
  p (fst (fst t)) = ROk (snd (fst t)) (snd t).
Definition is_ok {A} (p : parser A) (i : bytes) : Prop :=
  match p i with ROk _ _ => True | _ => False end.
Definition is_err {A} (p : parser A) (i : bytes) : Prop :=
  match p i with RErr | RFail _ | RInc => True | _ => False end.

Ltac replay := vm_compute; repeat split.

(** The tests run with the default features and, for the extensions, with all of them. *)
Definition kat_command (F : features) := kat decode_command encode_command.
Definition kat_response (F : features) := kat decode_response encode_response.
Definition kat_greeting (F : features) := kat decode_greeting encode_greeting.

(** ** imap-codec/src/codec.rs *)

(* codec.rs:74-94 *)
Example t001 : all (kat_greeting default_features) [
    ((bs "* OK ..." ++ crlf), unb (greeting_new GKOk None (bs "...")) (Decoded []));
    ((bs "* ByE ." ++ crlf ++ bs "???"), unb (greeting_new GKBye None (bs ".")) (Decoded (bs "???")));
    ((bs "* preaUth x" ++ crlf ++ bs "?"), unb (greeting_new GKPreAuth None (bs "x")) (Decoded (bs "?")))].
Proof. replay. Qed.

(* codec.rs:74-94 *)
Example t002 : all (kat_greeting all_features) [
    ((bs "* OK ..." ++ crlf), unb (greeting_new GKOk None (bs "...")) (Decoded []));
    ((bs "* ByE ." ++ crlf ++ bs "???"), unb (greeting_new GKBye None (bs ".")) (Decoded (bs "???")));
    ((bs "* preaUth x" ++ crlf ++ bs "?"), unb (greeting_new GKPreAuth None (bs "x")) (Decoded (bs "?")))].
Proof. replay. Qed.

(* codec.rs:96-135 *)
Example t003 : all (kat_command default_features) [
    ((bs "a nOOP" ++ crlf), unb (command_new (bs "a") (CNoop)) (Decoded (bs "")));
    ((bs "a NooP" ++ crlf ++ bs "???"), unb (command_new (bs "a") (CNoop)) (Decoded (bs "???")));
    ((bs "a SeLECT {5}" ++ crlf ++ bs "inbox" ++ crlf), unb (command_new (bs "a") (CSelect MInbox [])) (Decoded (bs "")));
    ((bs "a SElECT {5}" ++ crlf ++ bs "inbox" ++ crlf ++ bs "xxx"), unb (command_new (bs "a") (CSelect MInbox [])) (Decoded (bs "xxx")))].
Proof. replay. Qed.

(* codec.rs:96-135 *)
Example t004 : all (kat_command all_features) [
    ((bs "a nOOP" ++ crlf), unb (command_new (bs "a") (CNoop)) (Decoded (bs "")));
    ((bs "a NooP" ++ crlf ++ bs "???"), unb (command_new (bs "a") (CNoop)) (Decoded (bs "???")));
    ((bs "a SeLECT {5}" ++ crlf ++ bs "inbox" ++ crlf), unb (command_new (bs "a") (CSelect MInbox [])) (Decoded (bs "")));
    ((bs "a SElECT {5}" ++ crlf ++ bs "inbox" ++ crlf ++ bs "xxx"), unb (command_new (bs "a") (CSelect MInbox [])) (Decoded (bs "xxx")))].
Proof. replay. Qed.

(* codec.rs:137-170 *)
Example t005 : all (kat_response default_features) [
    ((bs "* SEARCH 1" ++ crlf), Decoded (bs "") (RData (DSearch [1%N] None)));
    ((bs "* SEARCH 1" ++ crlf ++ bs "???"), Decoded (bs "???") (RData (DSearch [1%N] None)));
    ((bs "* 1 FETCH (RFC822 {5}" ++ crlf ++ bs "hello)" ++ crlf), Decoded (bs "") (RData (DFetch 1 [MDRfc822 (Some (ILiteral (mkLit (bs "hello") Sync)))])))].
Proof. replay. Qed.

(* codec.rs:137-170 *)
Example t006 : all (kat_response all_features) [
    ((bs "* SEARCH 1" ++ crlf), Decoded (bs "") (RData (DSearch [1%N] None)));
    ((bs "* SEARCH 1" ++ crlf ++ bs "???"), Decoded (bs "???") (RData (DSearch [1%N] None)));
    ((bs "* 1 FETCH (RFC822 {5}" ++ crlf ++ bs "hello)" ++ crlf), Decoded (bs "") (RData (DFetch 1 [MDRfc822 (Some (ILiteral (mkLit (bs "hello") Sync)))])))].
Proof. replay. Qed.

(* codec.rs:172-193 *)
Example t007 : all (kat (decode_authenticate_data (F:=default_features)) encode_authenticate_data) [
    ((bs "VGVzdA==" ++ crlf), Decoded [] (authenticate_continue (bs "Test")));
    ((bs "AA==" ++ crlf), Decoded [] (authenticate_continue ["000"%byte]));
    ((bs "aQ==" ++ crlf), Decoded [] (authenticate_continue ["105"%byte]));
    ((bs "*" ++ crlf), Decoded [] ADCancel)].
Proof. replay. Qed.

(* codec.rs:195-201 *)
Example t008 : all (kat (decode_idle_done (F:=default_features)) encode_idle_done) [
    ((bs "done" ++ crlf), Decoded [] tt);
    ((bs "DONE" ++ crlf), Decoded [] tt)].
Proof. replay. Qed.

(* codec.rs:203-230, codec/decode.rs:443-455 *)
Example t009 : all (rejects (decode_greeting (F:=default_features))) [
    ((bs "*"), Incomplete);
    ((bs "* "), Incomplete);
    ((bs "* O"), Incomplete);
    ((bs "* OK"), Incomplete);
    ((bs "* OK "), Incomplete);
    ((bs "* OK ."), Incomplete);
    ((bs "* OK ." ++ ["013"%byte]), Incomplete);
    ((bs "**"), Failed);
    ((bs "* NO x" ++ crlf), Failed)].
Proof. replay. Qed.

(* codec.rs:232-283, codec/decode.rs:516-545 *)
Example t010 : all (rejects (decode_command (F:=default_features))) [
    ((bs "a"), CmdIncomplete);
    ((bs "a "), CmdIncomplete);
    ((bs "a n"), CmdIncomplete);
    ((bs "a no"), CmdIncomplete);
    ((bs "a noo"), CmdIncomplete);
    ((bs "a noop"), CmdIncomplete);
    ((bs "a noop" ++ ["013"%byte]), CmdIncomplete);
    ((bs "a select {5}" ++ crlf ++ bs "xxx"), CmdIncomplete);
    ((bs "a select {5}" ++ crlf), CmdLiteralFound (bs "a") 5 Sync);
    ((bs "a select {5+}" ++ crlf), CmdLiteralFound (bs "a") 5 NonSync);
    ((bs "* noop" ++ crlf), CmdFailed);
    ((bs "A  noop" ++ crlf), CmdFailed)].
Proof. replay. Qed.

(* codec.rs:285-332, codec/decode.rs:680-760 *)
Example t011 : all (rejects (decode_response (F:=default_features))) [
    ((bs ""), RspIncomplete);
    ((bs "*"), RspIncomplete);
    ((bs "* "), RspIncomplete);
    ((bs "* S"), RspIncomplete);
    ((bs "* SE"), RspIncomplete);
    ((bs "* SEA"), RspIncomplete);
    ((bs "* SEAR"), RspIncomplete);
    ((bs "* SEARC"), RspIncomplete);
    ((bs "* SEARCH"), RspIncomplete);
    ((bs "* SEARCH "), RspIncomplete);
    ((bs "* SEARCH 1"), RspIncomplete);
    ((bs "* SEARCH 1" ++ ["013"%byte]), RspIncomplete);
    ((bs "* 1 FETCH (RFC822 {5}" ++ crlf), RspLiteralFound 5);
    ((bs "*  search 1 2 3" ++ crlf), RspFailed);
    ((bs "A search" ++ crlf), RspFailed)].
Proof. replay. Qed.

(* codec/decode.rs:575-630 *)
Example t012 : all (rejects (decode_authenticate_data (F:=default_features))) [
    ((bs "V"), Incomplete);
    ((bs "VG"), Incomplete);
    ((bs "VGV"), Incomplete);
    ((bs "VGVz"), Incomplete);
    ((bs "VGVzd"), Incomplete);
    ((bs "VGVzdA"), Incomplete);
    ((bs "VGVzdA="), Incomplete);
    ((bs "VGVzdA=="), Incomplete);
    ((bs "VGVzdA==" ++ ["013"%byte]), Incomplete);
    ((bs "VGVzdA== " ++ crlf), Failed);
    ((bs " VGVzdA== " ++ crlf), Failed);
    ((bs " V GVzdA== " ++ crlf), Failed);
    ((bs " V GVzdA= " ++ crlf), Failed)].
Proof. replay. Qed.

(* codec/decode.rs:642-660, extensions/idle.rs:73-100 *)
Example t013 : all (rejects (decode_idle_done (F:=default_features))) [
    ((bs "d"), Incomplete);
    ((bs "do"), Incomplete);
    ((bs "don"), Incomplete);
    ((bs "done"), Incomplete);
    ((bs "done" ++ ["013"%byte]), Incomplete);
    ((bs "donee" ++ crlf), Failed);
    ((bs " done" ++ crlf), Failed);
    ((bs "done " ++ crlf), Failed);
    ((bs " done " ++ crlf), Failed)].
Proof. replay. Qed.

(* codec/decode.rs:712-724 *)
Example t014 : all (kat_response default_features) [
    ((bs "* SEARCH " ++ crlf), Decoded (bs "") (RData (DSearch [] None)))].
Proof. replay. Qed.

(* codec.rs:172-193 *)
Example t015 : all (kat (decode_authenticate_data (F:=all_features)) encode_authenticate_data) [
    ((bs "VGVzdA==" ++ crlf), Decoded [] (authenticate_continue (bs "Test")));
    ((bs "AA==" ++ crlf), Decoded [] (authenticate_continue ["000"%byte]));
    ((bs "aQ==" ++ crlf), Decoded [] (authenticate_continue ["105"%byte]));
    ((bs "*" ++ crlf), Decoded [] ADCancel)].
Proof. replay. Qed.

(* codec.rs:195-201 *)
Example t016 : all (kat (decode_idle_done (F:=all_features)) encode_idle_done) [
    ((bs "done" ++ crlf), Decoded [] tt);
    ((bs "DONE" ++ crlf), Decoded [] tt)].
Proof. replay. Qed.

(* codec.rs:203-230, codec/decode.rs:443-455 *)
Example t017 : all (rejects (decode_greeting (F:=all_features))) [
    ((bs "*"), Incomplete);
    ((bs "* "), Incomplete);
    ((bs "* O"), Incomplete);
    ((bs "* OK"), Incomplete);
    ((bs "* OK "), Incomplete);
    ((bs "* OK ."), Incomplete);
    ((bs "* OK ." ++ ["013"%byte]), Incomplete);
    ((bs "**"), Failed);
    ((bs "* NO x" ++ crlf), Failed)].
Proof. replay. Qed.

(* codec.rs:232-283, codec/decode.rs:516-545 *)
Example t018 : all (rejects (decode_command (F:=all_features))) [
    ((bs "a"), CmdIncomplete);
    ((bs "a "), CmdIncomplete);
    ((bs "a n"), CmdIncomplete);
    ((bs "a no"), CmdIncomplete);
    ((bs "a noo"), CmdIncomplete);
    ((bs "a noop"), CmdIncomplete);
    ((bs "a noop" ++ ["013"%byte]), CmdIncomplete);
    ((bs "a select {5}" ++ crlf ++ bs "xxx"), CmdIncomplete);
    ((bs "a select {5}" ++ crlf), CmdLiteralFound (bs "a") 5 Sync);
    ((bs "a select {5+}" ++ crlf), CmdLiteralFound (bs "a") 5 NonSync);
    ((bs "* noop" ++ crlf), CmdFailed);
    ((bs "A  noop" ++ crlf), CmdFailed)].
Proof. replay. Qed.

(* codec.rs:285-332, codec/decode.rs:680-760 *)
Example t019 : all (rejects (decode_response (F:=all_features))) [
    ((bs ""), RspIncomplete);
    ((bs "*"), RspIncomplete);
    ((bs "* "), RspIncomplete);
    ((bs "* S"), RspIncomplete);
    ((bs "* SE"), RspIncomplete);
    ((bs "* SEA"), RspIncomplete);
    ((bs "* SEAR"), RspIncomplete);
    ((bs "* SEARC"), RspIncomplete);
    ((bs "* SEARCH"), RspIncomplete);
    ((bs "* SEARCH "), RspIncomplete);
    ((bs "* SEARCH 1"), RspIncomplete);
    ((bs "* SEARCH 1" ++ ["013"%byte]), RspIncomplete);
    ((bs "* 1 FETCH (RFC822 {5}" ++ crlf), RspLiteralFound 5);
    ((bs "*  search 1 2 3" ++ crlf), RspFailed);
    ((bs "A search" ++ crlf), RspFailed)].
Proof. replay. Qed.

(* codec/decode.rs:575-630 *)
Example t020 : all (rejects (decode_authenticate_data (F:=all_features))) [
    ((bs "V"), Incomplete);
    ((bs "VG"), Incomplete);
    ((bs "VGV"), Incomplete);
    ((bs "VGVz"), Incomplete);
    ((bs "VGVzd"), Incomplete);
    ((bs "VGVzdA"), Incomplete);
    ((bs "VGVzdA="), Incomplete);
    ((bs "VGVzdA=="), Incomplete);
    ((bs "VGVzdA==" ++ ["013"%byte]), Incomplete);
    ((bs "VGVzdA== " ++ crlf), Failed);
    ((bs " VGVzdA== " ++ crlf), Failed);
    ((bs " V GVzdA== " ++ crlf), Failed);
    ((bs " V GVzdA= " ++ crlf), Failed)].
Proof. replay. Qed.

(* codec/decode.rs:642-660, extensions/idle.rs:73-100 *)
Example t021 : all (rejects (decode_idle_done (F:=all_features))) [
    ((bs "d"), Incomplete);
    ((bs "do"), Incomplete);
    ((bs "don"), Incomplete);
    ((bs "done"), Incomplete);
    ((bs "done" ++ ["013"%byte]), Incomplete);
    ((bs "donee" ++ crlf), Failed);
    ((bs " done" ++ crlf), Failed);
    ((bs "done " ++ crlf), Failed);
    ((bs " done " ++ crlf), Failed)].
Proof. replay. Qed.

(* codec/decode.rs:712-724 *)
Example t022 : all (kat_response all_features) [
    ((bs "* SEARCH " ++ crlf), Decoded (bs "") (RData (DSearch [] None)))].
Proof. replay. Qed.

(** ** imap-codec/src/codec/encode.rs: the fragments *)

(* codec/encode.rs:2186-2250, command.rs test_that_empty_ir_is_encoded_correctly *)
Example t023 : unb (cb_login (bs "alice") (bs "pass")) (fun b => unb (command_new (bs "A") b) (fun c => Decoded (E:=unit) [] (encode_command (F:=default_features) c))) = Decoded [] [FrLine (bs "A LOGIN alice pass" ++ crlf)] /\
  unb (cb_login (bs "alice") ["202"%byte; "254"%byte]) (fun b => unb (command_new (bs "A") b) (fun c => Decoded (E:=unit) [] (encode_command (F:=default_features) c))) = Decoded [] [FrLine (bs "A LOGIN alice {2}" ++ crlf); FrLiteral ["202"%byte; "254"%byte] Sync; FrLine crlf] /\
  unb (command_new (bs "A") (cb_authenticate AMLogin)) (fun c => Decoded (E:=unit) [] (encode_command (F:=default_features) c)) = Decoded [] [FrLine (bs "A AUTHENTICATE LOGIN" ++ crlf)] /\
  unb (command_new (bs "A") (cb_authenticate_with_ir AMLogin (bs "alice"))) (fun c => Decoded (E:=unit) [] (encode_command (F:=default_features) c)) = Decoded [] [FrLine (bs "A AUTHENTICATE LOGIN YWxpY2U=" ++ crlf)] /\
  unb (command_new (bs "A") (cb_authenticate AMPlain)) (fun c => Decoded (E:=unit) [] (encode_command (F:=default_features) c)) = Decoded [] [FrLine (bs "A AUTHENTICATE PLAIN" ++ crlf)] /\
  unb (command_new (bs "A") (cb_authenticate_with_ir AMPlain (["000"%byte] ++ bs "alice" ++ ["000"%byte] ++ bs "pass"))) (fun c => Decoded (E:=unit) [] (encode_command (F:=default_features) c)) = Decoded [] [FrLine (bs "A AUTHENTICATE PLAIN AGFsaWNlAHBhc3M=" ++ crlf)] /\
  unb (command_new (bs "A") (CAuthenticate AMPlain (Some []))) (fun c => Decoded (E:=unit) [] (encode_command (F:=default_features) c)) = Decoded [] [FrLine (bs "A AUTHENTICATE PLAIN =" ++ crlf)].
Proof. replay. Qed.

(* codec/encode.rs:2253-2300 *)
Example t024 : encode_response (F:=default_features) (RData (DFetch 12345 [MDBodyExt None None (Some (ILiteral (mkLit (bs "ABCDE") Sync)))])) = [FrLine (bs "* 12345 FETCH (BODY[] {5}" ++ crlf); FrLiteral (bs "ABCDE") Sync; FrLine (bs ")" ++ crlf)].
Proof. replay. Qed.

(* codec/encode.rs:2253-2300 *)
Example t025 : encode_response (F:=default_features) (RData (DFetch 12345 [MDBodyExt None None (Some (ILiteral (mkLit (bs "ABCDE") NonSync)))])) = [FrLine (bs "* 12345 FETCH (BODY[] {5+}" ++ crlf); FrLiteral (bs "ABCDE") NonSync; FrLine (bs ")" ++ crlf)].
Proof. replay. Qed.

(** ** imap-codec/src/extensions *)

(* extensions/compress.rs *)
Example t026 : all (kat_command default_features) [
    ((bs "A COMPRESS DEFLATE" ++ crlf), unb (command_new (bs "A") (cb_compress Deflate)) (Decoded (bs "")));
    ((bs "A COMPRESS DEFLATE" ++ crlf ++ bs "?"), unb (command_new (bs "A") (cb_compress Deflate)) (Decoded (bs "?")))].
Proof. replay. Qed.

(* extensions/compress.rs *)
Example t027 : all (kat_command all_features) [
    ((bs "A COMPRESS DEFLATE" ++ crlf), unb (command_new (bs "A") (cb_compress Deflate)) (Decoded (bs "")));
    ((bs "A COMPRESS DEFLATE" ++ crlf ++ bs "?"), unb (command_new (bs "A") (cb_compress Deflate)) (Decoded (bs "?")))].
Proof. replay. Qed.

(* extensions/idle.rs *)
Example t028 : all (kat_command default_features) [
    ((bs "A IDLE" ++ crlf), unb (command_new (bs "A") (CIdle)) (Decoded (bs "")));
    ((bs "A IDLE" ++ crlf ++ bs "?"), unb (command_new (bs "A") (CIdle)) (Decoded (bs "?")))].
Proof. replay. Qed.

(* extensions/idle.rs *)
Example t029 : all (kat_command all_features) [
    ((bs "A IDLE" ++ crlf), unb (command_new (bs "A") (CIdle)) (Decoded (bs "")));
    ((bs "A IDLE" ++ crlf ++ bs "?"), unb (command_new (bs "A") (CIdle)) (Decoded (bs "?")))].
Proof. replay. Qed.

(* extensions/id.rs *)
Example t030 : all (kat_command all_features) [
    ((bs "A ID nil" ++ crlf), unb (command_new (bs "A") (CId None)) (Decoded (bs "")));
    ((bs "A ID NIL" ++ crlf), unb (command_new (bs "A") (CId None)) (Decoded (bs "")));
    ((bs "A ID ("""" """")" ++ crlf), unb (command_new (bs "A") (CId (Some [(IQuoted (bs ""), Some (IQuoted (bs "")))]))) (Decoded (bs "")));
    ((bs "A ID (""name"" ""imap-codec"")" ++ crlf), unb (command_new (bs "A") (CId (Some [(IQuoted (bs "name"), Some (IQuoted (bs "imap-codec")))]))) (Decoded (bs "")));
    ((bs "A ID (""name"" ""imap-codec"" )" ++ crlf), unb (command_new (bs "A") (CId (Some [(IQuoted (bs "name"), Some (IQuoted (bs "imap-codec")))]))) (Decoded (bs "")))].
Proof. replay. Qed.

(* extensions/id.rs *)
Example t031 : all (kat_response all_features) [
    ((bs "* ID nil" ++ crlf), Decoded (bs "") (RData (DId None)))].
Proof. replay. Qed.

(* [quirk_id_empty_to_nil] is off in this test *)
Definition id_features : features := {|
  ext_condstore_qresync := true; ext_id := true; ext_metadata := true; ext_namespace := true;
  ext_utf8 := true; ext_login_referrals := true; ext_mailbox_referrals := true; starttls := true;
  quirk_crlf_relaxed := false; quirk_rectify_numbers := false; quirk_missing_text := false;
  quirk_id_empty_to_nil := false; quirk_trailing_space_capability := false;
  quirk_trailing_space_id := false; quirk_trailing_space_search := false;
  quirk_trailing_space_status := false; quirk_spaces_between_addresses := false;
  quirk_empty_continue_req := false; quirk_body_fld_enc_nil_to_empty := false;
  quirk_always_normalize_sequence_sets := false; quirk_excessive_space_quota_resource := false |}.

(* extensions/id.rs *)
Example t032 : all (kat_command id_features) [
    ((bs "A ID ()" ++ crlf), unb (command_new (bs "A") (CId (Some []))) (Decoded (bs "")))].
Proof. replay. Qed.

(* extensions/metadata.rs *)
Example t033 : all (kat_command all_features) [
    ((bs "A SETMETADATA """" (/test nil)" ++ crlf), unb (command_new (bs "A") (CSetMetadata (MOther (AString (IQuoted []))) [mkEntryValue (AAtom (bs "/test")) (N8NString None)])) (Decoded (bs "")));
    ((bs "A SETMETADATA """" (/test ""test"")" ++ crlf), unb (command_new (bs "A") (CSetMetadata (MOther (AString (IQuoted []))) [mkEntryValue (AAtom (bs "/test")) (N8NString (Some (IQuoted (bs "test"))))])) (Decoded (bs "")));
    ((bs "A SETMETADATA """" (/test ~{4+}" ++ crlf ++ bs "t" ++ ["000"%byte] ++ bs "st)" ++ crlf), unb (command_new (bs "A") (CSetMetadata (MOther (AString (IQuoted []))) [mkEntryValue (AAtom (bs "/test")) (N8Literal8 (mkLit8 (bs "t" ++ ["000"%byte] ++ bs "st") NonSync))])) (Decoded (bs "")));
    ((bs "A GETMETADATA """" /test" ++ crlf), unb (command_new (bs "A") (CGetMetadata [] (MOther (AString (IQuoted []))) [(AAtom (bs "/test"))])) (Decoded (bs "")));
    ((bs "A GETMETADATA INBOX /test" ++ crlf), unb (command_new (bs "A") (CGetMetadata [] MInbox [(AAtom (bs "/test"))])) (Decoded (bs "")));
    ((bs "A GETMETADATA (MAXSIZE 0) INBOX /test" ++ crlf), unb (command_new (bs "A") (CGetMetadata [GMMaxSize 0] MInbox [(AAtom (bs "/test"))])) (Decoded (bs "")));
    ((bs "A GETMETADATA (MAXSIZE 1337) INBOX /test" ++ crlf), unb (command_new (bs "A") (CGetMetadata [GMMaxSize 1337] MInbox [(AAtom (bs "/test"))])) (Decoded (bs "")));
    ((bs "A GETMETADATA (DEPTH 0) INBOX /test" ++ crlf), unb (command_new (bs "A") (CGetMetadata [GMDepth DepthNull] MInbox [(AAtom (bs "/test"))])) (Decoded (bs "")));
    ((bs "A GETMETADATA (DEPTH 1) INBOX /test" ++ crlf), unb (command_new (bs "A") (CGetMetadata [GMDepth DepthOne] MInbox [(AAtom (bs "/test"))])) (Decoded (bs "")));
    ((bs "A GETMETADATA (DEPTH infinity) INBOX /test" ++ crlf), unb (command_new (bs "A") (CGetMetadata [GMDepth DepthInfinity] MInbox [(AAtom (bs "/test"))])) (Decoded (bs "")))].
Proof. replay. Qed.

(* extensions/metadata.rs *)
Example t034 : all (kat_response all_features) [
    ((bs "* metadata INBOX /test /xxx" ++ crlf), Decoded (bs "") (RData (DMetadata MInbox (MRWithoutValues [(AAtom (bs "/test")); AAtom (bs "/xxx")]))));
    ((bs "* metadata INBOX (/test {4}" ++ crlf ++ bs "ABCD)" ++ crlf), Decoded (bs "") (RData (DMetadata MInbox (MRWithValues [mkEntryValue (AAtom (bs "/test")) (N8NString (Some (ILiteral (mkLit (bs "ABCD") Sync))))]))));
    ((bs "* OK [metadata longentries 0] ..." ++ crlf), unb (status_ok None (Some (CdMetadata (MCLongEntries 0))) (bs "...")) (fun s => Decoded (bs "") (RStatus s)));
    ((bs "* OK [metadata longentries 4294967295] ..." ++ crlf), unb (status_ok None (Some (CdMetadata (MCLongEntries u32_max))) (bs "...")) (fun s => Decoded (bs "") (RStatus s)));
    ((bs "* OK [metadatA maxSIZE 0] ..." ++ crlf), unb (status_ok None (Some (CdMetadata (MCMaxSize 0))) (bs "...")) (fun s => Decoded (bs "") (RStatus s)));
    ((bs "* OK [metadata maxSizE 4294967295] ..." ++ crlf), unb (status_ok None (Some (CdMetadata (MCMaxSize u32_max))) (bs "...")) (fun s => Decoded (bs "") (RStatus s)));
    ((bs "* OK [metadata toOmaNy] ..." ++ crlf), unb (status_ok None (Some (CdMetadata (MCTooMany))) (bs "...")) (fun s => Decoded (bs "") (RStatus s)));
    ((bs "* OK [mEtadata noPRIvaTE] ..." ++ crlf), unb (status_ok None (Some (CdMetadata (MCNoPrivate))) (bs "...")) (fun s => Decoded (bs "") (RStatus s)))].
Proof. replay. Qed.

(* extensions/enable.rs *)
Example t035 : all (kat_command all_features) [
    ((bs "A ENABLE UTF8=ONLY" ++ crlf), unb (cb_enable [CEUtf8 Utf8Only]) (fun b => unb (command_new (bs "A") b) (Decoded (bs ""))));
    ((bs "A ENABLE UTF8=ACCEPT" ++ crlf ++ bs "?"), unb (cb_enable [CEUtf8 Utf8Accept]) (fun b => unb (command_new (bs "A") b) (Decoded (bs "?"))));
    ((bs "A ENABLE FOO" ++ crlf ++ bs "??"), unb (cb_enable [CEOther (bs "FOO")]) (fun b => unb (command_new (bs "A") b) (Decoded (bs "??"))))].
Proof. replay. Qed.

(* extensions/move.rs *)
Example t036 : all (kat_command default_features) [
    ((bs "A MOVE 1 INBOX" ++ crlf), unb (cb_move (bs "1") (bs "inBox") false) (fun b => unb (command_new (bs "A") b) (Decoded (bs ""))));
    ((bs "A UID MOVE 1 INBOX" ++ crlf ++ bs "?"), unb (cb_move (bs "1") (bs "inBox") true) (fun b => unb (command_new (bs "A") b) (Decoded (bs "?"))));
    ((bs "A MOVE 1:* test" ++ crlf ++ bs "??"), unb (cb_move (bs "1:*") (bs "test") false) (fun b => unb (command_new (bs "A") b) (Decoded (bs "??"))))].
Proof. replay. Qed.

(* extensions/move.rs *)
Example t037 : all (kat_command all_features) [
    ((bs "A MOVE 1 INBOX" ++ crlf), unb (cb_move (bs "1") (bs "inBox") false) (fun b => unb (command_new (bs "A") b) (Decoded (bs ""))));
    ((bs "A UID MOVE 1 INBOX" ++ crlf ++ bs "?"), unb (cb_move (bs "1") (bs "inBox") true) (fun b => unb (command_new (bs "A") b) (Decoded (bs "?"))));
    ((bs "A MOVE 1:* test" ++ crlf ++ bs "??"), unb (cb_move (bs "1:*") (bs "test") false) (fun b => unb (command_new (bs "A") b) (Decoded (bs "??"))))].
Proof. replay. Qed.

(* extensions/unselect.rs *)
Example t038 : all (kat_command default_features) [
    ((bs "A UNSELECT" ++ crlf), unb (command_new (bs "A") (cb_unselect)) (Decoded (bs "")))].
Proof. replay. Qed.

(* extensions/unselect.rs *)
Example t039 : all (kat_command all_features) [
    ((bs "A UNSELECT" ++ crlf), unb (command_new (bs "A") (cb_unselect)) (Decoded (bs "")))].
Proof. replay. Qed.

(* extensions/quota.rs *)
Example t040 : all (kat_command default_features) [
    ((bs "A GETQUOTA INBOX" ++ crlf), unb (cb_get_quota (bs "INBOX")) (fun b => unb (command_new (bs "A") b) (Decoded (bs ""))));
    ((bs "A GETQUOTA """"" ++ crlf ++ bs "?"), unb (cb_get_quota []) (fun b => unb (command_new (bs "A") b) (Decoded (bs "?"))));
    ((bs "A003 GETQUOTA """"" ++ crlf), unb (cb_get_quota []) (fun b => unb (command_new (bs "A003") b) (Decoded (bs ""))));
    ((bs "G0001 GETQUOTA ""!partition/sda4""" ++ crlf), unb (command_new (bs "G0001") (CGetQuota (AString (IQuoted (bs "!partition/sda4"))))) (Decoded (bs "")));
    ((bs "S0000 GETQUOTA ""#user/alice""" ++ crlf), unb (command_new (bs "S0000") (CGetQuota (AString (IQuoted (bs "#user/alice"))))) (Decoded (bs "")));
    ((bs "A003 GETQUOTAROOT INBOX" ++ crlf), unb (command_new (bs "A003") (CGetQuotaRoot MInbox)) (Decoded (bs "")));
    ((bs "A GETQUOTAROOT MAILBOX" ++ crlf ++ bs "??"), unb (cb_get_quota_root (bs "MAILBOX")) (fun b => unb (command_new (bs "A") b) (Decoded (bs "??"))));
    ((bs "G0002 GETQUOTAROOT INBOX" ++ crlf), unb (cb_get_quota_root (bs "inbox")) (fun b => unb (command_new (bs "G0002") b) (Decoded (bs ""))));
    ((bs "A SETQUOTA INBOX ()" ++ crlf), unb (cb_set_quota (bs "INBOX") []) (fun b => unb (command_new (bs "A") b) (Decoded (bs ""))));
    ((bs "A SETQUOTA INBOX (STORAGE 256)" ++ crlf), unb (cb_set_quota (bs "INBOX") [mkQuotaSet RStorage 256]) (fun b => unb (command_new (bs "A") b) (Decoded (bs ""))));
    ((bs "A SETQUOTA INBOX (STORAGE 0 MESSAGE 512 MAILBOX 512 ANNOTATION-STORAGE 123 Foo 18446744073709551615)" ++ crlf), unb (cb_set_quota (bs "INBOX") [mkQuotaSet RStorage 0; mkQuotaSet RMessage 512; mkQuotaSet RMailbox 512; mkQuotaSet RAnnotationStorage 123; mkQuotaSet (ROther (bs "Foo")) u64_max]) (fun b => unb (command_new (bs "A") b) (Decoded (bs ""))));
    ((bs "S0001 SETQUOTA ""#user/alice"" (STORAGE 510)" ++ crlf), unb (command_new (bs "S0001") (CSetQuota (AString (IQuoted (bs "#user/alice"))) [mkQuotaSet RStorage 510])) (Decoded (bs "")));
    ((bs "S0002 SETQUOTA ""!partition/sda4"" (STORAGE 99999999)" ++ crlf), unb (command_new (bs "S0002") (CSetQuota (AString (IQuoted (bs "!partition/sda4"))) [mkQuotaSet RStorage 99999999])) (Decoded (bs "")));
    ((bs "A001 SETQUOTA """" (STORAGE 512)" ++ crlf), unb (cb_set_quota [] [mkQuotaSet RStorage 512]) (fun b => unb (command_new (bs "A001") b) (Decoded (bs ""))));
    ((bs "S0003 STATUS INBOX (MESSAGES DELETED DELETED-STORAGE)" ++ crlf), unb (cb_status (bs "inbox") [SNMessages; SNDeleted; SNDeletedStorage]) (fun b => unb (command_new (bs "S0003") b) (Decoded (bs ""))))].
Proof. replay. Qed.

(* extensions/quota.rs *)
Example t041 : all (kat_command all_features) [
    ((bs "A GETQUOTA INBOX" ++ crlf), unb (cb_get_quota (bs "INBOX")) (fun b => unb (command_new (bs "A") b) (Decoded (bs ""))));
    ((bs "A GETQUOTA """"" ++ crlf ++ bs "?"), unb (cb_get_quota []) (fun b => unb (command_new (bs "A") b) (Decoded (bs "?"))));
    ((bs "A003 GETQUOTA """"" ++ crlf), unb (cb_get_quota []) (fun b => unb (command_new (bs "A003") b) (Decoded (bs ""))));
    ((bs "G0001 GETQUOTA ""!partition/sda4""" ++ crlf), unb (command_new (bs "G0001") (CGetQuota (AString (IQuoted (bs "!partition/sda4"))))) (Decoded (bs "")));
    ((bs "S0000 GETQUOTA ""#user/alice""" ++ crlf), unb (command_new (bs "S0000") (CGetQuota (AString (IQuoted (bs "#user/alice"))))) (Decoded (bs "")));
    ((bs "A003 GETQUOTAROOT INBOX" ++ crlf), unb (command_new (bs "A003") (CGetQuotaRoot MInbox)) (Decoded (bs "")));
    ((bs "A GETQUOTAROOT MAILBOX" ++ crlf ++ bs "??"), unb (cb_get_quota_root (bs "MAILBOX")) (fun b => unb (command_new (bs "A") b) (Decoded (bs "??"))));
    ((bs "G0002 GETQUOTAROOT INBOX" ++ crlf), unb (cb_get_quota_root (bs "inbox")) (fun b => unb (command_new (bs "G0002") b) (Decoded (bs ""))));
    ((bs "A SETQUOTA INBOX ()" ++ crlf), unb (cb_set_quota (bs "INBOX") []) (fun b => unb (command_new (bs "A") b) (Decoded (bs ""))));
    ((bs "A SETQUOTA INBOX (STORAGE 256)" ++ crlf), unb (cb_set_quota (bs "INBOX") [mkQuotaSet RStorage 256]) (fun b => unb (command_new (bs "A") b) (Decoded (bs ""))));
    ((bs "A SETQUOTA INBOX (STORAGE 0 MESSAGE 512 MAILBOX 512 ANNOTATION-STORAGE 123 Foo 18446744073709551615)" ++ crlf), unb (cb_set_quota (bs "INBOX") [mkQuotaSet RStorage 0; mkQuotaSet RMessage 512; mkQuotaSet RMailbox 512; mkQuotaSet RAnnotationStorage 123; mkQuotaSet (ROther (bs "Foo")) u64_max]) (fun b => unb (command_new (bs "A") b) (Decoded (bs ""))));
    ((bs "S0001 SETQUOTA ""#user/alice"" (STORAGE 510)" ++ crlf), unb (command_new (bs "S0001") (CSetQuota (AString (IQuoted (bs "#user/alice"))) [mkQuotaSet RStorage 510])) (Decoded (bs "")));
    ((bs "S0002 SETQUOTA ""!partition/sda4"" (STORAGE 99999999)" ++ crlf), unb (command_new (bs "S0002") (CSetQuota (AString (IQuoted (bs "!partition/sda4"))) [mkQuotaSet RStorage 99999999])) (Decoded (bs "")));
    ((bs "A001 SETQUOTA """" (STORAGE 512)" ++ crlf), unb (cb_set_quota [] [mkQuotaSet RStorage 512]) (fun b => unb (command_new (bs "A001") b) (Decoded (bs ""))));
    ((bs "S0003 STATUS INBOX (MESSAGES DELETED DELETED-STORAGE)" ++ crlf), unb (cb_status (bs "inbox") [SNMessages; SNDeleted; SNDeletedStorage]) (fun b => unb (command_new (bs "S0003") b) (Decoded (bs ""))))].
Proof. replay. Qed.

(* extensions/quota.rs *)
Example t042 : all (kat_response default_features) [
    ((bs "* QUOTA INBOX (MESSAGE 1024 2048)" ++ crlf), unb (data_quota (bs "INBOX") [mkQuotaGet RMessage 1024 2048]) (fun d => Decoded (bs "") (RData d)));
    ((bs "* QUOTAROOT INBOX" ++ crlf), unb (data_quota_root (bs "INBOX") []) (fun d => Decoded (bs "") (RData d)));
    ((bs "* QUOTAROOT INBOX ROOT1 ROOT2" ++ crlf), unb (data_quota_root (bs "INBOX") [AAtom (bs "ROOT1"); AAtom (bs "ROOT2")]) (fun d => Decoded (bs "") (RData d)));
    ((bs "* CAPABILITY QUOTA QUOTA=RES-STORAGE" ++ crlf), unb (data_capability [CapQuota; CapQuotaRes RStorage]) (fun d => Decoded (bs "") (RData d)));
    ((bs "* CAPABILITY QUOTA QUOTA=RES-STORAGE QUOTA=RES-MESSAGE" ++ crlf), unb (data_capability [CapQuota; CapQuotaRes RStorage; CapQuotaRes RMessage]) (fun d => Decoded (bs "") (RData d)));
    ((bs "* CAPABILITY QUOTA QUOTASET QUOTA=RES-STORAGE QUOTA=RES-MESSAGE" ++ crlf), unb (data_capability [CapQuota; CapQuotaSet; CapQuotaRes RStorage; CapQuotaRes RMessage]) (fun d => Decoded (bs "") (RData d)));
    ((bs "* QUOTA ""!partition/sda4"" (STORAGE 104 10923847)" ++ crlf), Decoded (bs "") (RData (DQuota (AString (IQuoted (bs "!partition/sda4"))) [mkQuotaGet RStorage 104 10923847])));
    ((bs "* QUOTA """" (STORAGE 10 512)" ++ crlf), Decoded (bs "") (RData (DQuota (AString (IQuoted [])) [mkQuotaGet RStorage 10 512])));
    ((bs "* QUOTA ""#user/alice"" (MESSAGE 42 1000)" ++ crlf), Decoded (bs "") (RData (DQuota (AString (IQuoted (bs "#user/alice"))) [mkQuotaGet RMessage 42 1000])));
    ((bs "* QUOTA ""#user/alice"" (STORAGE 54 111 MESSAGE 42 1000)" ++ crlf), Decoded (bs "") (RData (DQuota (AString (IQuoted (bs "#user/alice"))) [mkQuotaGet RStorage 54 111; mkQuotaGet RMessage 42 1000])));
    ((bs "* QUOTA ""#user/alice"" (STORAGE 54 111 MESSAGE 42  1000)" ++ crlf), Decoded (bs "") (RData (DQuota (AString (IQuoted (bs "#user/alice"))) [mkQuotaGet RStorage 54 111; mkQuotaGet RMessage 42 1000])));
    ((bs "* QUOTA ""#user/alice"" (STORAGE 58 512)" ++ crlf), Decoded (bs "") (RData (DQuota (AString (IQuoted (bs "#user/alice"))) [mkQuotaGet RStorage 58 512])));
    ((bs "* QUOTAROOT INBOX """"" ++ crlf), Decoded (bs "") (RData (DQuotaRoot MInbox [AString (IQuoted [])])));
    ((bs "* QUOTAROOT comp.mail.mime" ++ crlf), unb (data_quota_root (bs "comp.mail.mime") []) (fun d => Decoded (bs "") (RData d)));
    ((bs "* QUOTAROOT INBOX ""#user/alice"" ""!partition/sda4""" ++ crlf), Decoded (bs "") (RData (DQuotaRoot MInbox [AString (IQuoted (bs "#user/alice")); AString (IQuoted (bs "!partition/sda4"))])));
    ((bs "* STATUS INBOX (MESSAGES 12 DELETED 4 DELETED-STORAGE 8)" ++ crlf), Decoded (bs "") (RData (DStatus MInbox [SIMessages 12; SIDeleted 4; SIDeletedStorage 8])));
    ((bs "* NO [OVERQUOTA] Soft quota has been exceeded" ++ crlf), unb (status_no None (Some CdOverQuota) (bs "Soft quota has been exceeded")) (fun s => Decoded (bs "") (RStatus s)));
    ((bs "A003 NO [OVERQUOTA] APPEND Failed" ++ crlf), unb (status_no (Some (bs "A003")) (Some CdOverQuota) (bs "APPEND Failed")) (fun s => Decoded (bs "") (RStatus s)))].
Proof. replay. Qed.

(* extensions/quota.rs *)
Example t043 : all (kat_response all_features) [
    ((bs "* QUOTA INBOX (MESSAGE 1024 2048)" ++ crlf), unb (data_quota (bs "INBOX") [mkQuotaGet RMessage 1024 2048]) (fun d => Decoded (bs "") (RData d)));
    ((bs "* QUOTAROOT INBOX" ++ crlf), unb (data_quota_root (bs "INBOX") []) (fun d => Decoded (bs "") (RData d)));
    ((bs "* QUOTAROOT INBOX ROOT1 ROOT2" ++ crlf), unb (data_quota_root (bs "INBOX") [AAtom (bs "ROOT1"); AAtom (bs "ROOT2")]) (fun d => Decoded (bs "") (RData d)));
    ((bs "* CAPABILITY QUOTA QUOTA=RES-STORAGE" ++ crlf), unb (data_capability [CapQuota; CapQuotaRes RStorage]) (fun d => Decoded (bs "") (RData d)));
    ((bs "* CAPABILITY QUOTA QUOTA=RES-STORAGE QUOTA=RES-MESSAGE" ++ crlf), unb (data_capability [CapQuota; CapQuotaRes RStorage; CapQuotaRes RMessage]) (fun d => Decoded (bs "") (RData d)));
    ((bs "* CAPABILITY QUOTA QUOTASET QUOTA=RES-STORAGE QUOTA=RES-MESSAGE" ++ crlf), unb (data_capability [CapQuota; CapQuotaSet; CapQuotaRes RStorage; CapQuotaRes RMessage]) (fun d => Decoded (bs "") (RData d)));
    ((bs "* QUOTA ""!partition/sda4"" (STORAGE 104 10923847)" ++ crlf), Decoded (bs "") (RData (DQuota (AString (IQuoted (bs "!partition/sda4"))) [mkQuotaGet RStorage 104 10923847])));
    ((bs "* QUOTA """" (STORAGE 10 512)" ++ crlf), Decoded (bs "") (RData (DQuota (AString (IQuoted [])) [mkQuotaGet RStorage 10 512])));
    ((bs "* QUOTA ""#user/alice"" (MESSAGE 42 1000)" ++ crlf), Decoded (bs "") (RData (DQuota (AString (IQuoted (bs "#user/alice"))) [mkQuotaGet RMessage 42 1000])));
    ((bs "* QUOTA ""#user/alice"" (STORAGE 54 111 MESSAGE 42 1000)" ++ crlf), Decoded (bs "") (RData (DQuota (AString (IQuoted (bs "#user/alice"))) [mkQuotaGet RStorage 54 111; mkQuotaGet RMessage 42 1000])));
    ((bs "* QUOTA ""#user/alice"" (STORAGE 54 111 MESSAGE 42  1000)" ++ crlf), Decoded (bs "") (RData (DQuota (AString (IQuoted (bs "#user/alice"))) [mkQuotaGet RStorage 54 111; mkQuotaGet RMessage 42 1000])));
    ((bs "* QUOTA ""#user/alice"" (STORAGE 58 512)" ++ crlf), Decoded (bs "") (RData (DQuota (AString (IQuoted (bs "#user/alice"))) [mkQuotaGet RStorage 58 512])));
    ((bs "* QUOTAROOT INBOX """"" ++ crlf), Decoded (bs "") (RData (DQuotaRoot MInbox [AString (IQuoted [])])));
    ((bs "* QUOTAROOT comp.mail.mime" ++ crlf), unb (data_quota_root (bs "comp.mail.mime") []) (fun d => Decoded (bs "") (RData d)));
    ((bs "* QUOTAROOT INBOX ""#user/alice"" ""!partition/sda4""" ++ crlf), Decoded (bs "") (RData (DQuotaRoot MInbox [AString (IQuoted (bs "#user/alice")); AString (IQuoted (bs "!partition/sda4"))])));
    ((bs "* STATUS INBOX (MESSAGES 12 DELETED 4 DELETED-STORAGE 8)" ++ crlf), Decoded (bs "") (RData (DStatus MInbox [SIMessages 12; SIDeleted 4; SIDeletedStorage 8])));
    ((bs "* NO [OVERQUOTA] Soft quota has been exceeded" ++ crlf), unb (status_no None (Some CdOverQuota) (bs "Soft quota has been exceeded")) (fun s => Decoded (bs "") (RStatus s)));
    ((bs "A003 NO [OVERQUOTA] APPEND Failed" ++ crlf), unb (status_no (Some (bs "A003")) (Some CdOverQuota) (bs "APPEND Failed")) (fun s => Decoded (bs "") (RStatus s)))].
Proof. replay. Qed.

(* extensions/quota.rs *)
Example t044 : all (parses (p_resource_name)) [
    ((bs "stOragE "), bs " ", RStorage);
    ((bs "mesSaGe "), bs " ", RMessage);
    ((bs "maIlbOx "), bs " ", RMailbox);
    ((bs "anNotatIon-stoRage "), bs " ", RAnnotationStorage);
    ((bs "anNotatIon-stoRageX "), bs " ", ROther (bs "anNotatIon-stoRageX"));
    ((bs "anNotatIon-stoRagee "), bs " ", ROther (bs "anNotatIon-stoRagee"))].
Proof. replay. Qed.

(* extensions/uidplus.rs *)
Example t045 : all (kat_command default_features) [
    ((bs "A UID EXPUNGE 1" ++ crlf ++ bs "?"), unb (command_new (bs "A") (CExpungeUid [SSingle (SValue 1)])) (Decoded (bs "?")));
    ((bs "A UID EXPUNGE *" ++ crlf ++ bs "?"), unb (command_new (bs "A") (CExpungeUid [SSingle SAsterisk])) (Decoded (bs "?")));
    ((bs "A UID EXPUNGE 1:1337" ++ crlf ++ bs "?"), unb (command_new (bs "A") (CExpungeUid [SRange (SValue 1) (SValue 1337)])) (Decoded (bs "?")))].
Proof. replay. Qed.

(* extensions/uidplus.rs *)
Example t046 : all (kat_command all_features) [
    ((bs "A UID EXPUNGE 1" ++ crlf ++ bs "?"), unb (command_new (bs "A") (CExpungeUid [SSingle (SValue 1)])) (Decoded (bs "?")));
    ((bs "A UID EXPUNGE *" ++ crlf ++ bs "?"), unb (command_new (bs "A") (CExpungeUid [SSingle SAsterisk])) (Decoded (bs "?")));
    ((bs "A UID EXPUNGE 1:1337" ++ crlf ++ bs "?"), unb (command_new (bs "A") (CExpungeUid [SRange (SValue 1) (SValue 1337)])) (Decoded (bs "?")))].
Proof. replay. Qed.

(* extensions/uidplus.rs *)
Example t047 : all (kat_response default_features) [
    ((bs "* OK [UIDNOTSTICKY] ..." ++ crlf ++ bs "???"), unb (status_ok None (Some (CdUidNotSticky)) (bs "...")) (fun s => Decoded (bs "???") (RStatus s)));
    ((bs "* OK [APPENDUID 12345 1337] ..." ++ crlf ++ bs "???"), unb (status_ok None (Some (CdAppendUid 12345 1337)) (bs "...")) (fun s => Decoded (bs "???") (RStatus s)));
    ((bs "* OK [COPYUID 12345 1001:1005 1:5] ..." ++ crlf ++ bs "???"), unb (status_ok None (Some (CdCopyUid 12345 [UERange 1001 1005] [UERange 1 5])) (bs "...")) (fun s => Decoded (bs "???") (RStatus s)))].
Proof. replay. Qed.

(* extensions/uidplus.rs *)
Example t048 : all (kat_response all_features) [
    ((bs "* OK [UIDNOTSTICKY] ..." ++ crlf ++ bs "???"), unb (status_ok None (Some (CdUidNotSticky)) (bs "...")) (fun s => Decoded (bs "???") (RStatus s)));
    ((bs "* OK [APPENDUID 12345 1337] ..." ++ crlf ++ bs "???"), unb (status_ok None (Some (CdAppendUid 12345 1337)) (bs "...")) (fun s => Decoded (bs "???") (RStatus s)));
    ((bs "* OK [COPYUID 12345 1001:1005 1:5] ..." ++ crlf ++ bs "???"), unb (status_ok None (Some (CdCopyUid 12345 [UERange 1001 1005] [UERange 1 5])) (bs "...")) (fun s => Decoded (bs "???") (RStatus s)))].
Proof. replay. Qed.

(* extensions/literal.rs, tests/trace.rs:1388-1405 *)
Example t049 : all (kat_command default_features) [
    ((bs "A LOGIN {0}" ++ crlf ++ bs " {1}" ++ crlf ++ bs "A" ++ crlf), unb (command_new (bs "A") (CLogin (AString (ILiteral (mkLit (bs "") Sync))) (AString (ILiteral (mkLit (bs "A") Sync))))) (Decoded (bs "")));
    ((bs "A LOGIN {1}" ++ crlf ++ bs "A {2}" ++ crlf ++ bs "AB" ++ crlf ++ bs "?"), unb (command_new (bs "A") (CLogin (AString (ILiteral (mkLit (bs "A") Sync))) (AString (ILiteral (mkLit (bs "AB") Sync))))) (Decoded (bs "?")));
    ((bs "A LOGIN {0+}" ++ crlf ++ bs " {1+}" ++ crlf ++ bs "A" ++ crlf ++ bs "??"), unb (command_new (bs "A") (CLogin (AString (ILiteral (mkLit (bs "") NonSync))) (AString (ILiteral (mkLit (bs "A") NonSync))))) (Decoded (bs "??")));
    ((bs "A LOGIN {1+}" ++ crlf ++ bs "A {2+}" ++ crlf ++ bs "AB" ++ crlf ++ bs "???"), unb (command_new (bs "A") (CLogin (AString (ILiteral (mkLit (bs "A") NonSync))) (AString (ILiteral (mkLit (bs "AB") NonSync))))) (Decoded (bs "???")));
    ((bs "A001 LOGIN {11+}" ++ crlf ++ bs "FRED FOOBAR {7+}" ++ crlf ++ bs "fat man" ++ crlf), unb (command_new (bs "A001") (CLogin (AString (ILiteral (mkLit (bs "FRED FOOBAR") NonSync))) (AString (ILiteral (mkLit (bs "fat man") NonSync))))) (Decoded (bs "")))].
Proof. replay. Qed.

(* extensions/literal.rs, tests/trace.rs:1388-1405 *)
Example t050 : all (kat_command all_features) [
    ((bs "A LOGIN {0}" ++ crlf ++ bs " {1}" ++ crlf ++ bs "A" ++ crlf), unb (command_new (bs "A") (CLogin (AString (ILiteral (mkLit (bs "") Sync))) (AString (ILiteral (mkLit (bs "A") Sync))))) (Decoded (bs "")));
    ((bs "A LOGIN {1}" ++ crlf ++ bs "A {2}" ++ crlf ++ bs "AB" ++ crlf ++ bs "?"), unb (command_new (bs "A") (CLogin (AString (ILiteral (mkLit (bs "A") Sync))) (AString (ILiteral (mkLit (bs "AB") Sync))))) (Decoded (bs "?")));
    ((bs "A LOGIN {0+}" ++ crlf ++ bs " {1+}" ++ crlf ++ bs "A" ++ crlf ++ bs "??"), unb (command_new (bs "A") (CLogin (AString (ILiteral (mkLit (bs "") NonSync))) (AString (ILiteral (mkLit (bs "A") NonSync))))) (Decoded (bs "??")));
    ((bs "A LOGIN {1+}" ++ crlf ++ bs "A {2+}" ++ crlf ++ bs "AB" ++ crlf ++ bs "???"), unb (command_new (bs "A") (CLogin (AString (ILiteral (mkLit (bs "A") NonSync))) (AString (ILiteral (mkLit (bs "AB") NonSync))))) (Decoded (bs "???")));
    ((bs "A001 LOGIN {11+}" ++ crlf ++ bs "FRED FOOBAR {7+}" ++ crlf ++ bs "fat man" ++ crlf), unb (command_new (bs "A001") (CLogin (AString (ILiteral (mkLit (bs "FRED FOOBAR") NonSync))) (AString (ILiteral (mkLit (bs "fat man") NonSync))))) (Decoded (bs "")))].
Proof. replay. Qed.

(* extensions/literal.rs, response.rs:820-855 *)
Example t051 : all (kat_greeting default_features) [
    ((bs "* OK [CAPABILITY LITERAL+] ..." ++ crlf), unb (greeting_new GKOk (Some (CdCapability [CapLiteralPlus])) (bs "...")) (Decoded (bs "")));
    ((bs "* OK [CAPABILITY LITERAL-] ..." ++ crlf ++ bs "?"), unb (greeting_new GKOk (Some (CdCapability [CapLiteralMinus])) (bs "...")) (Decoded (bs "?")));
    ((bs "* OK [badcharset] ..." ++ crlf), unb (greeting_new GKOk (Some (CdBadCharset [])) (bs "...")) (Decoded (bs "")));
    ((bs "* OK [UnSEEN 12345] ..." ++ crlf ++ bs "aaa"), unb (greeting_new GKOk (Some (CdUnseen 12345)) (bs "...")) (Decoded (bs "aaa")));
    ((bs "* OK [unseen 12345]  " ++ crlf ++ bs " "), unb (greeting_new GKOk (Some (CdUnseen 12345)) (bs " ")) (Decoded (bs " ")));
    ((bs "* PREAUTH [ALERT] hello" ++ crlf), unb (greeting_new GKPreAuth (Some (CdAlert)) (bs "hello")) (Decoded (bs "")))].
Proof. replay. Qed.

(* extensions/literal.rs, response.rs:820-855 *)
Example t052 : all (kat_greeting all_features) [
    ((bs "* OK [CAPABILITY LITERAL+] ..." ++ crlf), unb (greeting_new GKOk (Some (CdCapability [CapLiteralPlus])) (bs "...")) (Decoded (bs "")));
    ((bs "* OK [CAPABILITY LITERAL-] ..." ++ crlf ++ bs "?"), unb (greeting_new GKOk (Some (CdCapability [CapLiteralMinus])) (bs "...")) (Decoded (bs "?")));
    ((bs "* OK [badcharset] ..." ++ crlf), unb (greeting_new GKOk (Some (CdBadCharset [])) (bs "...")) (Decoded (bs "")));
    ((bs "* OK [UnSEEN 12345] ..." ++ crlf ++ bs "aaa"), unb (greeting_new GKOk (Some (CdUnseen 12345)) (bs "...")) (Decoded (bs "aaa")));
    ((bs "* OK [unseen 12345]  " ++ crlf ++ bs " "), unb (greeting_new GKOk (Some (CdUnseen 12345)) (bs " ")) (Decoded (bs " ")));
    ((bs "* PREAUTH [ALERT] hello" ++ crlf), unb (greeting_new GKPreAuth (Some (CdAlert)) (bs "hello")) (Decoded (bs "")))].
Proof. replay. Qed.

(* extensions/condstore_qresync.rs *)
Example t053 : all (is_ok (p_resp_text (F:=all_features))) [
    (bs "[MODIFIED 7,9] Conditional STORE failed" ++ crlf);
    (bs "[NOMODSEQ] Sorry, this mailbox format doesn't support modsequences" ++ crlf);
    (bs "[HIGHESTMODSEQ 715194045007] Highest" ++ crlf)].
Proof. replay. Qed.

(* extensions/thread.rs *)
Example t054 : all (encodes e_thread) [
    (TMembers [1%N] None, (bs "(1)"));
    (TMembers [1%N; 2%N] None, (bs "(1 2)"));
    (TNested [TMembers [1%N] None; TMembers [2%N] None], (bs "((1)(2))"));
    (TMembers [1%N] (Some [TMembers [2%N] None; TMembers [3%N] None]), (bs "(1 (2)(3))"));
    (TMembers [1%N] (Some [TMembers [2%N; 4%N] None; TMembers [3%N] None]), (bs "(1 (2 4)(3))"));
    (TMembers [1%N] (Some [TMembers [2%N; 4%N] (Some [TMembers [5%N] None; TMembers [6%N] None]); TMembers [3%N] None]), (bs "(1 (2 4 (5)(6))(3))"));
    (TMembers [1%N] (Some [TMembers [2%N] None; TMembers [3%N] None; TNested [TNested [TMembers [4%N] None; TMembers [5%N] None]; TMembers [6%N] None]]), (bs "(1 (2)(3)(((4)(5))(6)))"))].
Proof. replay. Qed.

(* extensions/thread.rs *)
Example t055 : all (parses (p_thread_list 8)) [
    ((bs "(1)"), [], TMembers [1%N] None);
    ((bs "(1 2)"), [], TMembers [1%N; 2%N] None);
    ((bs "((1)(2))"), [], TNested [TMembers [1%N] None; TMembers [2%N] None]);
    ((bs "(1 (2)(3))"), [], TMembers [1%N] (Some [TMembers [2%N] None; TMembers [3%N] None]));
    ((bs "(1 (2 4)(3))"), [], TMembers [1%N] (Some [TMembers [2%N; 4%N] None; TMembers [3%N] None]));
    ((bs "(1 (2 4 (5)(6))(3))"), [], TMembers [1%N] (Some [TMembers [2%N; 4%N] (Some [TMembers [5%N] None; TMembers [6%N] None]); TMembers [3%N] None]));
    ((bs "(1 (2)(3)(((4)(5))(6)))"), [], TMembers [1%N] (Some [TMembers [2%N] None; TMembers [3%N] None; TNested [TNested [TMembers [4%N] None; TMembers [5%N] None]; TMembers [6%N] None]]))].
Proof. replay. Qed.

(* extensions/namespace.rs *)
Example t056 : all (is_ok (p_namespace_response (F:=all_features))) [
    (bs "NAMESPACE ((""0"" ""\"""")) NIL NIL" ++ crlf);
    (bs "NAMESPACE ((""^^" ++ ["000"%byte] ++ bs """ """ ++ ["007"%byte] ++ bs """)) NIL NIL" ++ crlf)].
Proof. replay. Qed.

(** ** imap-codec/src/response.rs *)

(* response.rs:857-905 *)
Example t057 : all (kat_response default_features) [
    ((bs "* CAPABILITY IMAP4REV1" ++ crlf), Decoded (bs "") (RData (DCapability [CapImap4Rev1])));
    ((bs "* LIST (\Noselect) ""/"" bbb" ++ crlf), Decoded (bs "") (RData (DList [FNNoselect] (Some "/"%byte) (MOther (AAtom (bs "bbb"))))));
    ((bs "* SEARCH 1 2 3 42" ++ crlf), Decoded (bs "") (RData (DSearch [1; 2; 3; 42]%N None)));
    ((bs "* 42 EXISTS" ++ crlf), Decoded (bs "") (RData (DExists 42)));
    ((bs "* 12345 RECENT" ++ crlf), Decoded (bs "") (RData (DRecent 12345)));
    ((bs "* 123 EXPUNGE" ++ crlf), Decoded (bs "") (RData (DExpunge 123)))].
Proof. replay. Qed.

(* response.rs:857-905 *)
Example t058 : all (kat_response all_features) [
    ((bs "* CAPABILITY IMAP4REV1" ++ crlf), Decoded (bs "") (RData (DCapability [CapImap4Rev1])));
    ((bs "* LIST (\Noselect) ""/"" bbb" ++ crlf), Decoded (bs "") (RData (DList [FNNoselect] (Some "/"%byte) (MOther (AAtom (bs "bbb"))))));
    ((bs "* SEARCH 1 2 3 42" ++ crlf), Decoded (bs "") (RData (DSearch [1; 2; 3; 42]%N None)));
    ((bs "* 42 EXISTS" ++ crlf), Decoded (bs "") (RData (DExists 42)));
    ((bs "* 12345 RECENT" ++ crlf), Decoded (bs "") (RData (DRecent 12345)));
    ((bs "* 123 EXPUNGE" ++ crlf), Decoded (bs "") (RData (DExpunge 123)))].
Proof. replay. Qed.

(* response.rs:907-937 *)
Example t059 : all (kat_response all_features) [
    ((bs "* VANISHED 1" ++ crlf), Decoded (bs "") (RData (DVanished false [SSingle (SValue 1)])));
    ((bs "* VANISHED 1:5,7" ++ crlf), Decoded (bs "") (RData (DVanished false [SRange (SValue 1) (SValue 5); SSingle (SValue 7)])));
    ((bs "* VANISHED (EARLIER) 1:5,7,9:11" ++ crlf), Decoded (bs "") (RData (DVanished true [SRange (SValue 1) (SValue 5); SSingle (SValue 7); SRange (SValue 9) (SValue 11)])))].
Proof. replay. Qed.

(* response.rs:939-945 *)
Example t060 : all (is_err (p_response_data (F:=all_features))) [
    (bs "* 5 VANISHED 1:3" ++ crlf);
    (bs "* 5 VANISHED (EARLIER) 1:3" ++ crlf)].
Proof. replay. Qed.

(* response.rs:947-1045 *)
Example t061 : all (kat_response default_features) [
    ((bs "A1 OK [ALERT] hello" ++ crlf), unb (status_ok (Some (bs "A1")) (Some CdAlert) (bs "hello")) (fun s => Decoded (bs "") (RStatus s)));
    ((bs "A1 NO [ALERT] hello" ++ crlf), unb (status_no (Some (bs "A1")) (Some CdAlert) (bs "hello")) (fun s => Decoded (bs "") (RStatus s)));
    ((bs "A1 BAD [ALERT] hello" ++ crlf), unb (status_bad (Some (bs "A1")) (Some CdAlert) (bs "hello")) (fun s => Decoded (bs "") (RStatus s)));
    ((bs "A1 OK hello" ++ crlf), unb (status_ok (Some (bs "A1")) None (bs "hello")) (fun s => Decoded (bs "") (RStatus s)));
    ((bs "A1 NO hello" ++ crlf), unb (status_no (Some (bs "A1")) None (bs "hello")) (fun s => Decoded (bs "") (RStatus s)));
    ((bs "A1 BAD hello" ++ crlf), unb (status_bad (Some (bs "A1")) None (bs "hello")) (fun s => Decoded (bs "") (RStatus s)));
    ((bs "* OK [ALERT] hello" ++ crlf), unb (status_ok None (Some CdAlert) (bs "hello")) (fun s => Decoded (bs "") (RStatus s)));
    ((bs "* NO [ALERT] hello" ++ crlf), unb (status_no None (Some CdAlert) (bs "hello")) (fun s => Decoded (bs "") (RStatus s)));
    ((bs "* BAD [ALERT] hello" ++ crlf), unb (status_bad None (Some CdAlert) (bs "hello")) (fun s => Decoded (bs "") (RStatus s)));
    ((bs "* OK hello" ++ crlf), unb (status_ok None None (bs "hello")) (fun s => Decoded (bs "") (RStatus s)));
    ((bs "* NO hello" ++ crlf), unb (status_no None None (bs "hello")) (fun s => Decoded (bs "") (RStatus s)));
    ((bs "* BAD hello" ++ crlf), unb (status_bad None None (bs "hello")) (fun s => Decoded (bs "") (RStatus s)));
    ((bs "* BYE [ALERT] hello" ++ crlf), unb (status_bye (Some CdAlert) (bs "hello")) (fun s => Decoded (bs "") (RStatus s)))].
Proof. replay. Qed.

(* response.rs:947-1045 *)
Example t062 : all (kat_response all_features) [
    ((bs "A1 OK [ALERT] hello" ++ crlf), unb (status_ok (Some (bs "A1")) (Some CdAlert) (bs "hello")) (fun s => Decoded (bs "") (RStatus s)));
    ((bs "A1 NO [ALERT] hello" ++ crlf), unb (status_no (Some (bs "A1")) (Some CdAlert) (bs "hello")) (fun s => Decoded (bs "") (RStatus s)));
    ((bs "A1 BAD [ALERT] hello" ++ crlf), unb (status_bad (Some (bs "A1")) (Some CdAlert) (bs "hello")) (fun s => Decoded (bs "") (RStatus s)));
    ((bs "A1 OK hello" ++ crlf), unb (status_ok (Some (bs "A1")) None (bs "hello")) (fun s => Decoded (bs "") (RStatus s)));
    ((bs "A1 NO hello" ++ crlf), unb (status_no (Some (bs "A1")) None (bs "hello")) (fun s => Decoded (bs "") (RStatus s)));
    ((bs "A1 BAD hello" ++ crlf), unb (status_bad (Some (bs "A1")) None (bs "hello")) (fun s => Decoded (bs "") (RStatus s)));
    ((bs "* OK [ALERT] hello" ++ crlf), unb (status_ok None (Some CdAlert) (bs "hello")) (fun s => Decoded (bs "") (RStatus s)));
    ((bs "* NO [ALERT] hello" ++ crlf), unb (status_no None (Some CdAlert) (bs "hello")) (fun s => Decoded (bs "") (RStatus s)));
    ((bs "* BAD [ALERT] hello" ++ crlf), unb (status_bad None (Some CdAlert) (bs "hello")) (fun s => Decoded (bs "") (RStatus s)));
    ((bs "* OK hello" ++ crlf), unb (status_ok None None (bs "hello")) (fun s => Decoded (bs "") (RStatus s)));
    ((bs "* NO hello" ++ crlf), unb (status_no None None (bs "hello")) (fun s => Decoded (bs "") (RStatus s)));
    ((bs "* BAD hello" ++ crlf), unb (status_bad None None (bs "hello")) (fun s => Decoded (bs "") (RStatus s)));
    ((bs "* BYE [ALERT] hello" ++ crlf), unb (status_bye (Some CdAlert) (bs "hello")) (fun s => Decoded (bs "") (RStatus s)))].
Proof. replay. Qed.

(* response.rs:1070-1150 *)
Example t063 : all (encodes e_body) [
    (BSSingle (mkBasic [] None (Some (IQuoted (bs "description"))) (IQuoted (bs "cte")) 123) (SFBasic (IQuoted (bs "application")) (IQuoted (bs "voodoo"))) None, (bs "(""application"" ""voodoo"" NIL NIL ""description"" ""cte"" 123)"));
    (BSSingle (mkBasic [] None (Some (IQuoted (bs "description"))) (IQuoted (bs "cte")) 123) (SFText (IQuoted (bs "plain")) 14) None, (bs "(""TEXT"" ""plain"" NIL NIL ""description"" ""cte"" 123 14)"));
    (BSSingle (mkBasic [] None (Some (IQuoted (bs "description"))) (IQuoted (bs "cte")) 123) (SFText (IQuoted (bs "plain")) 14) (Some (mkSingleExt (Some (IQuoted (bs "AABB"))) (Some (mkDisposition None (Some (mkLanguage [] (Some (mkLocation None [BEList [BENumber 1337]])))))))), (bs "(""TEXT"" ""plain"" NIL NIL ""description"" ""cte"" 123 14 ""AABB"" NIL NIL NIL (1337))"))].
Proof. replay. Qed.

(* response.rs:1165-1180 *)
Example t064 : all (is_err (p_resp_text (F:=id_features))) [
    (bs "[IMAP4rev1]" ++ crlf);
    (bs "[IMAP4rev1] " ++ crlf)] /\ is_ok (p_resp_text (F:=id_features)) (bs "[IMAP4rev1]  " ++ crlf).
Proof. replay. Qed.

(* response.rs:1165-1180 *)
Example t065 : all (is_ok (p_resp_text (F:=default_features))) [
    (bs "[IMAP4rev1]" ++ crlf);
    (bs "[IMAP4rev1]  " ++ crlf)] /\ is_err (p_resp_text (F:=default_features)) (bs "[IMAP4rev1] " ++ crlf).
Proof. replay. Qed.

(* response.rs:1182-1192 *)
Example t066 : all (is_ok (p_response_data (F:=default_features))) [(bs "* STATUS INBOX (MESSAGES 100 UNSEEN 0)" ++ crlf); (bs "* STATUS INBOX (MESSAGES 100 UNSEEN 0) " ++ crlf)] /\
  is_err (p_response_data (F:=default_features)) (bs "* STATUS INBOX (MESSAGES 100 UNSEEN 0)  " ++ crlf) /\ is_ok (p_response_data (F:=id_features)) (bs "* STATUS INBOX (MESSAGES 100 UNSEEN 0)" ++ crlf) /\
  all (is_err (p_response_data (F:=id_features))) [(bs "* STATUS INBOX (MESSAGES 100 UNSEEN 0)  " ++ crlf); (bs "* STATUS INBOX (MESSAGES 100 UNSEEN 0) " ++ crlf)].
Proof. replay. Qed.

(* response.rs:1194-1204 *)
Example t067 : all (is_ok (p_response_data (F:=default_features))) [(bs "* CAPABILITY IMAP4REV1" ++ crlf); (bs "* CAPABILITY IMAP4REV1 " ++ crlf)] /\
  is_err (p_response_data (F:=default_features)) (bs "* CAPABILITY IMAP4REV1  " ++ crlf) /\ is_ok (p_response_data (F:=id_features)) (bs "* CAPABILITY IMAP4REV1" ++ crlf) /\
  all (is_err (p_response_data (F:=id_features))) [(bs "* CAPABILITY IMAP4REV1  " ++ crlf); (bs "* CAPABILITY IMAP4REV1 " ++ crlf)].
Proof. replay. Qed.

(** ** imap-codec/src/auth.rs, body.rs, command.rs, core.rs, datetime.rs, envelope.rs *)

(* auth.rs:55-69 *)
Example t068 : map auth_mechanism_str [AMPlain; AMLogin; AMOAuthBearer; AMOther (bs "PLAINX"); AMOther (bs "LOGINX"); AMOther (bs "XOAUTH2X")] =
  [bs "PLAIN"; bs "LOGIN"; bs "OAUTHBEARER"; bs "PLAINX"; bs "LOGINX"; bs "XOAUTH2X"].
Proof. replay. Qed.

(* auth.rs:71-100 *)
Example t069 : all (parses p_auth_type) [
    (bs "plain ", bs " ", AMPlain);
    (bs "pLaiN ", bs " ", AMPlain);
    (bs "lOgiN ", bs " ", AMLogin);
    (bs "login ", bs " ", AMLogin);
    (bs "loginX ", bs " ", AMOther (bs "loginX"));
    (bs "Xplain ", bs " ", AMOther (bs "Xplain"));
    (bs "oauthbearer ", bs " ", AMOAuthBearer);
    (bs "oAuThbearEr ", bs " ", AMOAuthBearer);
    (bs "xoauth2 ", bs " ", AMXOAuth2);
    (bs "xOauTh2 ", bs " ", AMXOAuth2)].
Proof. replay. Qed.

Definition ok_rest {A} (p : parser A) (r i : bytes) : Prop := match p i with ROk r' _ => r' = r | _ => False end.

(* body.rs:620-648 *)
Example t070 : all (ok_rest (p_body_ext_1part (F:=default_features)) (bs "|xxx")) [
    (bs "nil|xxx");
    (bs """md5""|xxx");
    (bs """md5"" nil|xxx");
    (bs """md5"" (""dsp"" nil)|xxx");
    (bs """md5"" (""dsp"" (""key"" ""value"")) nil|xxx");
    (bs """md5"" (""dsp"" (""key"" ""value"")) ""swedish""|xxx");
    (bs """md5"" (""dsp"" (""key"" ""value"")) (""german"" ""russian"")|xxx");
    (bs """md5"" (""dsp"" (""key"" ""value"")) (""german"" ""russian"") nil|xxx");
    (bs """md5"" (""dsp"" (""key"" ""value"")) (""german"" ""russian"") ""loc""|xxx");
    (bs """md5"" (""dsp"" (""key"" ""value"")) (""german"" ""russian"") ""loc"" (1 ""2"" (nil 4))|xxx");
    (bs """AABB"" NIL NIL NIL 1337|xxx");
    (bs """AABB"" NIL NIL NIL (1337)|xxx");
    (bs """AABB"" NIL NIL NIL (1337 1337)|xxx");
    (bs """AABB"" NIL NIL NIL (1337 (1337 (1337 ""FOO"" {0}" ++ crlf ++ bs ")))|xxx")].
Proof. replay. Qed.

(* body.rs:655-676 *)
Example t071 : all (ok_rest (p_body_ext_mpart (F:=default_features)) (bs "|xxx")) [
    (bs "nil|xxx");
    (bs "(""key"" ""value"")|xxx");
    (bs "(""key"" ""value"") nil|xxx");
    (bs "(""key"" ""value"") (""dsp"" nil)|xxx");
    (bs "(""key"" ""value"") (""dsp"" (""key"" ""value"")) nil|xxx");
    (bs "(""key"" ""value"") (""dsp"" (""key"" ""value"")) ""swedish""|xxx");
    (bs "(""key"" ""value"") (""dsp"" (""key"" ""value"")) (""german"" ""russian"")|xxx");
    (bs "(""key"" ""value"") (""dsp"" (""key"" ""value"")) (""german"" ""russian"") nil|xxx");
    (bs "(""key"" ""value"") (""dsp"" (""key"" ""value"")) (""german"" ""russian"") ""loc""|xxx");
    (bs "(""key"" ""value"") (""dsp"" (""key"" ""value"")) (""german"" ""russian"") ""loc"" (1 ""2"" (nil 4))|xxx");
    (bs "(""key"" ""value"") (""dsp"" (""key"" ""value"")) (""german"" ""russian"") ""loc"" (1 ""2"" (nil 4) {0}" ++ crlf ++ bs ")|xxx");
    (bs "(""key"" ""value"") (""dsp"" (""key"" ""value"")) (""german"" ""russian"") ""loc"" {0}" ++ crlf ++ bs " {0}" ++ crlf ++ bs "|xxx")].
Proof. replay. Qed.

(* body.rs:678-681 *)
Example t072 : ok_rest (p_body (F:=default_features) 9) (bs "|xxx") (bs "((((((({0}" ++ crlf ++ bs " {0}" ++ crlf ++ bs " NIL NIL NIL {0}" ++ crlf ++ bs " 0 ""FOO"" NIL NIL ""LOCATION"" 1337) ""mixed"") ""mixed"") ""mixed"") ""mixed"") ""mixed"") ""mixed"")|xxx").
Proof. replay. Qed.

(* body.rs:683-755 *)
Example t073 : all (kat_response default_features) [
    ((bs "* 3372220415 FETCH (BODYSTRUCTURE ((((((({0}" ++ crlf ++ bs " {0}" ++ crlf ++ bs " NIL NIL NIL {0}" ++ crlf ++ bs " 0 ""FOO"" NIL NIL ""LOCATION"" 1337) ""mixed"") ""mixed"") ""mixed"") ""mixed"") ""mixed"") ""mixed""))" ++ crlf), Decoded (bs "") (RData (DFetch 3372220415 [MDBodyStructure (BSMulti [(BSMulti [(BSMulti [(BSMulti [(BSMulti [(BSMulti [(BSSingle (mkBasic [] None None (ILiteral (mkLit (bs "") Sync)) 0) (SFBasic (ILiteral (mkLit (bs "") Sync)) (ILiteral (mkLit (bs "") Sync))) (Some (mkSingleExt (Some (IQuoted (bs "FOO"))) (Some (mkDisposition None (Some (mkLanguage [] (Some (mkLocation (Some (IQuoted (bs "LOCATION"))) [BENumber 1337])))))))))] (IQuoted (bs "mixed")) None)] (IQuoted (bs "mixed")) None)] (IQuoted (bs "mixed")) None)] (IQuoted (bs "mixed")) None)] (IQuoted (bs "mixed")) None)] (IQuoted (bs "mixed")) None)])))].
Proof. replay. Qed.

(* body.rs:683-755 *)
Example t074 : all (kat_response all_features) [
    ((bs "* 3372220415 FETCH (BODYSTRUCTURE ((((((({0}" ++ crlf ++ bs " {0}" ++ crlf ++ bs " NIL NIL NIL {0}" ++ crlf ++ bs " 0 ""FOO"" NIL NIL ""LOCATION"" 1337) ""mixed"") ""mixed"") ""mixed"") ""mixed"") ""mixed"") ""mixed""))" ++ crlf), Decoded (bs "") (RData (DFetch 3372220415 [MDBodyStructure (BSMulti [(BSMulti [(BSMulti [(BSMulti [(BSMulti [(BSMulti [(BSSingle (mkBasic [] None None (ILiteral (mkLit (bs "") Sync)) 0) (SFBasic (ILiteral (mkLit (bs "") Sync)) (ILiteral (mkLit (bs "") Sync))) (Some (mkSingleExt (Some (IQuoted (bs "FOO"))) (Some (mkDisposition None (Some (mkLanguage [] (Some (mkLocation (Some (IQuoted (bs "LOCATION"))) [BENumber 1337])))))))))] (IQuoted (bs "mixed")) None)] (IQuoted (bs "mixed")) None)] (IQuoted (bs "mixed")) None)] (IQuoted (bs "mixed")) None)] (IQuoted (bs "mixed")) None)] (IQuoted (bs "mixed")) None)])))].
Proof. replay. Qed.

(* body.rs:757-780 *)
Example t075 : all (encodes e_single_ext) [(mkSingleExt None (Some (mkDisposition None (Some (mkLanguage [] (Some (mkLocation (Some (IQuoted [])) [])))))), (bs "NIL NIL NIL """""))].
Proof. replay. Qed.

(* body.rs:782-805 *)
Example t076 : all (parses (p_body_fld_octets (F:=default_features))) [
    (bs "0)", bs ")", 0%N);
    (bs "1)", bs ")", 1%N);
    (bs "-0)", bs ")", 0%N);
    (bs "-1)", bs ")", 0%N);
    (bs "-999999)", bs ")", 0%N)] /\
  all (parses (p_body_fld_octets (F:=id_features))) [(bs "0)", bs ")", 0%N); (bs "1)", bs ")", 1%N)] /\
  all (is_err (p_body_fld_octets (F:=id_features))) [bs "-0)"; bs "-1)"; bs "-999999)"].
Proof. replay. Qed.

(* command.rs test_parse_fetch_att *)
Example t077 : all (parses (p_fetch_att (F:=default_features))) [
    (bs "ENVELOPE???", bs "???", INEnvelope);
    (bs "FLAGS???", bs "???", INFlags);
    (bs "INTERNALDATE???", bs "???", INInternalDate);
    (bs "RFC822???", bs "???", INRfc822);
    (bs "RFC822.HEADER???", bs "???", INRfc822Header);
    (bs "RFC822.SIZE???", bs "???", INRfc822Size);
    (bs "RFC822.TEXT???", bs "???", INRfc822Text);
    (bs "BODY???", bs "???", INBody);
    (bs "BODYSTRUCTURE???", bs "???", INBodyStructure);
    (bs "UID???", bs "???", INUid);
    (bs "BODY[]???", bs "???", INBodyExt None None false);
    (bs "BODY.PEEK[]???", bs "???", INBodyExt None None true);
    (bs "BODY.PEEK[TEXT]???", bs "???", INBodyExt (Some (SecText None)) None true);
    (bs "BODY.PEEK[TEXT]<42.1337>???", bs "???", INBodyExt (Some (SecText None)) (Some (42%N, 1337%N)) true)].
Proof. replay. Qed.

(* command.rs test_parse_fetch_att *)
Example t078 : all (parses (p_fetch_att (F:=all_features))) [
    (bs "ENVELOPE???", bs "???", INEnvelope);
    (bs "FLAGS???", bs "???", INFlags);
    (bs "INTERNALDATE???", bs "???", INInternalDate);
    (bs "RFC822???", bs "???", INRfc822);
    (bs "RFC822.HEADER???", bs "???", INRfc822Header);
    (bs "RFC822.SIZE???", bs "???", INRfc822Size);
    (bs "RFC822.TEXT???", bs "???", INRfc822Text);
    (bs "BODY???", bs "???", INBody);
    (bs "BODYSTRUCTURE???", bs "???", INBodyStructure);
    (bs "UID???", bs "???", INUid);
    (bs "BODY[]???", bs "???", INBodyExt None None false);
    (bs "BODY.PEEK[]???", bs "???", INBodyExt None None true);
    (bs "BODY.PEEK[TEXT]???", bs "???", INBodyExt (Some (SecText None)) None true);
    (bs "BODY.PEEK[TEXT]<42.1337>???", bs "???", INBodyExt (Some (SecText None)) (Some (42%N, 1337%N)) true)].
Proof. replay. Qed.

(* core.rs test_atom *)
Example t079 : is_err p_atom (bs " ") /\ is_err p_atom [] /\ all (parses p_atom) [(bs "a(", bs "(", bs "a"); (bs "xxx yyy", bs " yyy", bs "xxx")].
Proof. replay. Qed.

(* core.rs test_quoted *)
Example t080 : all (parses p_quoted) [((bs """Hello""???"), bs "???", bs "Hello"); ((bs """Hello \""World\""""???"), bs "???", (bs "Hello ""World"""))] /\
  all (is_ok p_quoted) [
    (bs """Hello \"" ""???");
    (bs """Hello \\ ""???")] /\
  all (is_err p_quoted) [
    (bs """Hello \a ""???");
    (bs """Hello \z ""???");
    (bs """Hello \? ""???");
    (bs "\")] /\
  all (fun i => p_quoted i = RInc) [
    (bs "");
    (bs """\");
    (bs """Hello ")].
Proof. replay. Qed.

(* core.rs test_number, test_nz_number *)
Example t081 : all (is_err p_number) [[]; bs "?"] /\ all (is_ok p_number) [bs "0?"; bs "55?"; bs "999?"] /\
  is_err p_nz_number (bs "0?") /\ all (is_ok p_nz_number) [bs "55?"; bs "999?"].
Proof. replay. Qed.

(* core.rs test_literal *)
Example t082 : is_ok (p_literal (F:=default_features)) (bs "{3}" ++ crlf ++ bs "123") /\ is_err (p_literal (F:=default_features)) (bs "{3}" ++ crlf ++ bs "1" ++ ["000"%byte] ++ bs "3") /\
  p_literal (F:=default_features) (bs "{3}" ++ crlf ++ bs "123xxx") = ROk (bs "xxx") (mkLit (bs "123") Sync).
Proof. replay. Qed.

(* core.rs test_nil *)
Example t083 : all (is_ok p_nil) [bs "nil"; bs "nil "; bs "nilxxx"] /\ all (is_err p_nil) [bs " nil"; bs "null"].
Proof. replay. Qed.

(* core.rs test_encode_charset *)
Example t084 : map (fun s => cmap (fun c => dump (e_charset c)) (charset_from_bytes s)) [bs "bengali"; bs """simple"" english"; []; bs """"; bs "\"] =
  [COk (bs "bengali"); COk (bs """\""simple\"" english"""); COk (bs """"""); COk (bs """\"""""); COk (bs """\\""")].
Proof. replay. Qed.

Definition charset_refused (s : bytes) : Prop := match charset_from_bytes s with CErr _ => True | _ => False end.

(* core.rs test_encode_charset *)
Example t085 : all charset_refused [[bCR]; [bLF]; ["194"%byte; "185"%byte]; ["194"%byte; "178"%byte]; ["000"%byte]].
Proof. replay. Qed.

(* datetime.rs test_encode_date_time *)
Example t086 : dump (e_date_time (mkDateTime (mkDate 1994 2 7) 21 52 25 (-28800))) = (bs """07-Feb-1994 21:52:25 -0800""") /\
  dump (e_date_time (mkDateTime (mkDate 0 2 7) 21 52 25 (-28800))) = (bs """07-Feb-0000 21:52:25 -0800""").
Proof. replay. Qed.

(* datetime.rs test_date, test_date_text *)
Example t087 : all (parses p_date_opt) [
    ((bs "1-Feb-2020xxx"), bs "xxx", Some (mkDate 2020 2 1));
    ((bs """1-Feb-2020""xxx"), bs "xxx", Some (mkDate 2020 2 1));
    ((bs """01-Feb-2020""xxx"), bs "xxx", Some (mkDate 2020 2 1))] /\ p_date_text (bs "1-Feb-2020") = ROk [] (Some (mkDate 2020 2 1)).
Proof. replay. Qed.

(* datetime.rs test_date_day, test_date_month, test_date_year, test_date_day_fixed *)
Example t088 : all (parses p_digit_1_2) [(bs "1xxx", bs "xxx", 1%N); (bs "01xxx", bs "xxx", 1%N); (bs "999xxx", bs "9xxx", 99%N)] /\
  all (parses p_date_month) [(bs "jAn", [], 1%N); (bs "DeCxxx", bs "xxx", 12%N)] /\
  all (parses p_digit_4) [(bs "1985xxx", bs "xxx", 1985%N); (bs "1991xxx", bs "xxx", 1991%N)] /\
  all (parses p_date_day_fixed) [(bs "00", [], 0%N); (bs " 0", [], 0%N); (bs "99", [], 99%N); (bs " 9", [], 9%N)].
Proof. replay. Qed.

(* datetime.rs test_time *)
Example t089 : all (is_err p_time) [bs "1:34:56xxx"; bs "12:3:56xxx"; bs "12:34:5xxx"] /\
  all (parses p_time) [(bs "12:34:56xxx", bs "xxx", Some (12, 34, 56)%N); (bs "99:99:99 ", bs " ", None); (bs "12:34:56", [], Some (12, 34, 56)%N); (bs "99:99:99", [], None)].
Proof. replay. Qed.

(* datetime.rs test_date_time, test_date_time_invalid *)
Example t090 : p_date_time (bs """ 1-Feb-1985 12:34:56 +0100""xxx") = ROk (bs "xxx") (mkDateTime (mkDate 1985 2 1) 12 34 56 3600) /\
  all (ok_rest p_date_time (bs "xxx")) [
    (bs """ 1-Feb-0000 12:34:56 +0000""xxx");
    (bs """ 1-Feb-9999 12:34:56 +0000""xxx");
    (bs """ 1-Feb-0000 12:34:56 -0000""xxx");
    (bs """ 1-Feb-9999 12:34:56 -0000""xxx");
    (bs """ 1-Feb-2020 00:00:00 +0100""xxx")] /\
  all (is_err p_date_time) [
    (bs """ 1-Feb-0000 12:34:56 +9999""xxx");
    (bs """ 1-Feb-9999 12:34:56 +9999""xxx");
    (bs """ 1-Feb-0000 12:34:56 -9999""xxx");
    (bs """ 1-Feb-9999 12:34:56 -9999""xxx");
    (bs """ 1-Feb-2020 99:99:99 +0100""xxx");
    (bs """31-Feb-2020 00:00:00 +0100""xxx");
    (bs """99-Feb-2020 99:99:99 +0100""xxx")].
Proof. replay. Qed.

(* datetime.rs test_zone *)
Example t091 : all (parses p_zone) [(bs "+0000xxx", bs "xxx", Some 0%Z); (bs "+0000", [], Some 0%Z); (bs "-0205xxx", bs "xxx", Some (-7500)%Z); (bs "-1159", [], Some (-43140)%Z)].
Proof. replay. Qed.

(* envelope.rs test_parse_address *)
Example t092 : p_address (F:=default_features) (bs "(nil {3}" ++ crlf ++ bs "xxx ""xxx"" nil)") = ROk [] (mkAddress None (Some (ILiteral (mkLit (bs "xxx") Sync))) (Some (IQuoted (bs "xxx"))) None).
Proof. replay. Qed.

(** ** imap-codec/src/fetch.rs, flag.rs, mailbox.rs, search.rs, sequence.rs, status.rs *)

(* fetch.rs test_encode_message_data_item_name *)
Example t093 : all (encodes e_item_name) [
    (INEnvelope, bs "ENVELOPE");
    (INFlags, bs "FLAGS");
    (INInternalDate, bs "INTERNALDATE");
    (INRfc822, bs "RFC822");
    (INRfc822Header, bs "RFC822.HEADER");
    (INRfc822Size, bs "RFC822.SIZE");
    (INRfc822Text, bs "RFC822.TEXT");
    (INBody, bs "BODY");
    (INBodyStructure, bs "BODYSTRUCTURE");
    (INUid, bs "UID");
    (INBodyExt None None false, bs "BODY[]")].
Proof. replay. Qed.

(* fetch.rs test_encode_message_data_item *)
Example t094 : all (encodes e_message_data_item) [
    (MDBody (BSSingle (mkBasic [] None None (IQuoted (bs "base64")) 42) (SFText (IQuoted (bs "foo")) 1337) None), (bs "BODY (""TEXT"" ""foo"" NIL NIL NIL ""base64"" 42 1337)"));
    (MDBodyExt None None None, (bs "BODY[] NIL"));
    (MDBodyExt None (Some 123%N) None, (bs "BODY[]<123> NIL"));
    (MDBodyStructure (BSSingle (mkBasic [] None None (IQuoted (bs "base64")) 213) (SFText (IQuoted (bs "")) 224) None), (bs "BODYSTRUCTURE (""TEXT"" """" NIL NIL NIL ""base64"" 213 224)"));
    (MDEnvelope (mkEnvelope None None [] [] [] [] [] [] None None), (bs "ENVELOPE (NIL NIL NIL NIL NIL NIL NIL NIL NIL NIL)"));
    (MDFlags [], (bs "FLAGS ()"));
    (MDInternalDate (mkDateTime (mkDate 2003 7 1) 10 52 37 7200), (bs "INTERNALDATE ""01-Jul-2003 10:52:37 +0200"""));
    (MDRfc822 None, (bs "RFC822 NIL"));
    (MDRfc822Header None, (bs "RFC822.HEADER NIL"));
    (MDRfc822Size 3456, (bs "RFC822.SIZE 3456"));
    (MDRfc822Text None, (bs "RFC822.TEXT NIL"));
    (MDUid u32_max, (bs "UID 4294967295"))].
Proof. replay. Qed.

(* fetch.rs test_encode_section *)
Example t095 : all (encodes e_section) [
    (SecPart [1%N], (bs "1"));
    (SecHeader None, (bs "HEADER"));
    (SecHeader (Some [1%N]), (bs "1.HEADER"));
    (SecHeaderFields None [AString (IQuoted [])], (bs "HEADER.FIELDS ("""")"));
    (SecHeaderFields (Some [1%N]) [AString (IQuoted [])], (bs "1.HEADER.FIELDS ("""")"));
    (SecHeaderFieldsNot None [AString (IQuoted [])], (bs "HEADER.FIELDS.NOT ("""")"));
    (SecHeaderFieldsNot (Some [1%N]) [AString (IQuoted [])], (bs "1.HEADER.FIELDS.NOT ("""")"));
    (SecText None, (bs "TEXT"));
    (SecText (Some [1%N]), (bs "1.TEXT"));
    (SecMime [1%N], (bs "1.MIME"))].
Proof. replay. Qed.

(* flag.rs *)
Example t096 : p_flag_fetch (bs "iS)") = ROk (bs ")") (FFFlag (FKeyword (bs "iS"))) /\
  all (parses p_flag_perm) [(bs "\Deleted)", bs ")", FPFlag FDeleted); (bs "\Deletedx)", bs ")", FPFlag (FExtension (bs "Deletedx"))); (bs "\Seen ", bs " ", FPFlag FSeen); (bs "\*)", bs ")", FPAsterisk)] /\
  all (parses p_mbx_list_flags) [(bs "\Markedm)", bs ")", [FNExtension (bs "Markedm")]); (bs "\Marked)", bs ")", [FNMarked])].
Proof. replay. Qed.

(* mailbox.rs *)
Example t097 : all (is_ok (p_mailbox (F:=default_features))) [(bs """iNbOx"""); (bs "{3}" ++ crlf ++ bs "aaa" ++ crlf); bs "inbox "; bs "inbox.sent "] /\ is_err (p_mailbox (F:=default_features)) (bs "aaa").
Proof. replay. Qed.

(* search.rs test_parse_search *)
Example t098 : p_search (F:=default_features) (bs "search (uid 5)???") = ROk (bs "???") (CSearch None [KAnd [KUid [SSingle (SValue 5)]]] false) /\
  p_search (F:=default_features) (bs "search (uid 5 or uid 5 (uid 1 uid 2) not uid 5)???") =
    ROk (bs "???") (CSearch None [KAnd [KUid [SSingle (SValue 5)]; KOr (KUid [SSingle (SValue 5)]) (KAnd [KUid [SSingle (SValue 1)]; KUid [SSingle (SValue 2)]]); KNot (KUid [SSingle (SValue 5)])]] false).
Proof. replay. Qed.

(* search.rs test_parse_search_key *)
Example t099 : is_ok (p_search_key (F:=default_features) 1) (bs "1:5|") /\ is_err (p_search_key (F:=default_features) 1) (bs "(1:5)|") /\
  is_ok (p_search_key (F:=default_features) 2) (bs "(1:5)|") /\ is_err (p_search_key (F:=default_features) 2) (bs "((1:5))|").
Proof. replay. Qed.

(* search.rs test_encode_search_key *)
Example t100 : all (encodes (e_search_key (F:=default_features))) [
    (KAnd [KAnswered], (bs "(ANSWERED)"));
    (KAnd [KAnswered; KSeen], (bs "(ANSWERED SEEN)"));
    (KSequenceSet [SSingle (SValue 1)], (bs "1"));
    (KAll, (bs "ALL"));
    (KAnswered, (bs "ANSWERED"));
    (KBcc (AAtom (bs "A")), (bs "BCC A"));
    (KBefore (mkDate 2023 4 12), (bs "BEFORE ""12-Apr-2023"""));
    (KBody (AAtom (bs "A")), (bs "BODY A"));
    (KCc (AAtom (bs "A")), (bs "CC A"));
    (KDeleted, (bs "DELETED"));
    (KDraft, (bs "DRAFT"));
    (KFlagged, (bs "FLAGGED"));
    (KFrom (AAtom (bs "A")), (bs "FROM A"));
    (KHeader (AAtom (bs "A")) (AAtom (bs "B")), (bs "HEADER A B"));
    (KKeyword (bs "A"), (bs "KEYWORD A"));
    (KLarger 42, (bs "LARGER 42"));
    (KNew, (bs "NEW"));
    (KNot KNew, (bs "NOT NEW"));
    (KOld, (bs "OLD"));
    (KOn (mkDate 2023 4 12), (bs "ON ""12-Apr-2023"""));
    (KOr KNew KRecent, (bs "OR NEW RECENT"));
    (KRecent, (bs "RECENT"));
    (KSeen, (bs "SEEN"));
    (KSentBefore (mkDate 2023 4 12), (bs "SENTBEFORE ""12-Apr-2023"""));
    (KSentOn (mkDate 2023 4 12), (bs "SENTON ""12-Apr-2023"""));
    (KSentSince (mkDate 2023 4 12), (bs "SENTSINCE ""12-Apr-2023"""));
    (KSince (mkDate 2023 4 12), (bs "SINCE ""12-Apr-2023"""));
    (KSmaller 1337, (bs "SMALLER 1337"));
    (KSubject (AAtom (bs "A")), (bs "SUBJECT A"));
    (KText (AAtom (bs "A")), (bs "TEXT A"));
    (KTo (AAtom (bs "A")), (bs "TO A"));
    (KUid [SRange (SValue 1) SAsterisk], (bs "UID 1:*"));
    (KUnanswered, (bs "UNANSWERED"));
    (KUndeleted, (bs "UNDELETED"));
    (KUndraft, (bs "UNDRAFT"));
    (KUnflagged, (bs "UNFLAGGED"));
    (KUnkeyword (bs "A"), (bs "UNKEYWORD A"));
    (KUnseen, (bs "UNSEEN"))].
Proof. replay. Qed.

(* sequence.rs *)
Example t101 : all (encodes (e_sequence (F:=default_features))) [(SSingle (SValue 1), bs "1"); (SSingle SAsterisk, bs "*"); (SRange (SValue 1) SAsterisk, bs "1:*")] /\
  all (is_ok p_sequence_set) [bs "1:*?"; bs "1:*,5?"] /\
  is_err p_seq_number (bs "0?") /\ all (is_ok p_seq_number) [bs "1?"; bs "*?"] /\ is_err p_seq_range (bs "0:1?") /\
  all (parses p_seq_range) [(bs "1:2?", bs "?", SRange (SValue 1) (SValue 2)); (bs "1:*?", bs "?", SRange (SValue 1) SAsterisk); (bs "*:10?", bs "?", SRange SAsterisk (SValue 10))].
Proof. replay. Qed.

(* status.rs *)
Example t102 : all (encodes e_status_name) [
    (SNMessages, bs "MESSAGES");
    (SNRecent, bs "RECENT");
    (SNUidNext, bs "UIDNEXT");
    (SNUidValidity, bs "UIDVALIDITY");
    (SNUnseen, bs "UNSEEN");
    (SNDeleted, bs "DELETED");
    (SNDeletedStorage, bs "DELETED-STORAGE")].
Proof. replay. Qed.

(* status.rs *)
Example t103 : all (encodes e_status_item) [
    (SIMessages 0, bs "MESSAGES 0");
    (SIRecent u32_max, bs "RECENT 4294967295");
    (SIUidNext 1, bs "UIDNEXT 1");
    (SIUidValidity u32_max, bs "UIDVALIDITY 4294967295");
    (SIUnseen 0, bs "UNSEEN 0");
    (SIDeleted 1, bs "DELETED 1");
    (SIDeletedStorage u64_max, bs "DELETED-STORAGE 18446744073709551615")].
Proof. replay. Qed.

(** ** imap-codec/tests/trace.rs *)

(* tests/trace.rs:134-600 *)
Example t104 : all (kat_response default_features) [
    ((bs "* CAPABILITY IMAP4rev1 STARTTLS AUTH=GSSAPI LOGINDISABLED" ++ crlf), unb (data_capability [CapImap4Rev1; CapOther (bs "STARTTLS"); CapAuth (AMOther (bs "GSSAPI")); CapLoginDisabled]) (fun d => Decoded (bs "") (RData d)));
    ((bs "* CAPABILITY IMAP4rev1 AUTH=GSSAPI AUTH=PLAIN" ++ crlf), unb (data_capability [CapImap4Rev1; CapAuth (AMOther (bs "GSSAPI")); CapAuth AMPlain]) (fun d => Decoded (bs "") (RData d)));
    ((bs "abcd OK CAPABILITY completed" ++ crlf), unb (status_ok (Some (bs "abcd")) None (bs "CAPABILITY completed")) (fun s => Decoded (bs "") (RStatus s)));
    ((bs "efgh OK STARTLS completed" ++ crlf), unb (status_ok (Some (bs "efgh")) None (bs "STARTLS completed")) (fun s => Decoded (bs "") (RStatus s)));
    ((bs "ijkl OK CAPABILITY completed" ++ crlf), unb (status_ok (Some (bs "ijkl")) None (bs "CAPABILITY completed")) (fun s => Decoded (bs "") (RStatus s)));
    ((bs "a002 OK NOOP completed" ++ crlf), unb (status_ok (Some (bs "a002")) None (bs "NOOP completed")) (fun s => Decoded (bs "") (RStatus s)));
    ((bs "a047 OK NOOP completed" ++ crlf), unb (status_ok (Some (bs "a047")) None (bs "NOOP completed")) (fun s => Decoded (bs "") (RStatus s)));
    ((bs "A023 OK LOGOUT completed" ++ crlf), unb (status_ok (Some (bs "A023")) None (bs "LOGOUT completed")) (fun s => Decoded (bs "") (RStatus s)));
    ((bs "a001 OK LOGIN completed" ++ crlf), unb (status_ok (Some (bs "a001")) None (bs "LOGIN completed")) (fun s => Decoded (bs "") (RStatus s)));
    ((bs "* 22 EXPUNGE" ++ crlf), unb (data_expunge 22) (fun d => Decoded (bs "") (RData d)));
    ((bs "* 23 EXISTS" ++ crlf), Decoded (bs "") (RData (DExists 23)));
    ((bs "* 3 RECENT" ++ crlf), Decoded (bs "") (RData (DRecent 3)));
    ((bs "* 14 FETCH (FLAGS (\Seen \Deleted))" ++ crlf), unb (data_fetch 14 [MDFlags [FFFlag FSeen; FFFlag FDeleted]]) (fun d => Decoded (bs "") (RData d)));
    ((bs "* BYE IMAP4rev1 Server logging out" ++ crlf), unb (status_bye None (bs "IMAP4rev1 Server logging out")) (fun s => Decoded (bs "") (RStatus s)));
    ((bs "* 172 EXISTS" ++ crlf), Decoded (bs "") (RData (DExists 172)));
    ((bs "* 1 RECENT" ++ crlf), Decoded (bs "") (RData (DRecent 1)));
    ((bs "* OK [UNSEEN 12] Message 12 is first unseen" ++ crlf), unb (code_unseen 12) (fun c => unb (status_ok None (Some c) (bs "Message 12 is first unseen")) (fun s => Decoded [] (RStatus s))));
    ((bs "* OK [UIDVALIDITY 3857529045] UIDs valid" ++ crlf), unb (code_uidvalidity 3857529045) (fun c => unb (status_ok None (Some c) (bs "UIDs valid")) (fun s => Decoded [] (RStatus s))));
    ((bs "* OK [UIDNEXT 4392] Predicted next UID" ++ crlf), unb (code_uidnext 4392) (fun c => unb (status_ok None (Some c) (bs "Predicted next UID")) (fun s => Decoded [] (RStatus s))));
    ((bs "* FLAGS (\Answered \Flagged \Deleted \Seen \Draft)" ++ crlf), Decoded (bs "") (RData (DFlags [FAnswered; FFlagged; FDeleted; FSeen; FDraft])));
    ((bs "* OK [PERMANENTFLAGS (\Deleted \Seen \*)] Limited" ++ crlf), unb (status_ok None (Some (CdPermanentFlags [FPFlag FDeleted; FPFlag FSeen; FPAsterisk])) (bs "Limited")) (fun s => Decoded (bs "") (RStatus s)));
    ((bs "A142 OK [READ-WRITE] SELECT completed" ++ crlf), unb (status_ok (Some (bs "A142")) (Some CdReadWrite) (bs "SELECT completed")) (fun s => Decoded (bs "") (RStatus s)));
    ((bs "* OK [PERMANENTFLAGS ()] No permanent flags permitted" ++ crlf), unb (status_ok None (Some (CdPermanentFlags [])) (bs "No permanent flags permitted")) (fun s => Decoded (bs "") (RStatus s)));
    ((bs "A932 OK [READ-ONLY] EXAMINE completed" ++ crlf), unb (status_ok (Some (bs "A932")) (Some CdReadOnly) (bs "EXAMINE completed")) (fun s => Decoded (bs "") (RStatus s)))].
Proof. replay. Qed.

(* tests/trace.rs:134-600, 830-1180 *)
Example t105 : all (kat_command default_features) [
    ((bs "abcd CAPABILITY" ++ crlf), unb (command_new (bs "abcd") (CCapability)) (Decoded (bs "")));
    ((bs "a002 NOOP" ++ crlf), unb (command_new (bs "a002") (CNoop)) (Decoded (bs "")));
    ((bs "A023 LOGOUT" ++ crlf), unb (command_new (bs "A023") (CLogout)) (Decoded (bs "")));
    ((bs "a001 LOGIN SMITH SESAME" ++ crlf), unb (cb_login (bs "SMITH") (bs "SESAME")) (fun b => unb (command_new (bs "a001") b) (Decoded (bs ""))));
    ((bs "a001 LOGIN ""SMITH"" SESAME" ++ crlf), unb (command_new (bs "a001") (CLogin (AString (IQuoted (bs "SMITH"))) (AAtom (bs "SESAME")))) (Decoded (bs "")));
    ((bs "A142 SELECT INBOX" ++ crlf), unb (cb_select (bs "inbox")) (fun b => unb (command_new (bs "A142") b) (Decoded (bs ""))));
    ((bs "A932 EXAMINE blurdybloop" ++ crlf), unb (cb_examine (bs "blurdybloop")) (fun b => unb (command_new (bs "A932") b) (Decoded (bs ""))));
    ((bs "a001 login mrc secret" ++ crlf), unb (cb_login (bs "mrc") (bs "secret")) (fun b => unb (command_new (bs "a001") b) (Decoded (bs ""))));
    ((bs "a002 select inbox" ++ crlf), unb (cb_select (bs "inbox")) (fun b => unb (command_new (bs "a002") b) (Decoded (bs ""))));
    ((bs "a003 fetch 12 full" ++ crlf), unb (cb_fetch (bs "12") (MIMacro MacroFull) false) (fun b => unb (command_new (bs "a003") b) (Decoded (bs ""))));
    ((bs "a004 fetch 12 body[header]" ++ crlf), unb (cb_fetch (bs "12") (MIItems [INBodyExt (Some (SecHeader None)) None false]) false) (fun b => unb (command_new (bs "a004") b) (Decoded (bs ""))));
    ((bs "a005 store 12 +flags \deleted" ++ crlf), unb (cb_store (bs "12") STAdd SRAnswer [FDeleted] false) (fun b => unb (command_new (bs "a005") b) (Decoded (bs ""))));
    ((bs "a006 logout" ++ crlf), unb (command_new (bs "a006") (CLogout)) (Decoded (bs "")))].
Proof. replay. Qed.

(* tests/trace.rs:134-600 *)
Example t106 : all (kat_response all_features) [
    ((bs "* CAPABILITY IMAP4rev1 STARTTLS AUTH=GSSAPI LOGINDISABLED" ++ crlf), unb (data_capability [CapImap4Rev1; CapStartTls; CapAuth (AMOther (bs "GSSAPI")); CapLoginDisabled]) (fun d => Decoded (bs "") (RData d)));
    ((bs "* CAPABILITY IMAP4rev1 AUTH=GSSAPI AUTH=PLAIN" ++ crlf), unb (data_capability [CapImap4Rev1; CapAuth (AMOther (bs "GSSAPI")); CapAuth AMPlain]) (fun d => Decoded (bs "") (RData d)));
    ((bs "abcd OK CAPABILITY completed" ++ crlf), unb (status_ok (Some (bs "abcd")) None (bs "CAPABILITY completed")) (fun s => Decoded (bs "") (RStatus s)));
    ((bs "efgh OK STARTLS completed" ++ crlf), unb (status_ok (Some (bs "efgh")) None (bs "STARTLS completed")) (fun s => Decoded (bs "") (RStatus s)));
    ((bs "ijkl OK CAPABILITY completed" ++ crlf), unb (status_ok (Some (bs "ijkl")) None (bs "CAPABILITY completed")) (fun s => Decoded (bs "") (RStatus s)));
    ((bs "a002 OK NOOP completed" ++ crlf), unb (status_ok (Some (bs "a002")) None (bs "NOOP completed")) (fun s => Decoded (bs "") (RStatus s)));
    ((bs "a047 OK NOOP completed" ++ crlf), unb (status_ok (Some (bs "a047")) None (bs "NOOP completed")) (fun s => Decoded (bs "") (RStatus s)));
    ((bs "A023 OK LOGOUT completed" ++ crlf), unb (status_ok (Some (bs "A023")) None (bs "LOGOUT completed")) (fun s => Decoded (bs "") (RStatus s)));
    ((bs "a001 OK LOGIN completed" ++ crlf), unb (status_ok (Some (bs "a001")) None (bs "LOGIN completed")) (fun s => Decoded (bs "") (RStatus s)));
    ((bs "* 22 EXPUNGE" ++ crlf), unb (data_expunge 22) (fun d => Decoded (bs "") (RData d)));
    ((bs "* 23 EXISTS" ++ crlf), Decoded (bs "") (RData (DExists 23)));
    ((bs "* 3 RECENT" ++ crlf), Decoded (bs "") (RData (DRecent 3)));
    ((bs "* 14 FETCH (FLAGS (\Seen \Deleted))" ++ crlf), unb (data_fetch 14 [MDFlags [FFFlag FSeen; FFFlag FDeleted]]) (fun d => Decoded (bs "") (RData d)));
    ((bs "* BYE IMAP4rev1 Server logging out" ++ crlf), unb (status_bye None (bs "IMAP4rev1 Server logging out")) (fun s => Decoded (bs "") (RStatus s)));
    ((bs "* 172 EXISTS" ++ crlf), Decoded (bs "") (RData (DExists 172)));
    ((bs "* 1 RECENT" ++ crlf), Decoded (bs "") (RData (DRecent 1)));
    ((bs "* OK [UNSEEN 12] Message 12 is first unseen" ++ crlf), unb (code_unseen 12) (fun c => unb (status_ok None (Some c) (bs "Message 12 is first unseen")) (fun s => Decoded [] (RStatus s))));
    ((bs "* OK [UIDVALIDITY 3857529045] UIDs valid" ++ crlf), unb (code_uidvalidity 3857529045) (fun c => unb (status_ok None (Some c) (bs "UIDs valid")) (fun s => Decoded [] (RStatus s))));
    ((bs "* OK [UIDNEXT 4392] Predicted next UID" ++ crlf), unb (code_uidnext 4392) (fun c => unb (status_ok None (Some c) (bs "Predicted next UID")) (fun s => Decoded [] (RStatus s))));
    ((bs "* FLAGS (\Answered \Flagged \Deleted \Seen \Draft)" ++ crlf), Decoded (bs "") (RData (DFlags [FAnswered; FFlagged; FDeleted; FSeen; FDraft])));
    ((bs "* OK [PERMANENTFLAGS (\Deleted \Seen \*)] Limited" ++ crlf), unb (status_ok None (Some (CdPermanentFlags [FPFlag FDeleted; FPFlag FSeen; FPAsterisk])) (bs "Limited")) (fun s => Decoded (bs "") (RStatus s)));
    ((bs "A142 OK [READ-WRITE] SELECT completed" ++ crlf), unb (status_ok (Some (bs "A142")) (Some CdReadWrite) (bs "SELECT completed")) (fun s => Decoded (bs "") (RStatus s)));
    ((bs "* OK [PERMANENTFLAGS ()] No permanent flags permitted" ++ crlf), unb (status_ok None (Some (CdPermanentFlags [])) (bs "No permanent flags permitted")) (fun s => Decoded (bs "") (RStatus s)));
    ((bs "A932 OK [READ-ONLY] EXAMINE completed" ++ crlf), unb (status_ok (Some (bs "A932")) (Some CdReadOnly) (bs "EXAMINE completed")) (fun s => Decoded (bs "") (RStatus s)))].
Proof. replay. Qed.

(* tests/trace.rs:134-600, 830-1180 *)
Example t107 : all (kat_command all_features) [
    ((bs "abcd CAPABILITY" ++ crlf), unb (command_new (bs "abcd") (CCapability)) (Decoded (bs "")));
    ((bs "a002 NOOP" ++ crlf), unb (command_new (bs "a002") (CNoop)) (Decoded (bs "")));
    ((bs "A023 LOGOUT" ++ crlf), unb (command_new (bs "A023") (CLogout)) (Decoded (bs "")));
    ((bs "a001 LOGIN SMITH SESAME" ++ crlf), unb (cb_login (bs "SMITH") (bs "SESAME")) (fun b => unb (command_new (bs "a001") b) (Decoded (bs ""))));
    ((bs "a001 LOGIN ""SMITH"" SESAME" ++ crlf), unb (command_new (bs "a001") (CLogin (AString (IQuoted (bs "SMITH"))) (AAtom (bs "SESAME")))) (Decoded (bs "")));
    ((bs "A142 SELECT INBOX" ++ crlf), unb (cb_select (bs "inbox")) (fun b => unb (command_new (bs "A142") b) (Decoded (bs ""))));
    ((bs "A932 EXAMINE blurdybloop" ++ crlf), unb (cb_examine (bs "blurdybloop")) (fun b => unb (command_new (bs "A932") b) (Decoded (bs ""))));
    ((bs "a001 login mrc secret" ++ crlf), unb (cb_login (bs "mrc") (bs "secret")) (fun b => unb (command_new (bs "a001") b) (Decoded (bs ""))));
    ((bs "a002 select inbox" ++ crlf), unb (cb_select (bs "inbox")) (fun b => unb (command_new (bs "a002") b) (Decoded (bs ""))));
    ((bs "a003 fetch 12 full" ++ crlf), unb (cb_fetch (bs "12") (MIMacro MacroFull) false) (fun b => unb (command_new (bs "a003") b) (Decoded (bs ""))));
    ((bs "a004 fetch 12 body[header]" ++ crlf), unb (cb_fetch (bs "12") (MIItems [INBodyExt (Some (SecHeader None)) None false]) false) (fun b => unb (command_new (bs "a004") b) (Decoded (bs ""))));
    ((bs "a005 store 12 +flags \deleted" ++ crlf), unb (cb_store (bs "12") STAdd SRAnswer [FDeleted] false) (fun b => unb (command_new (bs "a005") b) (Decoded (bs ""))));
    ((bs "a006 logout" ++ crlf), unb (command_new (bs "a006") (CLogout)) (Decoded (bs "")));
    ((bs "efgh STARTTLS" ++ crlf), unb (command_new (bs "efgh") (CStartTls)) (Decoded (bs "")))].
Proof. replay. Qed.

(* tests/trace.rs:830-1190 *)
Example t108 : all (kat_response default_features) [
    ((bs "* 12 FETCH (FLAGS (\Seen) INTERNALDATE ""17-Jul-1996 02:44:25 -0700"" RFC822.SIZE 4286 ENVELOPE (""Wed, 17 Jul 1996 02:23:25 -0700 (PDT)"" ""IMAP4rev1 WG mtg summary and minutes"" ((""Terry Gray"" NIL ""gray"" ""cac.washington.edu"")) ((""Terry Gray"" NIL ""gray"" ""cac.washington.edu"")) ((""Terry Gray"" NIL ""gray"" ""cac.washington.edu"")) ((NIL NIL ""imap"" ""cac.washington.edu"")) ((NIL NIL ""minutes"" ""CNRI.Reston.VA.US"")(""John Klensin"" NIL ""KLENSIN"" ""MIT.EDU"")) NIL NIL ""<B27397-0100000@cac.washington.edu>"") BODY (""TEXT"" ""PLAIN"" (""CHARSET"" ""US-ASCII"") NIL NIL ""7BIT"" 3028 92))" ++ crlf), unb (data_fetch 12 [MDFlags [FFFlag FSeen]; MDInternalDate (mkDateTime (mkDate 1996 7 17) 2 44 25 (-25200)); MDRfc822Size 4286; MDEnvelope (mkEnvelope (Some (IQuoted (bs "Wed, 17 Jul 1996 02:23:25 -0700 (PDT)"))) (Some (IQuoted (bs "IMAP4rev1 WG mtg summary and minutes"))) [mkAddress (Some (IQuoted (bs "Terry Gray"))) None (Some (IQuoted (bs "gray"))) (Some (IQuoted (bs "cac.washington.edu")))] [mkAddress (Some (IQuoted (bs "Terry Gray"))) None (Some (IQuoted (bs "gray"))) (Some (IQuoted (bs "cac.washington.edu")))] [mkAddress (Some (IQuoted (bs "Terry Gray"))) None (Some (IQuoted (bs "gray"))) (Some (IQuoted (bs "cac.washington.edu")))] [mkAddress None None (Some (IQuoted (bs "imap"))) (Some (IQuoted (bs "cac.washington.edu")))] [mkAddress None None (Some (IQuoted (bs "minutes"))) (Some (IQuoted (bs "CNRI.Reston.VA.US"))); mkAddress (Some (IQuoted (bs "John Klensin"))) None (Some (IQuoted (bs "KLENSIN"))) (Some (IQuoted (bs "MIT.EDU")))] [] None (Some (IQuoted (bs "<B27397-0100000@cac.washington.edu>")))); MDBody (BSSingle (mkBasic [((IQuoted (bs "CHARSET")), (IQuoted (bs "US-ASCII")))] None None (IQuoted (bs "7BIT")) 3028) (SFText (IQuoted (bs "PLAIN")) 92) None)]) (fun d => Decoded (bs "") (RData d)));
    ((bs "* 12 FETCH (BODY[HEADER] {342}" ++ crlf ++ bs "Date: Wed, 17 Jul 1996 02:23:25 -0700 (PDT)" ++ crlf ++ bs "From: Terry Gray <gray@cac.washington.edu>" ++ crlf ++ bs "Subject: IMAP4rev1 WG mtg summary and minutes" ++ crlf ++ bs "To: imap@cac.washington.edu" ++ crlf ++ bs "cc: minutes@CNRI.Reston.VA.US, John Klensin <KLENSIN@MIT.EDU>" ++ crlf ++ bs "Message-Id: <B27397-0100000@cac.washington.edu>" ++ crlf ++ bs "MIME-Version: 1.0" ++ crlf ++ bs "Content-Type: TEXT/PLAIN; CHARSET=US-ASCII" ++ crlf ++ crlf ++ bs ")" ++ crlf), unb (data_fetch 12 [MDBodyExt (Some (SecHeader None)) None (Some (ILiteral (mkLit (bs "Date: Wed, 17 Jul 1996 02:23:25 -0700 (PDT)" ++ crlf ++ bs "From: Terry Gray <gray@cac.washington.edu>" ++ crlf ++ bs "Subject: IMAP4rev1 WG mtg summary and minutes" ++ crlf ++ bs "To: imap@cac.washington.edu" ++ crlf ++ bs "cc: minutes@CNRI.Reston.VA.US, John Klensin <KLENSIN@MIT.EDU>" ++ crlf ++ bs "Message-Id: <B27397-0100000@cac.washington.edu>" ++ crlf ++ bs "MIME-Version: 1.0" ++ crlf ++ bs "Content-Type: TEXT/PLAIN; CHARSET=US-ASCII" ++ crlf ++ crlf) Sync)))]) (fun d => Decoded (bs "") (RData d)));
    ((bs "* 12 FETCH (FLAGS (\Seen \Deleted))" ++ crlf), unb (data_fetch 12 [MDFlags [FFFlag FSeen; FFFlag FDeleted]]) (fun d => Decoded (bs "") (RData d)));
    ((bs "a005 OK +FLAGS completed" ++ crlf), unb (status_ok (Some (bs "a005")) None (bs "+FLAGS completed")) (fun s => Decoded (bs "") (RStatus s)));
    ((bs "* BYE IMAP4rev1 server terminating connection" ++ crlf), unb (status_bye None (bs "IMAP4rev1 server terminating connection")) (fun s => Decoded (bs "") (RStatus s)));
    ((bs "* OK IMAP4rev1 Service Ready" ++ crlf), unb (status_ok None None (bs "IMAP4rev1 Service Ready")) (fun s => Decoded (bs "") (RStatus s)))].
Proof. replay. Qed.

(* tests/trace.rs:830-1190 *)
Example t109 : all (kat_response all_features) [
    ((bs "* 12 FETCH (FLAGS (\Seen) INTERNALDATE ""17-Jul-1996 02:44:25 -0700"" RFC822.SIZE 4286 ENVELOPE (""Wed, 17 Jul 1996 02:23:25 -0700 (PDT)"" ""IMAP4rev1 WG mtg summary and minutes"" ((""Terry Gray"" NIL ""gray"" ""cac.washington.edu"")) ((""Terry Gray"" NIL ""gray"" ""cac.washington.edu"")) ((""Terry Gray"" NIL ""gray"" ""cac.washington.edu"")) ((NIL NIL ""imap"" ""cac.washington.edu"")) ((NIL NIL ""minutes"" ""CNRI.Reston.VA.US"")(""John Klensin"" NIL ""KLENSIN"" ""MIT.EDU"")) NIL NIL ""<B27397-0100000@cac.washington.edu>"") BODY (""TEXT"" ""PLAIN"" (""CHARSET"" ""US-ASCII"") NIL NIL ""7BIT"" 3028 92))" ++ crlf), unb (data_fetch 12 [MDFlags [FFFlag FSeen]; MDInternalDate (mkDateTime (mkDate 1996 7 17) 2 44 25 (-25200)); MDRfc822Size 4286; MDEnvelope (mkEnvelope (Some (IQuoted (bs "Wed, 17 Jul 1996 02:23:25 -0700 (PDT)"))) (Some (IQuoted (bs "IMAP4rev1 WG mtg summary and minutes"))) [mkAddress (Some (IQuoted (bs "Terry Gray"))) None (Some (IQuoted (bs "gray"))) (Some (IQuoted (bs "cac.washington.edu")))] [mkAddress (Some (IQuoted (bs "Terry Gray"))) None (Some (IQuoted (bs "gray"))) (Some (IQuoted (bs "cac.washington.edu")))] [mkAddress (Some (IQuoted (bs "Terry Gray"))) None (Some (IQuoted (bs "gray"))) (Some (IQuoted (bs "cac.washington.edu")))] [mkAddress None None (Some (IQuoted (bs "imap"))) (Some (IQuoted (bs "cac.washington.edu")))] [mkAddress None None (Some (IQuoted (bs "minutes"))) (Some (IQuoted (bs "CNRI.Reston.VA.US"))); mkAddress (Some (IQuoted (bs "John Klensin"))) None (Some (IQuoted (bs "KLENSIN"))) (Some (IQuoted (bs "MIT.EDU")))] [] None (Some (IQuoted (bs "<B27397-0100000@cac.washington.edu>")))); MDBody (BSSingle (mkBasic [((IQuoted (bs "CHARSET")), (IQuoted (bs "US-ASCII")))] None None (IQuoted (bs "7BIT")) 3028) (SFText (IQuoted (bs "PLAIN")) 92) None)]) (fun d => Decoded (bs "") (RData d)));
    ((bs "* 12 FETCH (BODY[HEADER] {342}" ++ crlf ++ bs "Date: Wed, 17 Jul 1996 02:23:25 -0700 (PDT)" ++ crlf ++ bs "From: Terry Gray <gray@cac.washington.edu>" ++ crlf ++ bs "Subject: IMAP4rev1 WG mtg summary and minutes" ++ crlf ++ bs "To: imap@cac.washington.edu" ++ crlf ++ bs "cc: minutes@CNRI.Reston.VA.US, John Klensin <KLENSIN@MIT.EDU>" ++ crlf ++ bs "Message-Id: <B27397-0100000@cac.washington.edu>" ++ crlf ++ bs "MIME-Version: 1.0" ++ crlf ++ bs "Content-Type: TEXT/PLAIN; CHARSET=US-ASCII" ++ crlf ++ crlf ++ bs ")" ++ crlf), unb (data_fetch 12 [MDBodyExt (Some (SecHeader None)) None (Some (ILiteral (mkLit (bs "Date: Wed, 17 Jul 1996 02:23:25 -0700 (PDT)" ++ crlf ++ bs "From: Terry Gray <gray@cac.washington.edu>" ++ crlf ++ bs "Subject: IMAP4rev1 WG mtg summary and minutes" ++ crlf ++ bs "To: imap@cac.washington.edu" ++ crlf ++ bs "cc: minutes@CNRI.Reston.VA.US, John Klensin <KLENSIN@MIT.EDU>" ++ crlf ++ bs "Message-Id: <B27397-0100000@cac.washington.edu>" ++ crlf ++ bs "MIME-Version: 1.0" ++ crlf ++ bs "Content-Type: TEXT/PLAIN; CHARSET=US-ASCII" ++ crlf ++ crlf) Sync)))]) (fun d => Decoded (bs "") (RData d)));
    ((bs "* 12 FETCH (FLAGS (\Seen \Deleted))" ++ crlf), unb (data_fetch 12 [MDFlags [FFFlag FSeen; FFFlag FDeleted]]) (fun d => Decoded (bs "") (RData d)));
    ((bs "a005 OK +FLAGS completed" ++ crlf), unb (status_ok (Some (bs "a005")) None (bs "+FLAGS completed")) (fun s => Decoded (bs "") (RStatus s)));
    ((bs "* BYE IMAP4rev1 server terminating connection" ++ crlf), unb (status_bye None (bs "IMAP4rev1 server terminating connection")) (fun s => Decoded (bs "") (RStatus s)));
    ((bs "* OK IMAP4rev1 Service Ready" ++ crlf), unb (status_ok None None (bs "IMAP4rev1 Service Ready")) (fun s => Decoded (bs "") (RStatus s)))].
Proof. replay. Qed.

(* tests/trace.rs, all lines of the traces *)
Example t110 : all (replays (decode_command (F:=default_features)) (encode_command (F:=default_features))) [
    (bs "A003 CREATE owatagusiam/" ++ crlf);
    (bs "A004 CREATE owatagusiam/blurdybloop" ++ crlf);
    (bs "A682 LIST """" *" ++ crlf);
    (bs "A683 DELETE blurdybloop" ++ crlf);
    (bs "A684 DELETE foo" ++ crlf);
    (bs "A685 DELETE foo/bar" ++ crlf);
    (bs "A686 LIST """" *" ++ crlf);
    (bs "A687 DELETE foo" ++ crlf);
    (bs "A82 LIST """" *" ++ crlf);
    (bs "A83 DELETE blurdybloop" ++ crlf);
    (bs "A84 DELETE foo" ++ crlf);
    (bs "A85 LIST """" *" ++ crlf);
    (bs "A86 LIST """" %" ++ crlf);
    (bs "A683 RENAME blurdybloop sarasoop" ++ crlf);
    (bs "A684 RENAME foo zowie" ++ crlf);
    (bs "A685 LIST """" *" ++ crlf);
    (bs "Z432 LIST """" *" ++ crlf);
    (bs "Z433 RENAME INBOX old-mail" ++ crlf);
    (bs "Z434 LIST """" *" ++ crlf);
    (bs "A002 SUBSCRIBE #news.comp.mail.mime" ++ crlf);
    (bs "A002 UNSUBSCRIBE #news.comp.mail.mime" ++ crlf);
    (bs "A101 LIST """" """"" ++ crlf);
    (bs "A102 LIST #news.comp.mail.misc """"" ++ crlf);
    (bs "A103 LIST /usr/staff/jones """"" ++ crlf);
    (bs "A202 LIST ~/Mail/ %" ++ crlf);
    (bs "A002 LSUB ""news."" ""comp.mail.*""" ++ crlf);
    (bs "A003 LSUB ""news."" ""comp.%""" ++ crlf);
    (bs "A042 STATUS blurdybloop (UIDNEXT MESSAGES)" ++ crlf);
    (bs "FXXZ CHECK" ++ crlf);
    (bs "A341 CLOSE" ++ crlf);
    (bs "A202 EXPUNGE" ++ crlf);
    (bs "A282 SEARCH FLAGGED SINCE 1-Feb-1994 NOT FROM ""Smith""" ++ crlf);
    (bs "A283 SEARCH TEXT ""string not in mailbox""" ++ crlf);
    (bs "A654 FETCH 2:4 (FLAGS BODY[HEADER.FIELDS (DATE FROM)])" ++ crlf);
    (bs "A003 STORE 2:4 +FLAGS (\Deleted)" ++ crlf);
    (bs "A003 COPY 2:4 MEETING" ++ crlf);
    (bs "A999 UID FETCH 4827313:4828442 FLAGS" ++ crlf);
    (bs "t1 CAPABILITY" ++ crlf);
    (bs "t2 ENABLE CONDSTORE X-GOOD-IDEA" ++ crlf);
    (bs "t3 CAPABILITY" ++ crlf);
    (bs "a1 ENABLE CONDSTORE" ++ crlf);
    (bs "A001 LOGIN fred blurdybloop" ++ crlf);
    (bs "A222 COPY 1:2 owatagusiam" ++ crlf);
    (bs "A223 COPY 3:200 blurdybloop" ++ crlf);
    (bs "A443 EXPUNGE" ++ crlf);
    (bs "A282 SORT (SUBJECT) UTF-8 SINCE 1-Feb-1994" ++ crlf);
    (bs "A283 SORT (SUBJECT REVERSE DATE) UTF-8 ALL" ++ crlf);
    (bs "A284 SORT (SUBJECT) US-ASCII TEXT ""not in mailbox""" ++ crlf);
    (bs "A283 THREAD ORDEREDSUBJECT UTF-8 SINCE 5-MAR-2000" ++ crlf);
    (bs "A284 THREAD ORDEREDSUBJECT US-ASCII TEXT ""gewp""" ++ crlf);
    (bs "A285 THREAD REFERENCES UTF-8 SINCE 5-MAR-2000" ++ crlf)].
Proof. replay. Qed.

(* tests/trace.rs, all lines of the traces *)
Example t111 : all (replays (decode_response (F:=default_features)) (encode_response (F:=default_features))) [
    (bs "A003 OK CREATE completed" ++ crlf);
    (bs "A004 OK CREATE completed" ++ crlf);
    (bs "* LIST () ""/"" blurdybloop" ++ crlf);
    (bs "* LIST (\Noselect) ""/"" foo" ++ crlf);
    (bs "* LIST () ""/"" foo/bar" ++ crlf);
    (bs "A682 OK LIST completed" ++ crlf);
    (bs "A683 OK DELETE completed" ++ crlf);
    (bs "A684 NO Name ""foo"" has inferior hierarchical names" ++ crlf);
    (bs "A685 OK DELETE Completed" ++ crlf);
    (bs "A686 OK LIST completed" ++ crlf);
    (bs "A687 OK DELETE Completed" ++ crlf);
    (bs "* LIST () ""."" blurdybloop" ++ crlf);
    (bs "* LIST () ""."" foo" ++ crlf);
    (bs "* LIST () ""."" foo.bar" ++ crlf);
    (bs "A82 OK LIST completed" ++ crlf);
    (bs "A83 OK DELETE completed" ++ crlf);
    (bs "A84 OK DELETE Completed" ++ crlf);
    (bs "A85 OK LIST completed" ++ crlf);
    (bs "* LIST (\Noselect) ""."" foo" ++ crlf);
    (bs "A86 OK LIST completed" ++ crlf);
    (bs "A683 OK RENAME completed" ++ crlf);
    (bs "A684 OK RENAME Completed" ++ crlf);
    (bs "* LIST () ""/"" sarasoop" ++ crlf);
    (bs "* LIST (\Noselect) ""/"" zowie" ++ crlf);
    (bs "* LIST () ""/"" zowie/bar" ++ crlf);
    (bs "A685 OK LIST completed" ++ crlf);
    (bs "* LIST () ""."" INBOX" ++ crlf);
    (bs "* LIST () ""."" INBOX.bar" ++ crlf);
    (bs "Z432 OK LIST completed" ++ crlf);
    (bs "Z433 OK RENAME completed" ++ crlf);
    (bs "* LIST () ""."" old-mail" ++ crlf);
    (bs "Z434 OK LIST completed" ++ crlf);
    (bs "A002 OK SUBSCRIBE completed" ++ crlf);
    (bs "A002 OK UNSUBSCRIBE completed" ++ crlf);
    (bs "* LIST (\Noselect) ""/"" """"" ++ crlf);
    (bs "A101 OK LIST Completed" ++ crlf);
    (bs "* LIST (\Noselect) ""."" #news." ++ crlf);
    (bs "A102 OK LIST Completed" ++ crlf);
    (bs "* LIST (\Noselect) ""/"" /" ++ crlf);
    (bs "A103 OK LIST Completed" ++ crlf);
    (bs "* LIST (\Noselect) ""/"" ~/Mail/foo" ++ crlf);
    (bs "* LIST () ""/"" ~/Mail/meetings" ++ crlf);
    (bs "A202 OK LIST completed" ++ crlf);
    (bs "* LSUB () ""."" #news.comp.mail.mime" ++ crlf);
    (bs "* LSUB () ""."" #news.comp.mail.misc" ++ crlf);
    (bs "A002 OK LSUB completed" ++ crlf);
    (bs "* LSUB (\NoSelect) ""."" #news.comp.mail" ++ crlf);
    (bs "A003 OK LSUB completed" ++ crlf);
    (bs "* STATUS blurdybloop (MESSAGES 231 UIDNEXT 44292)" ++ crlf);
    (bs "A042 OK STATUS completed" ++ crlf);
    (bs "FXXZ OK CHECK Completed" ++ crlf);
    (bs "A341 OK CLOSE completed" ++ crlf);
    (bs "* 3 EXPUNGE" ++ crlf);
    (bs "* 5 EXPUNGE" ++ crlf);
    (bs "* 8 EXPUNGE" ++ crlf);
    (bs "A202 OK EXPUNGE completed" ++ crlf);
    (bs "* SEARCH 2 84 882" ++ crlf);
    (bs "A282 OK SEARCH completed" ++ crlf);
    (bs "* SEARCH" ++ crlf);
    (bs "A283 OK SEARCH completed" ++ crlf);
    (bs "* SEARCH 43" ++ crlf);
    (bs "A284 OK SEARCH completed" ++ crlf);
    (bs "A654 OK FETCH completed" ++ crlf);
    (bs "* 2 FETCH (FLAGS (\Deleted \Seen))" ++ crlf);
    (bs "* 3 FETCH (FLAGS (\Deleted))" ++ crlf);
    (bs "* 4 FETCH (FLAGS (\Deleted \Flagged \Seen))" ++ crlf);
    (bs "A003 OK STORE completed" ++ crlf);
    (bs "A003 OK COPY completed" ++ crlf);
    (bs "* 23 FETCH (FLAGS (\Seen) UID 4827313)" ++ crlf);
    (bs "* 24 FETCH (FLAGS (\Seen) UID 4827943)" ++ crlf);
    (bs "* 25 FETCH (FLAGS (\Seen) UID 4828442)" ++ crlf);
    (bs "A999 OK UID FETCH completed" ++ crlf);
    (bs "* CAPABILITY IMAP4rev1 ID LITERAL+ ENABLE X-GOOD-IDEA" ++ crlf);
    (bs "t1 OK foo" ++ crlf);
    (bs "* ENABLED X-GOOD-IDEA" ++ crlf);
    (bs "t2 OK foo" ++ crlf);
    (bs "t3 OK foo again" ++ crlf);
    (bs "* ENABLED CONDSTORE" ++ crlf);
    (bs "a1 OK Conditional Store enabled" ++ crlf);
    (bs "* OK IMAP4rev1 server ready" ++ crlf);
    (bs "* OK [ALERT] System shutdown in 10 minutes" ++ crlf);
    (bs "A001 OK LOGIN Completed" ++ crlf);
    (bs "* NO Disk is 98% full, please delete unnecessary data" ++ crlf);
    (bs "A222 OK COPY completed" ++ crlf);
    (bs "* NO Disk is 99% full, please delete unnecessary data" ++ crlf);
    (bs "A223 NO COPY failed: disk is full" ++ crlf);
    (bs "* BAD Command line too long" ++ crlf);
    (bs "* BAD Empty command line" ++ crlf);
    (bs "* BAD Disk crash, attempting salvage to a new disk!" ++ crlf);
    (bs "* OK Salvage successful, no data lost" ++ crlf);
    (bs "A443 OK Expunge completed" ++ crlf);
    (bs "* BYE Autologout; idle for too long" ++ crlf);
    (bs "* CAPABILITY IMAP4rev1 STARTTLS AUTH=GSSAPI XPIG-LATIN" ++ crlf);
    (bs "* SEARCH 2 3 6" ++ crlf);
    (bs "* FLAGS (\Answered \Flagged \Deleted \Seen \Draft)" ++ crlf);
    (bs "* 23 EXISTS" ++ crlf);
    (bs "* 5 RECENT" ++ crlf);
    (bs "* 44 EXPUNGE" ++ crlf);
    (bs "* 23 FETCH (FLAGS (\Seen) RFC822.SIZE 44827)" ++ crlf);
    (bs "+ Ready for additional command text" ++ crlf);
    (bs "A001 OK LOGIN completed" ++ crlf);
    (bs "A044 BAD No such command as ""BLURDYBLOOP""" ++ crlf);
    (bs "* SORT 2 84 882" ++ crlf);
    (bs "A282 OK SORT completed" ++ crlf);
    (bs "* SORT 5 3 4 1 2" ++ crlf);
    (bs "A283 OK SORT completed" ++ crlf);
    (bs "* SORT" ++ crlf);
    (bs "A284 OK SORT completed" ++ crlf);
    (bs "* THREAD (166)(167)(168)(169)(172)(170)(171)(173)(174 (175)(176)(178)(181)(180))(179)(177 (183)(182)(188)(184)(185)(186)(187)(189))(190)(191)(192)(193)(194 195)(196 (197)(198))(199)(200 202)(201)(203)(204)(205)(206 207)(208)" ++ crlf);
    (bs "A283 OK THREAD completed" ++ crlf);
    (bs "* THREAD" ++ crlf);
    (bs "A284 OK THREAD completed" ++ crlf);
    (bs "* THREAD (166)(167)(168)(169)(172)((170)(179))(171)(173)((174)(175)(176)(178)(181)(180))((177)(183)(182)(188 (184)(189))(185 186)(187))(190)(191)(192)(193)((194)(195 196))(197 198)(199)(200 202)(201)(203)(204)(205 206 207)(208)" ++ crlf);
    (bs "A285 OK THREAD completed" ++ crlf)].
Proof. replay. Qed.

(* tests/trace.rs:1268-1285 *)
Example t112 : replays (decode_greeting (F:=default_features)) (encode_greeting (F:=default_features)) (bs "* PREAUTH IMAP4rev1 server logged in as Smith" ++ crlf).
Proof. replay. Qed.

(* tests/trace.rs, all lines of the traces *)
Example t113 : all (replays (decode_command (F:=all_features)) (encode_command (F:=all_features))) [
    (bs "A003 CREATE owatagusiam/" ++ crlf);
    (bs "A004 CREATE owatagusiam/blurdybloop" ++ crlf);
    (bs "A682 LIST """" *" ++ crlf);
    (bs "A683 DELETE blurdybloop" ++ crlf);
    (bs "A684 DELETE foo" ++ crlf);
    (bs "A685 DELETE foo/bar" ++ crlf);
    (bs "A686 LIST """" *" ++ crlf);
    (bs "A687 DELETE foo" ++ crlf);
    (bs "A82 LIST """" *" ++ crlf);
    (bs "A83 DELETE blurdybloop" ++ crlf);
    (bs "A84 DELETE foo" ++ crlf);
    (bs "A85 LIST """" *" ++ crlf);
    (bs "A86 LIST """" %" ++ crlf);
    (bs "A683 RENAME blurdybloop sarasoop" ++ crlf);
    (bs "A684 RENAME foo zowie" ++ crlf);
    (bs "A685 LIST """" *" ++ crlf);
    (bs "Z432 LIST """" *" ++ crlf);
    (bs "Z433 RENAME INBOX old-mail" ++ crlf);
    (bs "Z434 LIST """" *" ++ crlf);
    (bs "A002 SUBSCRIBE #news.comp.mail.mime" ++ crlf);
    (bs "A002 UNSUBSCRIBE #news.comp.mail.mime" ++ crlf);
    (bs "A101 LIST """" """"" ++ crlf);
    (bs "A102 LIST #news.comp.mail.misc """"" ++ crlf);
    (bs "A103 LIST /usr/staff/jones """"" ++ crlf);
    (bs "A202 LIST ~/Mail/ %" ++ crlf);
    (bs "A002 LSUB ""news."" ""comp.mail.*""" ++ crlf);
    (bs "A003 LSUB ""news."" ""comp.%""" ++ crlf);
    (bs "A042 STATUS blurdybloop (UIDNEXT MESSAGES)" ++ crlf);
    (bs "FXXZ CHECK" ++ crlf);
    (bs "A341 CLOSE" ++ crlf);
    (bs "A202 EXPUNGE" ++ crlf);
    (bs "A282 SEARCH FLAGGED SINCE 1-Feb-1994 NOT FROM ""Smith""" ++ crlf);
    (bs "A283 SEARCH TEXT ""string not in mailbox""" ++ crlf);
    (bs "A654 FETCH 2:4 (FLAGS BODY[HEADER.FIELDS (DATE FROM)])" ++ crlf);
    (bs "A003 STORE 2:4 +FLAGS (\Deleted)" ++ crlf);
    (bs "A003 COPY 2:4 MEETING" ++ crlf);
    (bs "A999 UID FETCH 4827313:4828442 FLAGS" ++ crlf);
    (bs "t1 CAPABILITY" ++ crlf);
    (bs "t2 ENABLE CONDSTORE X-GOOD-IDEA" ++ crlf);
    (bs "t3 CAPABILITY" ++ crlf);
    (bs "a1 ENABLE CONDSTORE" ++ crlf);
    (bs "A001 LOGIN fred blurdybloop" ++ crlf);
    (bs "A222 COPY 1:2 owatagusiam" ++ crlf);
    (bs "A223 COPY 3:200 blurdybloop" ++ crlf);
    (bs "A443 EXPUNGE" ++ crlf);
    (bs "A282 SORT (SUBJECT) UTF-8 SINCE 1-Feb-1994" ++ crlf);
    (bs "A283 SORT (SUBJECT REVERSE DATE) UTF-8 ALL" ++ crlf);
    (bs "A284 SORT (SUBJECT) US-ASCII TEXT ""not in mailbox""" ++ crlf);
    (bs "A283 THREAD ORDEREDSUBJECT UTF-8 SINCE 5-MAR-2000" ++ crlf);
    (bs "A284 THREAD ORDEREDSUBJECT US-ASCII TEXT ""gewp""" ++ crlf);
    (bs "A285 THREAD REFERENCES UTF-8 SINCE 5-MAR-2000" ++ crlf);
    (bs "a001 CAPABILITY" ++ crlf);
    (bs "a002 STARTTLS" ++ crlf);
    (bs "a003 CAPABILITY" ++ crlf);
    (bs "a004 LOGIN joe password" ++ crlf)].
Proof. replay. Qed.

(* tests/trace.rs, all lines of the traces *)
Example t114 : all (replays (decode_response (F:=all_features)) (encode_response (F:=all_features))) [
    (bs "A003 OK CREATE completed" ++ crlf);
    (bs "A004 OK CREATE completed" ++ crlf);
    (bs "* LIST () ""/"" blurdybloop" ++ crlf);
    (bs "* LIST (\Noselect) ""/"" foo" ++ crlf);
    (bs "* LIST () ""/"" foo/bar" ++ crlf);
    (bs "A682 OK LIST completed" ++ crlf);
    (bs "A683 OK DELETE completed" ++ crlf);
    (bs "A684 NO Name ""foo"" has inferior hierarchical names" ++ crlf);
    (bs "A685 OK DELETE Completed" ++ crlf);
    (bs "A686 OK LIST completed" ++ crlf);
    (bs "A687 OK DELETE Completed" ++ crlf);
    (bs "* LIST () ""."" blurdybloop" ++ crlf);
    (bs "* LIST () ""."" foo" ++ crlf);
    (bs "* LIST () ""."" foo.bar" ++ crlf);
    (bs "A82 OK LIST completed" ++ crlf);
    (bs "A83 OK DELETE completed" ++ crlf);
    (bs "A84 OK DELETE Completed" ++ crlf);
    (bs "A85 OK LIST completed" ++ crlf);
    (bs "* LIST (\Noselect) ""."" foo" ++ crlf);
    (bs "A86 OK LIST completed" ++ crlf);
    (bs "A683 OK RENAME completed" ++ crlf);
    (bs "A684 OK RENAME Completed" ++ crlf);
    (bs "* LIST () ""/"" sarasoop" ++ crlf);
    (bs "* LIST (\Noselect) ""/"" zowie" ++ crlf);
    (bs "* LIST () ""/"" zowie/bar" ++ crlf);
    (bs "A685 OK LIST completed" ++ crlf);
    (bs "* LIST () ""."" INBOX" ++ crlf);
    (bs "* LIST () ""."" INBOX.bar" ++ crlf);
    (bs "Z432 OK LIST completed" ++ crlf);
    (bs "Z433 OK RENAME completed" ++ crlf);
    (bs "* LIST () ""."" old-mail" ++ crlf);
    (bs "Z434 OK LIST completed" ++ crlf);
    (bs "A002 OK SUBSCRIBE completed" ++ crlf);
    (bs "A002 OK UNSUBSCRIBE completed" ++ crlf);
    (bs "* LIST (\Noselect) ""/"" """"" ++ crlf);
    (bs "A101 OK LIST Completed" ++ crlf);
    (bs "* LIST (\Noselect) ""."" #news." ++ crlf);
    (bs "A102 OK LIST Completed" ++ crlf);
    (bs "* LIST (\Noselect) ""/"" /" ++ crlf);
    (bs "A103 OK LIST Completed" ++ crlf);
    (bs "* LIST (\Noselect) ""/"" ~/Mail/foo" ++ crlf);
    (bs "* LIST () ""/"" ~/Mail/meetings" ++ crlf);
    (bs "A202 OK LIST completed" ++ crlf);
    (bs "* LSUB () ""."" #news.comp.mail.mime" ++ crlf);
    (bs "* LSUB () ""."" #news.comp.mail.misc" ++ crlf);
    (bs "A002 OK LSUB completed" ++ crlf);
    (bs "* LSUB (\NoSelect) ""."" #news.comp.mail" ++ crlf);
    (bs "A003 OK LSUB completed" ++ crlf);
    (bs "* STATUS blurdybloop (MESSAGES 231 UIDNEXT 44292)" ++ crlf);
    (bs "A042 OK STATUS completed" ++ crlf);
    (bs "FXXZ OK CHECK Completed" ++ crlf);
    (bs "A341 OK CLOSE completed" ++ crlf);
    (bs "* 3 EXPUNGE" ++ crlf);
    (bs "* 5 EXPUNGE" ++ crlf);
    (bs "* 8 EXPUNGE" ++ crlf);
    (bs "A202 OK EXPUNGE completed" ++ crlf);
    (bs "* SEARCH 2 84 882" ++ crlf);
    (bs "A282 OK SEARCH completed" ++ crlf);
    (bs "* SEARCH" ++ crlf);
    (bs "A283 OK SEARCH completed" ++ crlf);
    (bs "* SEARCH 43" ++ crlf);
    (bs "A284 OK SEARCH completed" ++ crlf);
    (bs "A654 OK FETCH completed" ++ crlf);
    (bs "* 2 FETCH (FLAGS (\Deleted \Seen))" ++ crlf);
    (bs "* 3 FETCH (FLAGS (\Deleted))" ++ crlf);
    (bs "* 4 FETCH (FLAGS (\Deleted \Flagged \Seen))" ++ crlf);
    (bs "A003 OK STORE completed" ++ crlf);
    (bs "A003 OK COPY completed" ++ crlf);
    (bs "* 23 FETCH (FLAGS (\Seen) UID 4827313)" ++ crlf);
    (bs "* 24 FETCH (FLAGS (\Seen) UID 4827943)" ++ crlf);
    (bs "* 25 FETCH (FLAGS (\Seen) UID 4828442)" ++ crlf);
    (bs "A999 OK UID FETCH completed" ++ crlf);
    (bs "* CAPABILITY IMAP4rev1 ID LITERAL+ ENABLE X-GOOD-IDEA" ++ crlf);
    (bs "t1 OK foo" ++ crlf);
    (bs "* ENABLED X-GOOD-IDEA" ++ crlf);
    (bs "t2 OK foo" ++ crlf);
    (bs "t3 OK foo again" ++ crlf);
    (bs "* ENABLED CONDSTORE" ++ crlf);
    (bs "a1 OK Conditional Store enabled" ++ crlf);
    (bs "* OK IMAP4rev1 server ready" ++ crlf);
    (bs "* OK [ALERT] System shutdown in 10 minutes" ++ crlf);
    (bs "A001 OK LOGIN Completed" ++ crlf);
    (bs "* NO Disk is 98% full, please delete unnecessary data" ++ crlf);
    (bs "A222 OK COPY completed" ++ crlf);
    (bs "* NO Disk is 99% full, please delete unnecessary data" ++ crlf);
    (bs "A223 NO COPY failed: disk is full" ++ crlf);
    (bs "* BAD Command line too long" ++ crlf);
    (bs "* BAD Empty command line" ++ crlf);
    (bs "* BAD Disk crash, attempting salvage to a new disk!" ++ crlf);
    (bs "* OK Salvage successful, no data lost" ++ crlf);
    (bs "A443 OK Expunge completed" ++ crlf);
    (bs "* BYE Autologout; idle for too long" ++ crlf);
    (bs "* CAPABILITY IMAP4rev1 STARTTLS AUTH=GSSAPI XPIG-LATIN" ++ crlf);
    (bs "* SEARCH 2 3 6" ++ crlf);
    (bs "* FLAGS (\Answered \Flagged \Deleted \Seen \Draft)" ++ crlf);
    (bs "* 23 EXISTS" ++ crlf);
    (bs "* 5 RECENT" ++ crlf);
    (bs "* 44 EXPUNGE" ++ crlf);
    (bs "* 23 FETCH (FLAGS (\Seen) RFC822.SIZE 44827)" ++ crlf);
    (bs "+ Ready for additional command text" ++ crlf);
    (bs "A001 OK LOGIN completed" ++ crlf);
    (bs "A044 BAD No such command as ""BLURDYBLOOP""" ++ crlf);
    (bs "* SORT 2 84 882" ++ crlf);
    (bs "A282 OK SORT completed" ++ crlf);
    (bs "* SORT 5 3 4 1 2" ++ crlf);
    (bs "A283 OK SORT completed" ++ crlf);
    (bs "* SORT" ++ crlf);
    (bs "A284 OK SORT completed" ++ crlf);
    (bs "* THREAD (166)(167)(168)(169)(172)(170)(171)(173)(174 (175)(176)(178)(181)(180))(179)(177 (183)(182)(188)(184)(185)(186)(187)(189))(190)(191)(192)(193)(194 195)(196 (197)(198))(199)(200 202)(201)(203)(204)(205)(206 207)(208)" ++ crlf);
    (bs "A283 OK THREAD completed" ++ crlf);
    (bs "* THREAD" ++ crlf);
    (bs "A284 OK THREAD completed" ++ crlf);
    (bs "* THREAD (166)(167)(168)(169)(172)((170)(179))(171)(173)((174)(175)(176)(178)(181)(180))((177)(183)(182)(188 (184)(189))(185 186)(187))(190)(191)(192)(193)((194)(195 196))(197 198)(199)(200 202)(201)(203)(204)(205 206 207)(208)" ++ crlf);
    (bs "A285 OK THREAD completed" ++ crlf);
    (bs "* CAPABILITY IMAP4rev1 STARTTLS LOGINDISABLED" ++ crlf);
    (bs "a001 OK CAPABILITY completed" ++ crlf);
    (bs "a002 OK Begin TLS negotiation now" ++ crlf);
    (bs "* CAPABILITY IMAP4rev1 AUTH=PLAIN" ++ crlf);
    (bs "a003 OK CAPABILITY completed" ++ crlf);
    (bs "a004 OK LOGIN completed" ++ crlf)].
Proof. replay. Qed.

(* tests/trace.rs:1268-1285 *)
Example t115 : replays (decode_greeting (F:=all_features)) (encode_greeting (F:=all_features)) (bs "* PREAUTH IMAP4rev1 server logged in as Smith" ++ crlf).
Proof. replay. Qed.

(** ** imap-codec/src/fragmentizer.rs *)

(** What the tests observe after each [progress]: the fragment, its bytes, the bytes of the
    message, and the flags. *)
Definition obs (s : fragmentizer) : option fragment_info * bytes * bytes * bool * bool * bool * fragmentizer :=
  let (s', f) := progress s in
  (f, match f with Some i => fragment_bytes s' i | None => [] end, message_bytes s',
   is_message_complete s', exceeded s', poisoned s', s').
Fixpoint run (n : nat) (s : fragmentizer) : list (option fragment_info * bytes * bytes * bool * bool * bool) :=
  match n with
  | O => []
  | S n => let '(f, b, m, c, e, p, s') := obs s in (f, b, m, c, e, p) :: run n s'
  end.
Definition feed (max : option N) (l : list bytes) : fragmentizer := fold_left enqueue l (frag_new max).
Definition line (a b : nat) (ann : option announcement) (e : line_ending) := Some (FLine a b ann e).
Definition lit (a b : nat) := Some (FLiteral a b).

(* fragmentizer_progress_nothing *)
Example t116 : run 1 (feed None [(bs "")]) =
  [
    (None, (bs ""), (bs ""), false, false, false)].
Proof. replay. Qed.

(* fragmentizer_progress_single_message *)
Example t117 : run 2 (feed None [(bs "* OK ..." ++ crlf)]) =
  [
    (line 0 10 None CrLf, (bs "* OK ..." ++ crlf), (bs "* OK ..." ++ crlf), true, false, false);
    (None, (bs ""), (bs ""), false, false, false)].
Proof. replay. Qed.

(* fragmentizer_progress_multiple_messages *)
Example t118 : run 3 (feed None [(bs "A1 OK ..." ++ crlf); (bs "A2 BAD ..." ++ crlf)]) =
  [
    (line 0 11 None CrLf, (bs "A1 OK ..." ++ crlf), (bs "A1 OK ..." ++ crlf), true, false, false);
    (line 0 12 None CrLf, (bs "A2 BAD ..." ++ crlf), (bs "A2 BAD ..." ++ crlf), true, false, false);
    (None, (bs ""), (bs ""), false, false, false)].
Proof. replay. Qed.

(* fragmentizer_progress_multiple_messages_with_lf *)
Example t119 : run 5 (feed None [(bs "A1 NOOP" ++ ["010"%byte]); (bs "A2 LOGIN {5}" ++ ["010"%byte]); (bs "ABCDE"); (bs " EFGIJ" ++ ["010"%byte])]) =
  [
    (line 0 8 None Lf, (bs "A1 NOOP" ++ ["010"%byte]), (bs "A1 NOOP" ++ ["010"%byte]), true, false, false);
    (line 0 13 (Some (mkAnn Sync 5)) Lf, (bs "A2 LOGIN {5}" ++ ["010"%byte]), (bs "A2 LOGIN {5}" ++ ["010"%byte]), false, false, false);
    (lit 13 18, (bs "ABCDE"), (bs "A2 LOGIN {5}" ++ ["010"%byte] ++ bs "ABCDE"), false, false, false);
    (line 18 25 None Lf, (bs " EFGIJ" ++ ["010"%byte]), (bs "A2 LOGIN {5}" ++ ["010"%byte] ++ bs "ABCDE EFGIJ" ++ ["010"%byte]), true, false, false);
    (None, (bs ""), (bs ""), false, false, false)].
Proof. replay. Qed.

(* fragmentizer_progress_message_with_multiple_literals *)
Example t120 : run 6 (feed None [(bs "A1 LOGIN {5}" ++ crlf); (bs "ABCDE"); (bs " {5}" ++ crlf); (bs "FGHIJ"); crlf]) =
  [
    (line 0 14 (Some (mkAnn Sync 5)) CrLf, (bs "A1 LOGIN {5}" ++ crlf), (bs "A1 LOGIN {5}" ++ crlf), false, false, false);
    (lit 14 19, (bs "ABCDE"), (bs "A1 LOGIN {5}" ++ crlf ++ bs "ABCDE"), false, false, false);
    (line 19 25 (Some (mkAnn Sync 5)) CrLf, (bs " {5}" ++ crlf), (bs "A1 LOGIN {5}" ++ crlf ++ bs "ABCDE {5}" ++ crlf), false, false, false);
    (lit 25 30, (bs "FGHIJ"), (bs "A1 LOGIN {5}" ++ crlf ++ bs "ABCDE {5}" ++ crlf ++ bs "FGHIJ"), false, false, false);
    (line 30 32 None CrLf, crlf, (bs "A1 LOGIN {5}" ++ crlf ++ bs "ABCDE {5}" ++ crlf ++ bs "FGHIJ" ++ crlf), true, false, false);
    (None, (bs ""), (bs ""), false, false, false)].
Proof. replay. Qed.

(* fragmentizer_progress_multiple_messages_longer_than_max_size *)
Example t121 : run 7 (feed (Some 17%N) [(bs "A1 NOOP" ++ crlf); (bs "A2 LOGIN ABCDE EFGIJ" ++ crlf); (bs "A3 LOGIN {5}" ++ crlf); (bs "ABCDE"); (bs " EFGIJ" ++ crlf); (bs "A4 LOGIN A B" ++ crlf)]) =
  [
    (line 0 9 None CrLf, (bs "A1 NOOP" ++ crlf), (bs "A1 NOOP" ++ crlf), true, false, false);
    (line 0 22 None CrLf, (bs "A2 LOGIN ABCDE EF"), (bs "A2 LOGIN ABCDE EF"), true, true, false);
    (line 0 14 (Some (mkAnn Sync 5)) CrLf, (bs "A3 LOGIN {5}" ++ crlf), (bs "A3 LOGIN {5}" ++ crlf), false, false, false);
    (lit 14 19, (bs "ABC"), (bs "A3 LOGIN {5}" ++ crlf ++ bs "ABC"), false, true, false);
    (line 19 27 None CrLf, (bs ""), (bs "A3 LOGIN {5}" ++ crlf ++ bs "ABC"), true, true, false);
    (line 0 14 None CrLf, (bs "A4 LOGIN A B" ++ crlf), (bs "A4 LOGIN A B" ++ crlf), true, false, false);
    (None, (bs ""), (bs ""), false, false, false)].
Proof. replay. Qed.

(* fragmentizer_progress_messages_with_zero_max_size *)
Example t122 : run 6 (feed (Some 0%N) [(bs "A1 NOOP" ++ crlf); (bs "A2 LOGIN ABCDE EFGIJ" ++ crlf); (bs "A3 LOGIN {5}" ++ crlf); (bs "ABCDE"); (bs " EFGIJ" ++ crlf)]) =
  [
    (line 0 9 None CrLf, (bs ""), (bs ""), true, true, false);
    (line 0 22 None CrLf, (bs ""), (bs ""), true, true, false);
    (line 0 14 (Some (mkAnn Sync 5)) CrLf, (bs ""), (bs ""), false, true, false);
    (lit 14 19, (bs ""), (bs ""), false, true, false);
    (line 19 27 None CrLf, (bs ""), (bs ""), true, true, false);
    (None, (bs ""), (bs ""), false, false, false)].
Proof. replay. Qed.

(* fragmentizer_progress_message_and_skip_after_literal_announcement *)
Example t123 : let s := skip_message (fst (progress (feed None [(bs "A1 LOGIN {5}" ++ crlf); (bs "A2 NOOP" ++ crlf)]))) in
  run 2 s = [(line 0 9 None CrLf, (bs "A2 NOOP" ++ crlf), (bs "A2 NOOP" ++ crlf), true, false, false); (None, [], [], false, false, false)].
Proof. replay. Qed.

(* fragmentizer_progress_message_byte_by_byte *)
Example t124 : let step s b := enqueue (fst (progress s)) [b] in
  let s := fold_left step ((bs "A1 LOGIN {5}" ++ crlf)) (frag_new None) in
  let '(f, b, _, c, _, _, s1) := obs s in
  let s := fold_left step (bs "ABCDE") s1 in
  let '(f2, b2, _, c2, _, _, s2) := obs s in
  let s := fold_left step ((bs " FGHIJ" ++ crlf)) s2 in
  let '(f3, b3, _, c3, _, _, s3) := obs s in
  (f, b, c) = (line 0 14 (Some (mkAnn Sync 5)) CrLf, (bs "A1 LOGIN {5}" ++ crlf), false) /\ (f2, b2, c2) = (lit 14 19, bs "ABCDE", false) /\
  (f3, b3, c3) = (line 19 27 None CrLf, (bs " FGHIJ" ++ crlf), true) /\ snd (progress s3) = None.
Proof. replay. Qed.

(* fragmentizer_decode_message *)
Example t125 : let s := fst (progress (feed (Some 10%N) [(bs "A1 NOOP" ++ crlf); (bs "A2 LOGIN ABCDE EFGIJ" ++ crlf)])) in
  let s2 := fst (progress s) in
  decode_message (decode_command (F:=default_features)) s = DMOk (mkCommand (bs "A1") CNoop) /\
  decode_message (decode_response (F:=default_features)) s = DMFailure RspFailed /\
  decode_message (decode_response (F:=default_features)) s2 = DMTooLong (bs "A2 LOGIN A").
Proof. replay. Qed.

(* fragmentizer_poison_message *)
Example t126 : let s := poison_message (feed None [(bs "A1 NOOP" ++ crlf); (bs "A2 LOGIN {5}" ++ crlf); bs "ABCDE"; (bs " EFGIJ" ++ crlf)]) in
  let '(f1, b1, m1, c1, _, p1, s1) := obs s in
  let '(f2, b2, m2, c2, _, p2, s2) := obs s1 in
  let '(f3, b3, m3, c3, _, p3, s3) := obs s2 in
  let '(f4, b4, m4, c4, _, p4, s4) := obs (poison_message s3) in
  let '(f5, b5, m5, c5, _, p5, s5) := obs s4 in
  poisoned s = true /\
  (f1, b1, m1, c1, p1) = (line 0 9 None CrLf, (bs "A1 NOOP" ++ crlf), (bs "A1 NOOP" ++ crlf), true, true) /\
  decode_message (decode_command (F:=default_features)) s1 = DMPoisoned (bs "A1 NOOP" ++ crlf) /\
  (f2, b2, m2, c2, p2) = (line 0 14 (Some (mkAnn Sync 5)) CrLf, (bs "A2 LOGIN {5}" ++ crlf), (bs "A2 LOGIN {5}" ++ crlf), false, false) /\
  (f3, b3, m3, c3, p3) = (lit 14 19, bs "ABCDE", (bs "A2 LOGIN {5}" ++ crlf ++ bs "ABCDE"), false, false) /\
  (f4, b4, m4, c4, p4) = (line 19 27 None CrLf, (bs " EFGIJ" ++ crlf), (bs "A2 LOGIN {5}" ++ crlf ++ bs "ABCDE EFGIJ" ++ crlf), true, true) /\
  decode_message (decode_command (F:=default_features)) s4 = DMPoisoned (bs "A2 LOGIN {5}" ++ crlf ++ bs "ABCDE EFGIJ" ++ crlf) /\
  (f5, b5, m5, c5, p5) = (None, [], [], false, false).
Proof. replay. Qed.

(* fragmentizer_poison_too_long_message *)
Example t127 : let s := poison_message (feed (Some 5%N) [(bs "A1 NOOP" ++ crlf)]) in
  let '(f1, b1, m1, c1, e1, p1, s1) := obs s in
  let '(f2, b2, m2, c2, e2, p2, s2) := obs s1 in
  (f1, b1, m1, c1, e1, p1) = (line 0 9 None CrLf, bs "A1 NO", bs "A1 NO", true, true, true) /\
  decode_message (decode_command (F:=default_features)) s1 = DMTooLong (bs "A1 NO") /\
  (f2, b2, m2, c2, e2, p2) = (None, [], [], false, false, false).
Proof. replay. Qed.

(* fragmentizer.rs, [assert_is_line]: bytes, length of the line, announcement, ending *)
Definition is_line (t : bytes * nat * option announcement * line_ending) : Prop :=
  let '(i, n, ann, e) := t in
  let '(_, k, f) := parse_fragment (PLine (new_line_parser 0)) i in
  k = n /\ f = Some (FLine 0 n ann e).
Definition not_line (i : bytes) : Prop :=
  let '(_, k, f) := parse_fragment (PLine (new_line_parser 0)) i in k = length i /\ f = None.

(* parse_line_examples, parse_line_corner_case *)
Example t128 : all not_line [[]; bs "foo"] /\ all is_line [
    ((["010"%byte]), 1%nat, None, Lf);
    (crlf, 2%nat, None, CrLf);
    ((["010"%byte] ++ ["013"%byte]), 1%nat, None, Lf);
    ((bs "foo" ++ ["010"%byte]), 4%nat, None, Lf);
    ((bs "foo" ++ crlf), 5%nat, None, CrLf);
    ((bs "foo" ++ ["010"%byte] ++ ["013"%byte]), 4%nat, None, Lf);
    ((bs "foo" ++ ["010"%byte] ++ bs "bar" ++ ["010"%byte]), 4%nat, None, Lf);
    ((bs "foo" ++ crlf ++ bs "bar" ++ crlf), 5%nat, None, CrLf);
    ((crlf ++ bs "foo" ++ crlf), 2%nat, None, CrLf);
    ((bs "{1}" ++ crlf), 5%nat, (Some (mkAnn Sync 1)), CrLf);
    ((bs "{1}" ++ ["010"%byte]), 4%nat, (Some (mkAnn Sync 1)), Lf);
    ((bs "foo {1}" ++ crlf), 9%nat, (Some (mkAnn Sync 1)), CrLf);
    ((bs "foo {2} {1}" ++ crlf), 13%nat, (Some (mkAnn Sync 1)), CrLf);
    ((bs "foo {1} " ++ crlf), 10%nat, None, CrLf);
    ((bs "foo " ++ ["010"%byte] ++ bs " {1}" ++ crlf), 5%nat, None, Lf);
    ((bs "foo {1} foo" ++ crlf), 13%nat, None, CrLf);
    ((bs "foo {1" ++ crlf), 8%nat, None, CrLf);
    ((bs "foo 1}" ++ crlf), 8%nat, None, CrLf);
    ((bs "foo { 1}" ++ crlf), 10%nat, None, CrLf);
    ((bs "foo {{1}" ++ crlf), 10%nat, (Some (mkAnn Sync 1)), CrLf);
    ((bs "foo {42}" ++ crlf), 10%nat, (Some (mkAnn Sync 42)), CrLf);
    ((bs "foo {42+}" ++ crlf), 11%nat, (Some (mkAnn NonSync 42)), CrLf);
    ((bs "foo +{42}" ++ crlf), 11%nat, (Some (mkAnn Sync 42)), CrLf);
    ((bs "foo {+}" ++ crlf), 9%nat, None, CrLf);
    ((bs "foo {42++}" ++ crlf), 12%nat, None, CrLf);
    ((bs "foo {+42+}" ++ crlf), 12%nat, None, CrLf);
    ((bs "foo {+42}" ++ crlf), 11%nat, None, CrLf);
    ((bs "foo {42}+" ++ crlf), 11%nat, None, CrLf);
    ((bs "foo {-42}" ++ crlf), 11%nat, None, CrLf);
    ((bs "foo {42-}" ++ crlf), 11%nat, None, CrLf);
    ((bs "foo {4294967295}" ++ crlf), 18%nat, (Some (mkAnn Sync 4294967295)), CrLf);
    ((bs "foo {4294967296}" ++ crlf), 18%nat, None, CrLf);
    ((bs "* OK {1}" ++ crlf), 10%nat, (Some (mkAnn Sync 1)), CrLf)].
Proof. replay. Qed.

(* parse_tag_examples *)
Example t129 : all (fun t => parse_tag (fst t) = snd t) [
    ((bs "1 NOOP" ++ crlf), Some (bs "1"));
    ((bs "12 NOOP" ++ crlf), Some (bs "12"));
    ((bs "123 NOOP" ++ crlf), Some (bs "123"));
    ((bs "1234 NOOP" ++ crlf), Some (bs "1234"));
    ((bs "12345 NOOP" ++ crlf), Some (bs "12345"));
    ((bs "A1 NOOP" ++ crlf), Some (bs "A1"));
    ((bs "A1 NOOP"), Some (bs "A1"));
    ((bs "A1 "), Some (bs "A1"));
    ((bs "A1  "), Some (bs "A1"));
    ((bs "A1 " ++ crlf), Some (bs "A1"));
    ((bs "A1 " ++ ["010"%byte]), Some (bs "A1"));
    ((bs "A1"), None);
    ((bs "A1" ++ crlf), None);
    ((bs "A1" ++ ["010"%byte]), None);
    ((bs " " ++ crlf), None);
    (crlf, None);
    ((bs ""), None);
    ((bs " A1 NOOP" ++ crlf), None)].
Proof. replay. Qed.
