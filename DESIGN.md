# A Rocq model of imap-codec / imap-types

(Plan written before the proofs; sections marked "status" are updated as work proceeds.)

## 1. Overall shape of the model

* Bytes are `Coq.Init.Byte.byte`, byte strings are `list byte`. Rust `&str`/`String`
  values are modelled by their UTF-8 bytes.
* Cargo features are a record of booleans (`features`), an argument of the model, so theorems
  hold for every feature combination unless a feature is named in the statement.
  `default_features` is the crate's default set.
* A nom parser is a function `bytes -> res A` where
  `res A = ROk rest a | RInc | RErr | RFail f | RPanic`:
  `Incomplete`, `Err::Error` (backtrack), `Err::Failure` (with the `LiteralError` kind or any other
  kind), and a panic / exhausted fuel. Error kinds other than literals are erased (no caller looks
  at them). The nom 7 *streaming* combinators are re-stated in `Nom.v`.
* Encoders are functions from a message to a list of write operations (`B byte` or `Lit ..`),
  interpreted by a model of `EncodeContext` that yields the encoder's fragments.
* Loops over the input use fuel that provably suffices; running out is `RPanic`, and theorem C20 shows
  `RPanic` is unreachable.

## 2. Proof method

* *Streaming* (C15-C18, C20): one invariant `good p` on parsers (remainder is a suffix, success and failure are stable under
  input extension, no panic, literal failures only at an announcement), closed
  under every combinator, then proved for every parser.
* *Round trip* (C09-C13, C17, C19, C38, C39): relation `P p ops v follow` ("on the bytes of `ops` followed by any byte
  in `follow`, `p` returns `v`; cut before a literal's data it reports that literal"), closed under the
  combinators, proved by structural induction on messages.
* *Decoder soundness* (C14): a postcondition `yields p Q` closed under the combinators.
* *Fragmentizer* (C01-C08, C23, C24): invariants by induction over operation histories, refinement of the line
  scanner against a declarative grammar of announcements.
* *Sequence sets* (C28-C30): set semantics, induction over the list of ranges.
* *Pure functions* (C25-C27, C31-C37): direct induction.

That hypotheses are met is shown by `Example`s in the `*Props.v` files, and, theorem by theorem, in
AppliedMsg.v (theorems about messages) and AppliedBuild.v (theorems about values and constructors),
where each `<theorem>_applies` is the theorem applied to concrete data.

## 3. Plan per property

| id | what is modelled | how it is proved |
|----|------------------|------------------|
| C01 | `fragmentizer.rs`, whole non-test code, as a state machine over `enqueue_bytes`, `progress`, `skip_message`, `poison_message` | two drained runs over the same stream are each related to the declarative cut of the stream (FragSpec.v), which is unique |
| C02 | same | invariant over operation lists: emitted, buffered and unparsed bytes make up the stream |
| C03 | same; lines and announcements are specified in FragSpec.v | refinement of the backwards line scanner against the grammar of announcements |
| C04 | same, with `max_message_size` | invariant: the message buffer is a prefix of the message, of the allowed length |
| C05 | same | simulation between two runs that differ in limit and poisoning |
| C06 | `decode_message` for an arbitrary decoder | case analysis, with the invariant of C04 for the buffered bytes |
| C07 | `skip_message`, `poison_message` | the state after a skip or at a message end equals a fresh one up to the unparsed bytes |
| C08 | `decode_tag` | direct, plus encoder of commands starts with tag and space |
| C09 | all encoders of `codec/encode.rs` and parsers for commands | relation `P`, structural induction |
| C10 | the same for responses | relation `P`, structural induction; `other_read` (OtherCode.v) says which unknown codes are read back |
| C11 | the same for greetings | relation `P` |
| C12 | the same for authenticate data and IDLE done | relation `P`, base64 (C33) |
| C13 | same | C14 plus C09-C12; for responses the exact scope (`C13_response_iff`): a FETCH response with a MODSEQ item is always rejected when it is read back |
| C14 | all parsers, type validators of imap-types | postcondition closed under combinators |
| C15, C16, C18, C20 | all parsers | `good` closed under combinators |
| C17 | | corollary of round trip and stability |
| C19 | | second half of relation `P` |
| C21 | recursive parsers | depth bound by induction on the limit; refuted for message/rfc822 bodies, where the limit is reset; for these a bound by the length of the input, from the grammar (C44), shown to be attained (C45) |
| C22 | `EncodeContext` | induction over write operations |
| C23, C24 | encoder + fragmentizer + decoder | scanner state invariant over encoder output, then C09 |
| C25 | `escape_quoted`, `unescape_quoted` of `utils.rs` | induction on the string |
| C26 | validators and conversions of `core.rs` | against the ABNF classes of ValueSpec.v; all 256 bytes by computation, then induction on strings |
| C27 | `mailbox.rs` conversions, the parser of mailboxes | letter-case lemmas; for decoding, each of the three spellings of an astring |
| C28 | `iter`, `iter_naive` of `sequence.rs` | set semantics (SeqSpec.v), invariant of the iterator |
| C29 | `normalize`, hash order as an argument | set semantics; false above the largest message number and next to 2^32, where the exact behaviour is proved (SeqLimitProps.v) |
| C30 | `TryFrom` conversions from ranges and text | set semantics; every range and text is classified (SeqFromProps.v) |
| C31 | `CommandContinuationRequest` | C10 restricted |
| C32 | conversions from atoms | finite case analysis over keyword tables |
| C33 | base64 standard alphabet with canonical padding | bit arithmetic |
| C34 | dates, times | arithmetic on digits |
| C35 | number parsers; `NumberSpec.v`, the numbers of each message type | induction on digits; every grammar rule shows the numbers of its value |
| C36 | all parsers on inputs that differ in letter case | every parser commutes with lower-casing (CaseFacts.v, CaseParse.v); the spelling of a command name is never visible in the result (CaseName.v) |
| C37 | `TagGenerator` with the global atomic counter | invariant over interleavings |
| C38, C39 | encoder | corollaries |
| C40, C42, C43 | constructors, names, printing | direct, C09 |
| C41 | the server loop of `examples/server.rs`, a client that follows the documentation of `Encoder`, and a network that delivers bytes in any chunks | invariant over all interleavings (what the server will do with the bytes under way), a measure for termination |
| C44 | `Grammar.v`, a grammar written from the RFCs, independent of the parsers | every parser is sound for its rule, closed under combinators |
| C45 | same | every rule is read by its parser and refused by the earlier alternatives |
| C46 | `Secret`, derived and hand-written `Debug` of everything that holds a secret | non-interference: equal output for values that differ only in secrets |
| C49 | the constructors of responses (`Ctors.v`) | direct, C10, C11 |
| C47 | what the derived and hand-written `Serialize`/`Deserialize` of the message types tell a self-describing format: a tree of maps, sequences and leaves | type by type: reading inverts writing; combinator lemmas, induction on the height of the tree for types that contain themselves |
| C48 | same | type by type: every accepted tree gives a valid value |
| C50 | the generators of `arbitrary.rs` and the derived ones as relations from "some random bytes" to a value, a refusal or a panic; the fuzz targets as relations to passed/skipped/panicked | generator by generator (rules for bind, loops, choices), then C09-C13, C20, C03 |
| C51 | the loop of `examples/client.rs` | the loop is a function of what the fragmentizer shows; then C23, C10, C11 |
| C52 | `Display for Thread` with its stack of iterators; `Display` and conversions of the names | induction over threads, for any stack below; tables of names |
| C53 | the size of a message (SizeSpec.v), the decoders, the fragmentizer | every rule of the grammar (Grammar.v) makes a value that fits in its text, then C44 and C06 |
| C54 | the generators of arbitrary messages (Arb.v), what they leave out (ArbSpec.v) | rules for what a generator can make, for each combinator, then induction on depth (ArbCover.v); the converse in the same way (ArbBound.v). Relative to the primitives of the crate `arbitrary` reaching their whole range |
| C55 | the fragmentizer with a counter of steps (FragCost.v), the receiving loop with every decoder | counting changes nothing; amortised: each byte brings credit for its scan, its copy and its share of the decoding of its message |
| C56 | all parsers with a counter of steps (CostNom.v to CostResp.v) | counting changes nothing (CostErase.v); a parser that succeeds costs `a` per byte consumed and `b`, a parser that fails at most `b` after a bounded prefix or a prefix that the next alternative shares: `cst p S T` in CostFacts.v. The hard case are the three alternatives of a body part (CostLin5.v) |
| C57 | the decoders and the fragmentizer of C01 and C09, nothing new | every parser consumes a `calm` text (SyncFacts.v: quoted strings, literals and plain bytes cannot end a message) and is incomplete only on the beginning of one: `tidy p` for each of the 168 parsers (SyncTidy.v); the last step of a command, response or greeting reads the line ending (SyncResp.v). The stream side is in SyncStream.v |
| C58 | nothing new; the reader (a buffer and a decoder chosen by what was read) is in ReaderSpec.v | stability (C15), finality of failures (C16), no panic (C20) and "a message has at least one byte" give that draining the buffer commutes with appending to it; ReaderProps.v |
| C59 | nothing new | every alternative of `p_command_body` and of the data responses begins with one of a list of words (`leads`) and fails without waiting on input that begins with a word of another list (`strict`), KindFacts.v; authenticate data by its characters (base64 has neither SP nor `*`) |
| C60 | nothing new: every definition takes the feature set as an argument | the grammar of C44/C45 is monotone in the features, rule by rule (MoreFacts.v, 70 relations), except where it says "not a known name"; what is learnt there is in MoreSpec.v. C44 and C45 carry it over to the decoders |
| C61 | nothing new: the encoders and the grammar | every rule of the grammar makes a value that is written with at most 4/3 of the bytes of its text, up to a constant that is computed for every rule (GrowFacts.v); sequence sets, whose normal form is not their text, are in GrowSeq.v. C44 carries it over to the decoders |
| C62 | nothing new: encoders, decoders and grammar at two feature sets | what a build writes is what the build with the same extensions and no quirk of writing writes for the normalised message (StrictFacts.v), so C09-C11 apply at that build; C60 carries it over to the other build, and valid unknown names stay unknown since the tables of known names depend on the extensions only |
| C63 | nothing new: grammar, decoders, encoders | CleanSpec.v says what a clean line is, without the grammar; every rule of the grammar gives one (CleanFacts.v, then C44), and every encoder writes one for every value allowed by its type (CleanEncFacts.v) |
| C64 | nothing new: decoders and encoders; relays and rows of relays are in RelaySpec.v | one step: what build G makes of the output of build F is what F with the writing quirks of both makes of the input (RelayFacts.v, structural, with idempotence of normalisation); then induction over the row (RelayProps.v); size by C61 |
| C65 | `fragment_bytes` with the panic of an invalid slice (FragExample.v), on top of `fragmentizer.rs` | invariant over all histories: the parser's positions and the length of the (limited) buffer agree (FragInfoFacts.v) |
| C66 | `examples/fragmentizer.rs`, `read_line` of `examples/common/common.rs` | a run of the loop is a draining run, then C03; case analysis for `read_line` |
| C67 | the decoders of commands and responses on a stack of limited size (Stack.v): the recursive parsers with one more argument, the nested calls there is room for | the limited parser gives the result of the unlimited one: equality for the parsers with a limit, induction with the length of the input as a measure for bodies (StackFacts.v; the lengths come from the grammar, C44); a family of inputs that use the bound up (StackProps.v) |
| C68 | the decoders with the kind of build as an argument (Profile.v): the 145 parsers that construct unvalidated values or use one that does | each of them gives the result of its counterpart of a debug build unless that panics (ProfileFacts.v, combinator by combinator); by C20 it does not panic |
| C69 | nothing new: the decoders; the ABNF of the RFCs is transcribed in AbnfSpec.v, with its own notion of derivation | each rule derives exactly the texts of a rule of Grammar.v (AbnfCore.v, AbnfCmd.v: induction over lists and nested search keys, case analysis otherwise), then C45 |
| C70 | nothing new: the decoders; the rules for server messages in AbnfSpec.v | as C69 (AbnfBody.v, AbnfResp.v, AbnfText.v: induction over body structures, body extensions and threads); for response codes, that a text has at most one known code and that it can be decided whether it has one |
| C71 | nothing new: the encoders, the documented rules of AbnfSpec.v | SentFacts.v turns what is written into a sequence of rules step by step; SentCmd.v and SentResp.v do this for every part of a message (induction over search keys, body structures, extensions, threads); SentNeeded.v computes all derivations of a concrete text to show that there is none |
| C72 | nothing new: the texts accepted (AbnfSpec.v, C69, C70) | from C69 and C70 (the decoders accept a text whatever follows it, and are functions) by induction over the messages |
| C73 | nothing new: the grammar of AbnfSpec.v (with all its extra and excessive texts) and the fragmentizer | each rule of the grammar leads from a place where a message may end to such a place, or into the middle of a line (`typed`, checked rule by rule in FramedFacts.v); by induction over derivations their texts are `calm` (SyncFacts.v). The streams are C57_receiver |
| C74 | nothing new: `decode_tag` and `decode_message` (Fragmentizer.v) and the decoders; the loop of a server that answers each message with a tag is defined beside the theorems | a receiver that keeps the bytes of each message sees them as C57 says; the tag is the beginning of the message in the grammar (C44) and for `decode_tag` (C08); the exchange adds C09 and C24 |
| C75 | `ErrorText.v`: `Display` of the errors, from their `#[error]` attributes | the texts are compared with a relation `says` between texts and errors that is proved to be a function in both directions; the constructors' errors come from C26, C27 and C43 |
| C76 | nothing new: the tag generators (Ctors.v), the fragmentizer, the codecs; what a client picks from the received responses is defined beside the theorems | any beginning of the stream is some whole messages and an unfinished one (C57), so what is received is a beginning of the list of responses (C10); the tags are different (C37) and the server is asked for each of them once (C74) |
| C77 | the loop of `examples/server.rs` on any chunks (ServerRun.v, with `react` of Session.v) | the loop on chunks is the loop on all bytes at once, because the reaction does not depend on bytes that are still to be parsed; a measure for termination; invariants over the run (the limit, the lines left, the tag that is waited for) |

## 4. Trusted base

**Kernel.** Coq 8.16.1: `coqc` for the build and `coqchk` (run by `vcheck`) for a second check of the
compiled files. `vm_compute` is used in examples and for some closed goals, so its reduction machine
is trusted too; `native_compute` is not used.

**Axioms.** `Print Assumptions` is run at the end of the `*Props.v` files on the theorems named in
`MANIFEST.json` and prints "Closed under the global context" for each: no theorem depends on an
axiom. `coqchk` also lists axioms of library modules that are merely loaded: seven of
`Coq.ssr.ssrunder` (`Under_rel`, `Under_relE`, `Under_rel_from_rel`, `under_rel_done`, `Over_rel`,
`over_rel`, `over_rel_done`), which the standard library declares inside a sealed module. No theorem
uses them. The development adds no axiom, parameter, functor or module type.

**From Rust to the model (by hand).** The model is a transcription. Each definition names the lines it
models. Nothing checks the transcription mechanically; `Conformance.v` and
`ConformanceTypes.v` replay the test vectors of
the repository on the model (they are tests of the transcription, not proofs of properties).

**Dependencies that are not in /repo**, re-stated from their documentation and known behaviour:
* nom 7.1.3 streaming combinators (`Nom.v`): `tag`, `tag_no_case`, `take`, `take_while*`,
  `take_until`, `escaped`, `alt`, `many0`, `many1`, `many_m_n`, `separated_list*`, `opt`, `map_res`,
  `map_opt`, `verify`, `recognize`, `peek`, `delimited`, ..., with their `Incomplete` behaviour. The
  amount of a `Needed` is erased (the crate's API does not expose it).
* abnf-core 0.6 streaming character classes, `crlf`, `dquote`, `sp`.
* serde 1 / serde_derive (`Serde.v`): structs (maps, or sequences in field order; unknown fields
  ignored, duplicate and missing ones refused, missing `Option` fields are `None`), adjacently
  tagged enums, externally tagged unit variants, `try_from`, `transparent`/newtype structs,
  `Option`, `Vec`, tuples, numbers in range, `String`, `char`. The format is any that hands such a
  tree to serde (JSON, for instance) and gives bytes as a sequence of numbers. How chrono dates are
  written in text is not modelled: a date is a leaf with its fields.
* base64 0.22 `STANDARD`; chrono 0.4 (calendar, offsets, the three format strings used).
* Rust's `str`, `Vec`, `VecDeque`, `HashSet` (iteration order is a parameter of the model, see C29),
  `u32`/`u64`/`usize` arithmetic; `usize` has 64 bits. Memory is unbounded: allocation failure and
  `Vec` capacity overflow are not modelled; neither is the size of a stack
  frame (C21 bounds the nesting of decoded values and C67 the number of nested calls).

* For C55 and C56: what a function of nom, abnf-core or base64 costs. A combinator is a step; a byte that
  is compared, classified or searched is a step; a conversion costs the bytes that were consumed by the
  parser whose result it converts (UTF-8 checks, number conversion, base64, validators, copying);
  a slice is one step; `Vec` and `VecDeque` are amortised.

**Modelled** (all non-test code of these files unless said otherwise)
* `imap-codec/src`: `fragmentizer.rs`, `codec/decode.rs`, `codec/encode.rs`, `core.rs`, `datetime.rs`,
  `envelope.rs`, `body.rs`, `fetch.rs`, `flag.rs`, `mailbox.rs`, `search.rs`,
  `sequence.rs`, `status.rs`, `auth.rs`, `command.rs`, `response.rs`, `extensions/*`.
* `imap-types/src`: the data types; validators and `TryFrom`/`From` conversions of `core.rs`,
  `mailbox.rs`, `auth.rs`, `flag.rs`, `response.rs`, `sequence.rs`, `datetime.rs` and the extensions;
  `TagGenerator`; command, response and code constructors; `CommandBody::name`; `utils.rs`;
  `secret.rs` and the `Debug` output of values that hold a secret; `Serialize` and
  `Deserialize` of every message type and of `State` (`SerdeTypes.v`).
* `imap-types/src/arbitrary.rs`, the derived `Arbitrary` implementations and `imap-codec/fuzz` (C50).
  The crate `arbitrary` is taken to give any value of a primitive type or an error.
* `imap-codec/examples/server.rs`: the loop and its state machine (C41, C77); what it prints is a list of
  replies and events. `examples/client.rs`: its loop (C51). `examples/fragmentizer.rs`: its loop, and
  `read_line` of `examples/common/common.rs` (C66).
* Cargo features are booleans of the model, so a theorem holds for each of the feature sets. Debug
  and release builds differ where the code uses `debug_assertions` (`unvalidated` constructors,
  `Secret`, `TagGenerator`); the difference is an argument of the model. The decoders are those of a
  debug build; C68 shows that those of a release build do the same.

**Not modelled**: `ToStatic`/`IntoStatic` (they copy a
value, and `Cow` variants are identified); derived `Debug`, `Hash`, `Ord` other
than those used; nom's error kinds (not observable: `decode` maps them all to `Failed`); the
example `serde_json.rs` and the benchmarks.

## 5. Findings

Statements one would expect that are false of the code. Each has a proved counterexample
(`*_refuted`, or an `Example` beside the theorem).

* Sequence sets: the normalisation that the encoder applies by default changes the meaning of some
  sets: `*` is taken for 4294967295, so `4294967294,*` loses `*` and `5:4294967294` becomes `5:*` (C29).
* `Sequence::try_from(5..10)` on `NonZeroU32` ignores the start and gives `1:9`; an empty range
  `10..5` gives `10:4` and so denotes 4..10; `"+5"` is accepted as sequence text (C30).
* The recursion limit for body structures is reset inside message/rfc822 parts, so nesting and with
  it stack use are unbounded (C21, C67: six nested calls for every 77 bytes received, also when the
  message is rejected in the end).
* The FETCH item MODSEQ is written without the parentheses that the decoder (and RFC 7162) require (C10, C13).
* `AuthMechanism::ScramSha3_512(Plus)` and `Capability::Namespace` are written but never
  recognised (C32); so is `Code::Referral`.
* A response text that starts with `[` is read as a code; a text that ends in `{5}` makes the
  fragmentizer wait for a literal (C10, C23).
* `CapabilityOther` / resource names: `QUOTA=XRES-FOO` is accepted, and the name of a quota resource in
  a capability is turned into lower case (rule `g_cap_quota` in Grammar.v).
* mod-sequence values and other 63-bit numbers are not limited to 63 bits (RFC 7162), (rule `G_nz_number64`).
* All differences between the documented formal syntax of client messages and what is accepted are
  marked with `Extra`, `Limit` and `Beyond` in AbnfSpec.v (C69): leading zeros of numbers that may not be zero, `*` in
  known sequence sets, empty lists of attributes in FETCH and STATUS, numbers of 64 bits; dates that do
  not exist, base64 that is not canonical, deeply nested search keys; and the quirks.
* The same for server messages (C70): IMAP4rev1 need not be among the capabilities, an unknown code may
  consist of any bytes but `]`, CR and LF, body parameters may be an empty list, a message/rfc822 body may be
  described like any other; not accepted are texts that start with `[` without a code, bodies, body extensions
  and threads nested beyond the limits (the levels of bodies are counted anew inside message/rfc822), and one
  corner: `[BADCHARSET ("a] b")]x` could be an unknown code and a text, but is taken for a list of charsets
  without a text, and refused (`C70_limit`).
* What is sent is documented (C71) except: STATUS without attributes and FETCH without items (`a STATUS INBOX ()`),
  numbers above 2^63-1 in quotas and DELETED-STORAGE, `*` in sets of known UIDs (QRESYNC, VANISHED; with the quirk that
  normalises sequence sets a number can become `*`), `QuotedUtf8` with CR, LF or NUL, literals of 4 GiB and more,
  capabilities without IMAP4rev1, `Code::Other` and `Code::Referral` with odd bytes, a basic body of type message/rfc822,
  and `MODSEQ 5` in FETCH responses, which RFC 7162 writes `MODSEQ (5)`. All of these but the literals are proved in SentNeeded.v.
* `Fragmentizer`, `Encoded` and `Fragment` derive `Debug` and print message bytes, passwords included; in builds with
  debug assertions secrets are printed (C46).
* The server of `examples/server.rs` answers nothing to a literal it does not want if the tag of the
  command is as long as the message limit; the client then waits for ever (C41).
* The client of `examples/client.rs` goes on to wait for a greeting when the greeting is above the
  limit, and takes an untagged OK response for it (C51).
* The types for unknown names (`AuthMechanismOther`, `CapabilityOther`, `FlagExtension`, ...), which
  "can't represent" a known name, do so when deserialised: their derived `Deserialize` bypasses the
  constructors (C48).
* With the default features the fuzz targets `command` and `command_to_bytes_and_back` panic on every
  command with a sequence set that is not in normal form, `a FETCH 2,1 ALL` for instance: the
  feature quirk_always_normalize_sequence_sets makes the encoder write another command (C50).
  `response_to_bytes_and_back` panics on a FETCH response with `FlagFetch::Flag(\Recent)`.
* `BodyExtension::List` is never generated: the random number that chooses the variant is drawn from
  `1..=2`, its arm is `3` (C50).
* With ext_utf8 a quoted string may contain CR and LF (`quoted_utf8`), so the decoder and the fragmentizer
  disagree on where a command ends: `a LOGIN "x CRLF b NOOP CRLF" p` is one command for the decoder and three
  messages for the fragmentizer (smuggling), and `a LOGIN "x CRLF` is complete for the fragmentizer and
  incomplete for the decoder (C57_utf8_consumes_refuted, C57_utf8_waits_refuted).
* Without quirk_crlf_relaxed (the default), a continuation request whose line ends in a bare LF is
  complete for the fragmentizer, while the decoder calls it incomplete until a CRLF comes, whichever bytes come
  before (C57_continuation_waits, C57_bare_lf_refuted).
* Every line that ends IDLE (`DONE`, in any case) is also valid base64: the decoder of authenticate data
  accepts it as three bytes (C59_idle_done). The kinds of client messages must be told apart by the state.
* `Code::Referral` takes any string and writes it as it is: a referral with `]` and CRLF in it makes one response
  three responses for the client (C63_response_sent_refuted, ex_three). Nothing else that can be built without an
  `unvalidated` constructor can break a line, unless ext_utf8 is on (C63_command_refuted).

## 6. Files

All files are in `rocq/theories`. To check what is claimed, read the model, the specifications and the
statements in the `*Props.v` files; everything else is proof.

**Model** (definitions only, each with the lines of /repo it models)
* `Bytes.v`, `Dec.v`, `Utf8.v`, `Base64.v`, `Date.v`: bytes and character classes, decimal numbers, UTF-8, base64, calendar.
* `Features.v`, `Types.v`, `Conv.v`, `SeqSet.v`, `Ctors.v`: cargo features, data types, validators, conversions, sequence sets, constructors.
* `Nom.v`, `ParseCore.v`, `ParseBody.v`, `ParseCmd.v`, `ParseResp.v`, `Decode.v`: combinators, parsers, decoders.
* `EncodeCtx.v`, `Encode.v`, `EncodeApi.v`: encoders. `Fragmentizer.v`: the fragmentizer.
* `Debug.v`, `Display.v`, `ErrorText.v`, `Serde.v`, `SerdeTypes.v`, `Arb.v`: debug output, `Display` of threads, texts of errors, serde, generators and fuzz targets.
* `Session.v`, `ServerRun.v`, `Client.v`, `FragExample.v`: the examples.
* `Stack.v`: the recursive parsers and the decoders on a stack of limited size. `Profile.v`: the parsers and
  decoders of debug and release builds.
* `CostNom.v`, `CostCore.v`, `CostBody.v`, `CostCmd.v`, `CostResp.v`, `FragCost.v`: the parsers and the
  fragmentizer with their steps counted (`CostErase.v` proves that the results are the same).

**Specifications** (what the statements are written in, independent of the model's functions)
* `Valid.v` (invariants of the public types), `ValueSpec.v` (character classes and values), `SeqSpec.v`, `Grammar.v` (the wire format),
  `Traverse.v` (replacing all strings or literal modes of a message), `NumberSpec.v`, `SizeSpec.v`, `SerdeSpec.v`, `ArbSpec.v`.
* `FragSpec.v`, `StreamSpec.v`, `SessionSpec.v`, `SyncSpec.v`, `ReaderSpec.v`: streams, fragments, message boundaries.
* `DecodeSpec.v`, `RoundTripSpec.v`, `MoreSpec.v`, `StrictSpec.v`, `CleanSpec.v`, `RelaySpec.v`; `OtherCode.v` begins with
  the definition of which unknown response codes are read back.

**Theorems**: file, properties, specification to read with it
* `FragProps.v`: C01, C02, C03, C04, C05, C06, C07, C08; `FragSpec.v`.
* `RoundTripProps.v`: C09, C10, C11, C12, C13, C17, C19, C21, C22, C38, C39; `Valid.v`, `DecodeSpec.v`, `RoundTripSpec.v`, `OtherCode.v`.
* `ModSeqProps.v`: C13; `Valid.v`, `RoundTripSpec.v`.
* `DecodeProps.v`: C14, C15, C16, C18, C20, C21; `Valid.v`, `DecodeSpec.v`.
* `DepthProps.v`: C21; `DecodeSpec.v`.
* `StreamProps.v`: C23, C24; `Valid.v`, `FragSpec.v`, `StreamSpec.v`, `RoundTripSpec.v`.
* `ValueProps.v`: C25, C26, C27, C31, C32, C33, C34, C35, C37, C42, C43; `Valid.v`, `ValueSpec.v`, `RoundTripSpec.v`.
* `BuildProps.v`: C27, C32, C43, C49; `Valid.v`, `ValueSpec.v`, `SeqSpec.v`, `RoundTripSpec.v`.
* `SeqProps.v`: C28, C29, C30, C40; `SeqSpec.v`.
* `SeqLimitProps.v`: C29; `SeqSpec.v`.
* `SeqFromProps.v`: C30; `SeqSpec.v`.
* `NameExactProps.v`: C32; `ValueSpec.v`, `Grammar.v`.
* `NumberProps.v`: C35; `NumberSpec.v`.
* `CaseProps.v`: C36; `ValueSpec.v`, `Traverse.v`.
* `ModeProps.v`: C39; `Traverse.v`.
* `SessionProps.v`: C41; `Valid.v`, `SessionSpec.v`.
* `GrammarProps.v`: C44; `Grammar.v`.
* `CompleteProps.v`: C45; `Grammar.v`.
* `SecretProps.v`: C46.
* `SerdeProps.v`: C47, C48; `Valid.v`, `SerdeSpec.v`.
* `ArbProps.v`: C50; `Valid.v`, `RoundTripSpec.v`.
* `ClientProps.v`: C51; `Valid.v`, `StreamSpec.v`, `RoundTripSpec.v`.
* `DisplayProps.v`: C52; `Valid.v`.
* `SizeProps.v`: C53; `SizeSpec.v`, `FragSpec.v`.
* `ArbCoverProps.v`: C54; `Valid.v`, `ArbSpec.v`.
* `FragCostProps.v`: C55; `FragSpec.v`.
* `CostProps.v`: C56.
* `SyncProps.v`: C57; `FragSpec.v`, `StreamSpec.v`, `SyncSpec.v`.
* `ReaderProps.v`: C58; `ReaderSpec.v`.
* `KindProps.v`: C59.
* `MoreProps.v`: C60; `Valid.v`, `RoundTripSpec.v`, `MoreSpec.v`.
* `GrowProps.v`: C61; `FragSpec.v`.
* `StrictProps.v`: C62; `Valid.v`, `RoundTripSpec.v`, `MoreSpec.v`, `StrictSpec.v`.
* `CleanProps.v`: C63; `Valid.v`, `ValueSpec.v`, `CleanSpec.v`.
* `RelayProps.v`: C64; `RoundTripSpec.v`, `StrictSpec.v`, `RelaySpec.v`.
* `FragInfoProps.v`: C65, C66; `FragSpec.v`.
* `StackProps.v`: C67; its subject is `Stack.v`.
* `ProfileProps.v`: C68; `Valid.v`; its subject is `Profile.v`.
* `AbnfProps.v`: C69; `AbnfSpec.v`, `Features.v`, `ValueSpec.v` (character classes), `Utf8.v`.
* `AbnfRespProps.v`: C70; the same.
* `ReadingProps.v`: C72; `AbnfSpec.v`.
* `FramedProps.v`: C73; `AbnfSpec.v`, `SyncSpec.v`, `FragSpec.v`.
* `AnswerProps.v`: C74; `StreamSpec.v`, `SyncSpec.v`.
* `ErrorProps.v`: C75; the specification (`says`, `says_date`, `number`, `first_nul`, `same_nuls`) is at its beginning.
* `MatchProps.v`: C76; `StreamSpec.v`, `SyncSpec.v`, `ValueSpec.v`.
* `HostileProps.v`: C77; `ServerRun.v`, `Session.v`.
* `SentProps.v`, `SentRelay.v`, `SentNeeded.v`: C71; `AbnfSpec.v`, `SentSpec.v`, `Valid.v`, `RoundTripSpec.v`.
* `AppliedMsg.v`, `AppliedBuild.v`: each theorem about messages and values applied to concrete data.
* `Conformance.v`, `ConformanceTypes.v`: the test vectors of imap-codec and of imap-types, replayed on the
  model (tests, no theorems).

The remaining files (`*Facts.v`, `*Tac.v`, `Ok*.v`, `Rt*.v`, `Sound*.v`, `Comp*.v`, `Sync*.v`, `CostLin*.v` and others) contain lemmas and
proof search only; their first lines say for what.
