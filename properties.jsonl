{"id": "C01", "title": "Fragmentizer: chunking does not matter", "statement": "However a byte stream is cut into enqueue_bytes calls, and however calls to progress are interleaved (each enqueue followed by draining progress), the Fragmentizer emits the same sequence of fragments with the same bytes, and ends in the same observable state.", "quantifier": "all byte streams, all ways of cutting it into chunks, all size limits", "why_tests_cant": "the number of chunkings is exponential in the stream length and streams are unbounded", "anchors": ["imap-codec/src/fragmentizer.rs: Fragmentizer::enqueue_bytes", "imap-codec/src/fragmentizer.rs: Fragmentizer::progress", "imap-codec/src/fragmentizer.rs: LineParser::parse", "imap-codec/src/fragmentizer.rs: LiteralParser::parse"]}
{"id": "C02", "title": "Fragmentizer: no byte is lost, duplicated or reordered", "statement": "Without a size limit, the concatenation of the bytes of all emitted fragments, followed by the bytes of the unfinished fragment and the not yet parsed bytes, is exactly the stream that was enqueued; message_bytes of a completed message is the concatenation of its fragments.", "quantifier": "all byte streams, all interleavings of enqueue_bytes and progress", "why_tests_cant": "quantifies over unbounded histories of enqueue/progress operations", "anchors": ["imap-codec/src/fragmentizer.rs: Fragmentizer::progress", "imap-codec/src/fragmentizer.rs: Fragmentizer::fragment_bytes", "imap-codec/src/fragmentizer.rs: Fragmentizer::message_bytes"]}
{"id": "C03", "title": "Fragmentizer: fragments are exactly IMAP lines and announced literals", "statement": "Every line fragment ends with its only LF; its reported ending is CRLF exactly if the line ends in CR LF; it announces a literal exactly if the text before the line ending is '{' digits ['+'] '}' with a value below 2^32, with that length and mode. After an announcement the next fragment is a literal with exactly that many bytes, after a line without announcement the message is complete, and after a literal comes a line of the same message.", "quantifier": "all byte streams", "why_tests_cant": "the line scanner is a state machine over unbounded lines; the claim is an equivalence with a declarative grammar for every line", "anchors": ["imap-codec/src/fragmentizer.rs: LineParser", "imap-codec/src/fragmentizer.rs: LatestByte", "imap-codec/src/fragmentizer.rs: LineAnnouncement", "imap-codec/src/fragmentizer.rs: LiteralParser"]}
{"id": "C04", "title": "Fragmentizer: message memory is bounded by the limit", "statement": "With a maximum message size n, message_bytes never holds more than n bytes, is_max_message_size_exceeded is reported exactly if the fragments of the current message add up to more than n bytes, and message_bytes is always the first min(n, size) bytes of the message.", "quantifier": "all streams, all limits, all histories of enqueue_bytes/progress/skip_message/poison_message", "why_tests_cant": "invariant over unbounded operation histories", "anchors": ["imap-codec/src/fragmentizer.rs: Fragmentizer::dequeue_parsed_bytes", "imap-codec/src/fragmentizer.rs: Fragmentizer::is_max_message_size_exceeded"]}
{"id": "C05", "title": "Fragmentizer: size limit and poisoning do not move message boundaries", "statement": "The sequence of fragment descriptors (kinds, offsets, announcements) and the points at which messages are complete do not depend on the maximum message size nor on poison_message calls.", "quantifier": "all streams, all pairs of limits, all histories", "why_tests_cant": "relational statement over two unbounded executions", "anchors": ["imap-codec/src/fragmentizer.rs: Fragmentizer::progress"]}
{"id": "C06", "title": "Fragmentizer: decode_message guards", "statement": "decode_message on a message that exceeded the limit always reports MessageTooLong, else on a poisoned message always MessagePoisoned, and otherwise returns the message exactly if the codec decodes the buffered bytes completely with no remainder; the message is never decoded from truncated bytes.", "quantifier": "all reachable Fragmentizer states, all codecs", "why_tests_cant": "quantifies over all histories and all decoders", "anchors": ["imap-codec/src/fragmentizer.rs: Fragmentizer::decode_message"]}
{"id": "C07", "title": "Fragmentizer: skip and poison affect only the current message", "statement": "skip_message drops the fragments parsed so far and the following fragment starts a fresh message at the first unparsed byte; poisoning and exceeded flags never leak into the next message.", "quantifier": "all reachable states", "why_tests_cant": "history-dependent invariant", "anchors": ["imap-codec/src/fragmentizer.rs: Fragmentizer::skip_message", "imap-codec/src/fragmentizer.rs: Fragmentizer::poison_message"]}
{"id": "C08", "title": "Fragmentizer: decode_tag recovers the tag", "statement": "For every command and every truncation of its encoding that still contains the first space, decode_tag returns the tag of the command; whatever the buffer, a returned tag is a valid tag and is the part of the buffer before the first space.", "quantifier": "all commands, all truncation points, all buffers", "why_tests_cant": "unbounded inputs", "anchors": ["imap-codec/src/fragmentizer.rs: Fragmentizer::decode_tag"]}
{"id": "C09", "title": "Command round trip", "statement": "decode(encode(c)) returns c and the exact remainder. If a quirk feature makes the encoder rewrite c (sequence sets to normal form, empty ID list to NIL), it returns exactly the rewritten c.", "quantifier": "all commands the constructors allow, with: literals of at most 2^32-1 bytes; search keys nested at most 9 deep; no QuotedUtf8 that is plain ASCII; not AuthMechanism::ScramSha3_512(Plus). All remainders, all feature sets. Commands outside these limits are never decoded at all.", "why_tests_cant": "the type of commands is infinite and recursive", "anchors": ["imap-codec/src/codec/encode.rs: CommandCodec", "imap-codec/src/codec/decode.rs: CommandCodec", "imap-codec/src/command.rs: command"]}
{"id": "C10", "title": "Response round trip", "statement": "decode(encode(r)) returns r (sequence sets and empty ID lists as rewritten by the quirks) and the exact remainder.", "quantifier": "all responses the constructors allow, with: literals of at most 2^32-1 bytes; threads and body extensions nested at most 8, multiparts at most 7 deep; no QuotedUtf8 that is plain ASCII; no FETCH flag extension spelled Recent; no Capability::Namespace, SCRAM-SHA3-512 or QUOTA=RES- name with capitals; no MODSEQ fetch item; no Code::Referral; no Code::Other that starts like a known code; no text without code that starts with '['. All remainders, all feature sets.", "why_tests_cant": "infinite, recursive type", "anchors": ["imap-codec/src/codec/encode.rs: ResponseCodec", "imap-codec/src/codec/decode.rs: ResponseCodec", "imap-codec/src/response.rs: response"]}
{"id": "C11", "title": "Greeting round trip", "statement": "decode(encode(g)) returns g and the exact remainder.", "quantifier": "all greetings the constructors allow, with the limits of C10 on codes and texts; all remainders, all feature sets", "why_tests_cant": "infinite type", "anchors": ["imap-codec/src/codec/encode.rs: GreetingCodec", "imap-codec/src/codec/decode.rs: GreetingCodec", "imap-codec/src/response.rs: greeting"]}
{"id": "C12", "title": "Authenticate data and IDLE done round trip", "statement": "decode(encode(d)) returns d and the exact remainder, for the two auxiliary codecs.", "quantifier": "all SASL payloads, all remainders", "why_tests_cant": "payloads are unbounded byte strings", "anchors": ["imap-codec/src/codec/encode.rs: AuthenticateDataCodec", "imap-codec/src/codec/decode.rs: AuthenticateDataCodec", "imap-codec/src/codec/encode.rs: IdleDoneCodec", "imap-codec/src/codec/decode.rs: IdleDoneCodec"]}
{"id": "C13", "title": "Whatever decodes, re-encodes and decodes to the same message", "statement": "If decode(i) succeeds with message m, then decode(encode(m)) succeeds with the same m up to the sequence-set normal form.", "quantifier": "all byte strings i, all message kinds, all feature sets", "why_tests_cant": "this is what the project's fuzz targets sample; it ranges over all inputs", "anchors": ["imap-codec/fuzz/src/lib.rs: impl_decode_target", "imap-codec/src/codec/decode.rs", "imap-codec/src/codec/encode.rs"]}
{"id": "C14", "title": "Decoded messages satisfy every type invariant", "statement": "Every value obtained from a decoder satisfies the validity conditions its public constructors enforce (atoms, tags, texts, quoted strings, literals without NUL, non-empty lists, non-zero numbers, dates, mailboxes that are not INBOX in disguise).", "quantifier": "all byte strings", "why_tests_cant": "the decoders use `unvalidated` constructors; only a proof covers every input", "anchors": ["imap-types/src/core.rs: unvalidated", "imap-codec/src/core.rs"]}
{"id": "C15", "title": "Streaming: success is stable", "statement": "If a decoder succeeds on input i with remainder r, the consumed part followed by r is i, the consumed part is non-empty, and on every extension i ++ x it succeeds with the same message and remainder r ++ x.", "quantifier": "all inputs, all extensions, all decoders", "why_tests_cant": "quantifies over pairs of unbounded byte strings", "anchors": ["imap-codec/src/codec/decode.rs: Decoder"]}
{"id": "C16", "title": "Streaming: failure is final", "statement": "If a decoder reports Failed on input i, it reports Failed on every extension of i.", "quantifier": "all inputs, all extensions, all decoders", "why_tests_cant": "quantifies over pairs of unbounded byte strings", "anchors": ["imap-codec/src/codec/decode.rs: CommandDecodeError::Failed"]}
{"id": "C17", "title": "Streaming: a prefix of a valid message is never rejected", "statement": "Every strict prefix of the encoding of a valid message decodes to Incomplete or LiteralFound, never to Failed and never to a message.", "quantifier": "all valid messages, all strict prefixes (valid as in C09-C12)", "why_tests_cant": "infinite type times all split points", "anchors": ["imap-codec/src/codec/decode.rs", "imap-codec/src/codec.rs"]}
{"id": "C18", "title": "LiteralFound is sound", "statement": "Whenever a decoder reports LiteralFound with a length and mode, the input ends right after a literal announcement '{' digits ['+'] '}' CRLF denoting exactly this length and mode, and for commands the reported tag is the tag the input starts with.", "quantifier": "all inputs", "why_tests_cant": "all byte strings", "anchors": ["imap-codec/src/codec/decode.rs: CommandDecodeError::LiteralFound", "imap-codec/src/core.rs: literal"]}
{"id": "C19", "title": "LiteralFound is complete", "statement": "For every valid message and every literal in it, decoding the encoding cut right before the literal's data reports LiteralFound with that literal's length and mode (and the command's tag), so a server always learns when to send the continuation request.", "quantifier": "all valid messages, all literals in them (valid as in C09-C12)", "why_tests_cant": "infinite type", "anchors": ["imap-codec/src/codec/decode.rs", "imap-codec/src/core.rs: literal", "imap-codec/src/extensions/binary.rs: literal8"]}
{"id": "C20", "title": "Decoders never panic and always terminate", "statement": "No decoder reaches an unwrap/expect/unreachable/overflow failure and every decoder terminates, on every input.", "quantifier": "all byte strings, all decoders", "why_tests_cant": "absence of panics on all inputs", "anchors": ["imap-codec/src/response.rs: continue_req", "imap-codec/src/core.rs", "imap-codec/src/body.rs"]}
{"id": "C21", "title": "Decoder recursion is bounded", "statement": "The nesting depth of decoded search keys, threads, body extensions and body structures is bounded by a constant, so that no input can exhaust the stack.", "quantifier": "all byte strings", "why_tests_cant": "depth of attacker-supplied input is unbounded", "anchors": ["imap-codec/src/search.rs: search_key_limited", "imap-codec/src/extensions/thread.rs: thread_list_limited", "imap-codec/src/body.rs: body_limited"]}
{"id": "C22", "title": "Encoder fragments are a faithful split", "statement": "The fragments of an encoded message concatenate to dump(); every Literal fragment is directly preceded by a Line fragment ending in an announcement with exactly its length and mode; all other lines end the message; no fragment line is empty.", "quantifier": "all messages", "why_tests_cant": "infinite type", "anchors": ["imap-codec/src/codec/encode.rs: Encoded", "imap-codec/src/codec/encode.rs: EncodeContext", "imap-codec/src/codec/encode.rs: Fragment"]}
{"id": "C23", "title": "Encoder and Fragmentizer agree", "statement": "Feeding the encoding of a valid command, response or greeting, followed by anything, to a Fragmentizer, in any chunks, yields exactly the encoder's own fragments and then reports the message complete; what follows is parsed as if it stood alone. Excluded: a status text that itself ends like the announcement of a literal, and (with the feature ext_utf8 only) a QuotedUtf8 that contains LF; for both the claim is refuted.", "quantifier": "all valid commands, responses, greetings, authenticate data; all limits; all following bytes; all chunkings", "why_tests_cant": "infinite type", "anchors": ["imap-codec/src/codec/encode.rs", "imap-codec/src/fragmentizer.rs"]}
{"id": "C24", "title": "End to end: a stream of messages is recovered", "statement": "For every list of valid commands (or responses), every chunking of the concatenation of their encodings and any limit, a receiver that calls decode_message whenever the Fragmentizer completes a message gets exactly one result per message, in order: the message (sequence sets normalised) or, if it is longer than the limit, MessageTooLong. In particular no field value can smuggle in an additional message. Same exclusions as C23.", "quantifier": "all lists of messages, all limits, all chunkings", "why_tests_cant": "unbounded histories", "anchors": ["imap-codec/src/codec/encode.rs", "imap-codec/src/codec/decode.rs", "imap-codec/src/fragmentizer.rs"]}
{"id": "C25", "title": "Quoted-string escaping is invertible", "statement": "unescape_quoted(escape_quoted(s)) = s, and the escaped text contains no unescaped double quote or backslash.", "quantifier": "all strings", "why_tests_cant": "all strings", "anchors": ["imap-types/src/utils.rs: escape_quoted", "imap-types/src/utils.rs: unescape_quoted"]}
{"id": "C26", "title": "Constructors accept exactly the grammar and keep the bytes", "statement": "Atom, AtomExt, Tag, Text, Quoted, QuotedChar, Literal, Literal8, ListCharString accept exactly the strings of their ABNF rule; IString/AString conversion never changes the contained bytes and fails only if they contain NUL.", "quantifier": "all byte strings", "why_tests_cant": "all byte strings", "anchors": ["imap-types/src/core.rs", "imap-types/src/mailbox.rs"]}
{"id": "C27", "title": "INBOX is case-insensitive and unique", "statement": "Converting a string to Mailbox yields Inbox exactly if it equals 'inbox' up to ASCII case, otherwise Other with unchanged bytes; two spellings of INBOX are equal mailboxes and are all decoded to Inbox from atoms, quoted strings and literals.", "quantifier": "all strings", "why_tests_cant": "all strings", "anchors": ["imap-types/src/mailbox.rs: Mailbox", "imap-codec/src/mailbox.rs: mailbox"]}
{"id": "C28", "title": "SequenceSet iteration enumerates exactly the set", "statement": "For every sequence set and every largest value, iter(largest) yields in increasing order and without duplicates exactly the numbers the set denotes under RFC 3501 (with * = largest, ranges in either order); iter_naive(largest) yields the same numbers sequence by sequence, in the order written. Neither panics.", "quantifier": "all sequence sets, all largest values", "why_tests_cant": "sets and ranges are unbounded lists over 32-bit numbers", "anchors": ["imap-types/src/sequence.rs: SequenceSet::iter, SequenceSet::iter_naive, SequenceSetIter::next"]}
{"id": "C29", "title": "SequenceSet normalisation keeps the meaning", "statement": "normalize() denotes the same set of numbers for every value of *, does not depend on hash iteration order, and is sorted and free of overlapping or adjacent ranges.", "quantifier": "all sequence sets, all largest values, all hash iteration orders", "why_tests_cant": "all sets and all hash orders", "anchors": ["imap-types/src/sequence.rs: SequenceSet::normalize"]}
{"id": "C30", "title": "Sequence conversions denote what was asked for", "statement": "TryFrom<Range..> conversions to Sequence/SequenceSet denote the given Rust range; textual conversion accepts exactly the sequence-set grammar and printing then parsing is the identity.", "quantifier": "all ranges, all strings", "why_tests_cant": "all u32 ranges", "anchors": ["imap-types/src/sequence.rs: TryFrom"]}
{"id": "C31", "title": "Continuation requests are never ambiguous", "statement": "Every CommandContinuationRequest accepted by its constructors decodes to itself (text that would read as base64 or as a response code is refused by the constructor), and any byte string that decodes to Basic is accepted by the constructor.", "quantifier": "all texts, codes and payloads", "why_tests_cant": "all strings", "anchors": ["imap-types/src/response.rs: CommandContinuationRequestBasic::new", "imap-codec/src/response.rs: continue_req"]}
{"id": "C32", "title": "Unknown-value types never shadow known values", "statement": "Values of the 'Other' types (AuthMechanismOther, CapabilityOther, FlagExtension, CapabilityEnableOther, ...) that a decoder or From conversion produces are never the spelling of a known variant, in any letter case, and printing a known variant and converting back gives that variant.", "quantifier": "all atoms", "why_tests_cant": "all atoms, all case variants", "anchors": ["imap-types/src/auth.rs: AuthMechanism::from", "imap-types/src/response.rs: Capability::from", "imap-types/src/flag.rs: Flag::system"]}
{"id": "C33", "title": "Base64 payloads are canonical", "statement": "Decoding an encoded payload gives the payload, and any accepted base64 text is the encoding of the decoded payload (no two texts for the same bytes).", "quantifier": "all payloads, all texts", "why_tests_cant": "all byte strings", "anchors": ["imap-codec/src/core.rs: base64", "imap-codec/src/auth.rs"]}
{"id": "C34", "title": "Dates and date-times survive encoding", "statement": "Every valid date and date-time is decoded back from its encoding with the same local time and offset, and only real calendar dates are accepted.", "quantifier": "all dates, times and offsets", "why_tests_cant": "millions of dates times offsets", "anchors": ["imap-codec/src/datetime.rs", "imap-types/src/datetime.rs"]}
{"id": "C35", "title": "Numbers are never wrapped or truncated", "statement": "A decoded number is the mathematical value of the digits read, within the range of its type (u32, non-zero u32, u64, non-zero u64); larger numbers are rejected, with the only exception of the documented rectify_numbers quirk for negative numbers.", "quantifier": "all digit strings", "why_tests_cant": "digit strings are unbounded", "anchors": ["imap-codec/src/core.rs: number", "imap-codec/src/core.rs: nz_number", "imap-codec/src/extensions/condstore_qresync.rs"]}
{"id": "C36", "title": "Letter case matters only inside strings and base64", "statement": "Changing the letter case of any part of a command, response or greeting does not change whether it decodes, which error is reported, or what is decoded, except that strings carried by the message keep the case they had on the wire; changing only the case of the name of a command changes nothing at all. Base64 data (AUTHENTICATE, continuation requests) is the only case-sensitive part.", "quantifier": "all inputs, valid or not, and all case variants of them", "why_tests_cant": "2^n case variants", "anchors": ["imap-codec/src/command.rs", "imap-codec/src/response.rs"]}
{"id": "C37", "title": "Generated tags are unique and valid", "statement": "Tags generated by any number of TagGenerators, in any interleaving of new and generate calls across threads, are pairwise distinct and valid tags, as long as the counters do not wrap.", "quantifier": "all interleavings of generator creation and tag generation", "why_tests_cant": "schedules", "anchors": ["imap-types/src/core.rs: TagGenerator"]}
{"id": "C38", "title": "Encoding is total and injective", "statement": "Every valid message can be encoded, and two valid messages with the same encoding are equal (up to sequence-set normal form).", "quantifier": "all pairs of valid messages", "why_tests_cant": "pairs over an infinite type", "anchors": ["imap-codec/src/codec/encode.rs"]}
{"id": "C39", "title": "Literal modes follow the value", "statement": "Each literal is written with the announcement matching its mode (sync '{n}', non-sync '{n+}'), the mode is preserved by decoding, and no other byte of the encoding depends on it.", "quantifier": "all messages with literals", "why_tests_cant": "infinite type", "anchors": ["imap-codec/src/codec/encode.rs: Literal", "imap-codec/src/extensions/literal.rs"]}
{"id": "C40", "title": "Comparing sequences compares positions", "statement": "partial_cmp on Sequence returns Less (Greater) exactly if every number of the first lies before (after) every number of the second, Equal only for equal single numbers, and otherwise the two have a number in common; * is greater than every number.", "quantifier": "all pairs of sequences, all values of * above the numbers written", "why_tests_cant": "pairs over 32-bit numbers with both bound orders", "anchors": ["imap-types/src/sequence.rs: PartialOrd for Sequence"]}
{"id": "C42", "title": "Byte strings are printed readably and unambiguously", "statement": "escape_byte_string returns only printable ASCII characters, and two byte strings with the same printed form are equal.", "quantifier": "all byte strings", "why_tests_cant": "unbounded strings; injectivity ranges over pairs", "anchors": ["imap-types/src/utils.rs: escape_byte_string"]}
{"id": "C43", "title": "Commands built from plain strings say what was given", "statement": "The command constructors that take strings succeed for every string without NUL, keep its bytes (or recognise INBOX), and the built command decodes back from its encoding; otherwise the error names the first wrong argument and the first wrong byte. CommandBody::name is the keyword on the wire.", "quantifier": "all tags, user names, passwords, mailbox names, patterns, messages", "why_tests_cant": "all strings, including those that need quoting, escaping or a literal", "anchors": ["imap-types/src/command.rs: CommandBody::login", "imap-types/src/command.rs: Command::new", "imap-types/src/command.rs: CommandBody::name"]}
{"id": "C44", "title": "Decoders accept only sentences of the IMAP grammar, with the right meaning", "statement": "If a decoder returns a message and a rest, the input is a sentence of the IMAP grammar (RFC 3501 and the supported extensions, as written down separately) followed by that rest, and the message is the one the grammar assigns to that sentence.", "quantifier": "all byte strings, all feature sets, commands, responses, greetings, authenticate data and IDLE DONE", "why_tests_cant": "every byte string that is accepted, including those no encoder produces; a consistent mistake in encoder and decoder passes every round-trip test", "anchors": ["imap-codec/src/codec/decode.rs: CommandCodec::decode, ResponseCodec::decode, GreetingCodec::decode, AuthenticateDataCodec::decode, IdleDoneCodec::decode", "imap-codec/src/command.rs", "imap-codec/src/response.rs"]}
{"id": "C45", "title": "Decoders accept every sentence of the IMAP grammar, whatever follows it", "statement": "Every sentence of the grammar, followed by any bytes, is decoded to the message the grammar assigns to it, leaving exactly the bytes that followed. In particular the grammar is unambiguous and no sentence is a proper prefix of another.", "quantifier": "all sentences of the grammar (in any mix of upper and lower case, any literal mode, any optional spacing), all continuations, all feature sets", "why_tests_cant": "infinitely many sentences and continuations; a parser that takes the wrong alternative early rejects only particular inputs", "anchors": ["imap-codec/src/command.rs", "imap-codec/src/response.rs", "imap-codec/src/codec/decode.rs"]}
{"id": "C46", "title": "Secrets do not reach debug output", "statement": "In a build without debug assertions, the Debug text ({:?} and {:#?}) of a command does not depend on the password of LOGIN or on the initial response of AUTHENTICATE, the Debug text of authenticate data does not depend on the data, and the Debug text of the errors of Fragmentizer::decode_message does not depend on message bytes.", "quantifier": "all commands, authenticate data and decode_message errors, all secrets, both formats", "why_tests_cant": "non-interference: two runs, all pairs of secrets; a substring test misses encodings and partial leaks", "anchors": ["imap-types/src/secret.rs: Secret", "imap-types/src/command.rs: CommandBody", "imap-types/src/auth.rs: AuthenticateData", "imap-codec/src/fragmentizer.rs: DecodeMessageError"]}
{"id": "C41", "title": "A client and the example server never deadlock over literals", "statement": "A client that writes commands fragment by fragment, waiting for a continuation request before each synchronising literal (and, for AUTHENTICATE and IDLE, before the data that follows), and the server loop of examples/server.rs always complete their session: every command is received (as C24 says) or its literal is refused with its tag, exactly once and in order; the client never gets a reply it does not expect; neither side waits for ever. The tag of each command must be shorter than the message limit, and AUTHENTICATE, IDLE and their data must fit.", "quantifier": "all lists of valid commands and authenticate data, all message and literal limits, all interleavings of client, server and network, all chunkings of the bytes", "why_tests_cant": "safety, deadlock freedom and termination of two concurrent parties over all schedules and inputs", "anchors": ["imap-codec/examples/server.rs: main, State", "imap-codec/src/codec/encode.rs: Encoder, Fragment", "imap-codec/src/fragmentizer.rs: Fragmentizer"]}
{"id": "C47", "title": "Messages survive serde", "statement": "With the feature serde, deserialising what was serialised gives back the same command, response, greeting, authenticate data or session state, in every self-describing format; different values are serialised differently.", "quantifier": "all valid messages, all feature sets", "why_tests_cant": "infinite type; every variant, every field, every combination of features", "anchors": ["imap-types/src/command.rs: Command, CommandBody", "imap-types/src/response.rs: Response, Greeting, CommandContinuationRequestBasic", "imap-types/src/core.rs: Atom, Vec1, Literal", "imap-types/src/state.rs: State"]}
{"id": "C48", "title": "Deserialising cannot break the invariants of the types", "statement": "Whatever data is deserialised into a command, response, greeting or session state, the result is either an error or a value that satisfies every invariant the constructors enforce (characters, non-empty lists, ranges, unambiguous continuation requests); the only exception are the types for unknown names, which accept known names.", "quantifier": "all trees of a self-describing format, all feature sets", "why_tests_cant": "arbitrary untrusted input", "anchors": ["imap-types/src/core.rs: serde(try_from)", "imap-types/src/response.rs: CommandContinuationRequestBasicShadow", "imap-types/src/auth.rs: AuthMechanismOther", "imap-types/src/datetime.rs: DateTime, NaiveDate"]}
{"id": "C49", "title": "Responses are built as asked for", "statement": "The constructors of greetings, status responses, data responses and response codes return the value with exactly the parts given, or an error that names the wrong argument and its first wrong byte; the accessors return the parts, the response stands under its own keyword on the wire, and it is decoded back. The FETCH macros expand to the lists of the RFC.", "quantifier": "all texts, tags, codes, numbers, lists and feature sets", "why_tests_cant": "all strings and all codes; each wrong position", "anchors": ["imap-types/src/response.rs: Greeting::{new,ok,preauth,bye}, Status::{ok,no,bad,bye,tag,code,text}, Data::{capability,expunge,fetch}, Code::{badcharset,capability,permanentflags,uidnext,uidvalidity,unseen}", "imap-types/src/extensions/quota.rs: Data::{quota,quota_root}", "imap-types/src/fetch.rs: Macro::expand", "imap-types/src/flag.rs: FlagNameAttribute::is_selectability"]}
{"id": "C50", "title": "Generated messages are valid and the fuzz targets hold", "statement": "With the feature arbitrary, whatever random bytes are given, generating a command, greeting, response or authenticate data never panics, and what is generated satisfies every invariant of its type. Encoding a generated message and decoding it again gives the message (as the encoder wrote it). No input makes one of the fuzz targets panic, except for the cases named: default features and an unnormalised sequence set, a Flag that spells \\Recent in a FETCH response, and the extensions whose responses are not read back.", "quantifier": "all random bytes, all inputs of the fuzz targets, all feature sets; strings shorter than 4 GiB where literals are written", "why_tests_cant": "fuzzing samples the inputs; the targets are claims about all of them", "anchors": ["imap-types/src/arbitrary.rs", "imap-types/src/{core,command,response,body,search,fetch}.rs: derive(Arbitrary)", "imap-types/src/extensions/thread.rs: arbitrary_thread_limited", "imap-codec/fuzz/src/lib.rs: impl_decode_target, impl_to_bytes_and_back", "imap-codec/fuzz/fuzz_targets/{fragmentizer,tags_structured}.rs"]}
{"id": "C51", "title": "The example client learns the greeting and then every response", "statement": "A client written like examples/client.rs (progress, read more when there is nothing, decode each complete message, first as a greeting and after the first greeting as a response) that is connected to a server which writes a greeting and responses learns exactly that greeting and then each response, once and in order, however the bytes are split; a response above the limit is reported as too long and does not disturb the others. Whatever the server writes, the outcome does not depend on the chunks, nothing that is complete is held back, the loop always comes back to reading, and no response is reported before a greeting.", "quantifier": "all greetings and lists of responses, all bytes after them, all splits into chunks, all limits that admit the greeting, all feature sets", "why_tests_cant": "all messages and all splits of the stream", "anchors": ["imap-codec/examples/client.rs: main", "imap-codec/examples/common/common.rs: read_more", "imap-codec/src/fragmentizer.rs: Fragmentizer"]}
{"id": "C52", "title": "Printed values are read back", "statement": "to_string of a flag, attribute flag, mailbox attribute, authentication mechanism, capability, ENABLE capability, compression algorithm, quota resource, sort or threading algorithm gives a text whose conversion back is the value. to_string of a thread terminates without panic for threads of any depth, and is the text of the thread according to RFC 5256, which is also what the encoder writes.", "quantifier": "all values that the checked constructors can make (except SCRAM-SHA3-512 and NAMESPACE, see C32), threads of any size and depth", "why_tests_cant": "all names, all trees", "anchors": ["imap-types/src/extensions/thread.rs: Display for Thread", "imap-types/src/flag.rs: Display for Flag, TryFrom<&str> for Flag", "imap-types/src/auth.rs", "imap-types/src/response.rs: Display for Capability"]}
{"id": "C53", "title": "A decoded message holds no more than the bytes it was read from", "statement": "Count one for every byte of every string in a message, one for every element of every list in it and one for every boxed part. Whatever a decoder returns, this size plus the length of the remaining bytes is at most the length of the input; the only exception is the two-byte input \"+\" LF with the quirk for empty continuation requests, which gives a text of three bytes. So a limit of the fragmentizer also bounds every message that it decodes, and no short input makes a large message (an announced literal counts only when its bytes are there).", "quantifier": "all inputs of decode for commands, responses, greetings and authenticate data, all feature sets; all histories of a fragmentizer with a limit", "why_tests_cant": "all inputs; amplification would show on unusual nestings", "anchors": ["imap-codec/src/codec/decode.rs: Decoder::decode", "imap-codec/src/fragmentizer.rs: Fragmentizer::decode_message", "imap-codec/src/core.rs: literal"]}
{"id": "C54", "title": "The generators of arbitrary messages make all messages except a listed few", "statement": "The Arbitrary implementations, on which the fuzz targets and so the round-trip fuzzing rest, can make every command, greeting, response and authenticate data that satisfies the invariants of its type, in every feature set, with and without arbitrary_simplified, except for a listed set: search keys, body structures and threads nested deeper than the limits; lists in body extensions; times west of Greenwich; mailboxes that are not in the simplest form that holds their name; UTF-8 quoted strings that need no UTF-8; unknown codes other than one; texts starting with '[' where no code stands before them; names that the conversions from text do not know; threads whose answers differ. And they make none of that set.", "quantifier": "all messages, all feature sets, all lengths of the random input (relative to the primitives of the crate arbitrary reaching their whole range)", "why_tests_cant": "a variant that is never generated makes no test fail: it is only missing; both directions range over all messages", "anchors": ["imap-types/src/arbitrary.rs", "imap-types/src/extensions/thread.rs: impl Arbitrary for Thread", "imap-codec/fuzz/src/lib.rs: impl_to_bytes_and_back"]}
{"id": "C55", "title": "Receiving takes time linear in the bytes received, however they are cut", "statement": "Count one step for every call to the fragmentizer and for every byte that it looks at, drains or copies. Any history of calls (enqueue_bytes, progress, skip_message, poison_message, in any order and any number) takes at most five steps for each call and four for each byte enqueued: no byte is scanned twice, even if the stream arrives byte by byte. The receiving loop of the documentation, which drains every chunk and decodes every complete message, ends, and takes a number of steps linear in the number of bytes and chunks, whichever decoders are tried on a message, for every limit and every feature set.", "quantifier": "all histories of calls, all byte streams, all ways to cut them into chunks, all limits, all feature sets", "why_tests_cant": "a benchmark measures some streams; a quadratic case needs a particular stream and a particular chunking", "anchors": ["imap-codec/src/fragmentizer.rs: Fragmentizer::progress, enqueue_bytes, dequeue_parsed_bytes, LineParser::parse, LiteralParser::parse, decode_message, decode_tag", "imap-codec/examples/server.rs", "imap-codec/examples/client.rs"]}
{"id": "C56", "title": "Decoding takes time linear in the input", "statement": "Count one step for every call of a parser combinator, for every byte that is compared, classified or searched, and for every byte of a string that is converted. For each of the decoders there is one constant such that on every input, accepted, refused or incomplete, and with every feature set, the number of steps is at most that constant times the length of the input plus one: no input makes backtracking blow up, not even nested search keys, threads or body structures whose alternatives begin alike. And at least one step is counted for every byte of a message that is decoded.", "quantifier": "all inputs of decode for commands, responses, greetings, authenticate data and IDLE done; all feature sets", "why_tests_cant": "exponential or quadratic backtracking shows only on adversarial inputs (nested alternatives that fail late); a bound for all inputs and one constant cannot be tested", "anchors": ["imap-codec/src/codec/decode.rs: Decoder::decode", "imap-codec/src/body.rs: body, body_type_1part, body_type_mpart", "imap-codec/src/search.rs: search_key", "imap-codec/src/extensions/thread.rs: thread_list", "imap-codec/src/command.rs: command", "imap-codec/src/response.rs: response"]}
{"id": "C57", "title": "The fragmentizer and the decoders agree on where every message ends", "statement": "A complete message is a line together with the literals that its lines announce, up to the first line that announces none. Without the UTF-8 extension, what the command decoder consumes is exactly one complete message, whatever the bytes are, and it asks for more bytes only if the input does not begin with a complete message. So for every byte stream, valid or not, in whatever chunks, a server that reads through the fragmentizer makes one decision for each message of the stream, a command or a failure, never gets bytes that are left over or a request for more (no stalling), and sees the commands that a server would see that decodes straight from its buffer (no smuggling). The same holds for authenticate data, IDLE done, greetings and responses; the exceptions are texts that end like the announcement of a literal, and, unless bare LF is accepted, continuation requests that end in a bare LF.", "quantifier": "all inputs, well-formed or not; all histories of calls to the fragmentizer; all limits; all feature sets without ext_utf8", "why_tests_cant": "two independent scanners (the line parser and the recursive-descent decoders) must agree on every byte string; a disagreement is a smuggling hole that shows on one adversarial input", "anchors": ["imap-codec/src/fragmentizer.rs: Fragmentizer::progress, LineParser::parse, decode_message", "imap-codec/src/codec/decode.rs: CommandCodec::decode, ResponseCodec::decode, GreetingCodec::decode, AuthenticateDataCodec::decode, IdleDoneCodec::decode", "imap-codec/src/core.rs: literal, quoted, text", "imap-codec/src/response.rs: continue_req", "imap-codec/src/extensions/utf8.rs: quoted_utf8"]}
{"id": "C58", "title": "A reader with a buffer and a decoder gets the same messages however the bytes arrive", "statement": "A program that keeps what arrives in a buffer, decodes from its front, keeps waiting on Incomplete and LiteralFound and gives up on Failed, choosing the decoder by the messages it has read so far, gets the same messages, keeps the same unread bytes and gives up or waits alike, however the stream is cut into chunks. The messages are those the stream holds one after the other, and it reads all of them: it never waits while a message is complete and never gives up before the stream contains an error.", "quantifier": "all byte streams, all ways of cutting them into chunks, all choices of the next decoder, all feature sets; server side (command, authenticate data, IDLE done) and client side (greeting, responses)", "why_tests_cant": "quantifies over all streams and all chunkings; one decoder whose answer changes when more bytes arrive would break it", "anchors": ["imap-codec/src/codec/decode.rs: Decoder, CommandDecodeError, ResponseDecodeError, CommandCodec::decode, ResponseCodec::decode, GreetingCodec::decode, AuthenticateDataCodec::decode, IdleDoneCodec::decode"]}
{"id": "C59", "title": "The kinds of messages cannot be confused", "statement": "What the command decoder accepts, the decoders of responses, greetings, authenticate data and IDLE done refuse with Failed (they do not even wait for more bytes), and what the response decoder accepts, the decoders of commands, authenticate data and IDLE done refuse. A greeting is accepted as a response exactly if it is OK or BYE, with the same code and text, and a response is accepted as a greeting exactly if it is an untagged OK or BYE. Authenticate data is refused by the decoders of commands, responses and greetings. The exception: every line that ends IDLE is also valid authenticate data of three bytes.", "quantifier": "all inputs, all feature sets, all pairs of decoders", "why_tests_cant": "a claim about every accepted input of five decoders against the four others", "anchors": ["imap-codec/src/codec/decode.rs: CommandCodec::decode, ResponseCodec::decode, GreetingCodec::decode, AuthenticateDataCodec::decode, IdleDoneCodec::decode", "imap-codec/src/command.rs: command, command_body, authenticate_data", "imap-codec/src/response.rs: response, response_data, greeting", "imap-codec/src/extensions/idle.rs: idle_done"]}
{"id": "C60", "title": "Switching features on never changes what an accepted message means", "statement": "If a build of the crate accepts an input as a message, then every build with more cargo features (extensions, quirks, starttls) accepts the same input up to the same byte, with the same message, except that unknown names that it knows (capabilities, names in ENABLE and ENABLED, response codes) become the known value; a message without unknown names is exactly the same. So what a peer writes, a peer with more features reads.", "quantifier": "all pairs of feature sets of which one includes the other, all inputs, all five decoders", "why_tests_cant": "2^19 feature sets and all inputs; cargo unifies features across a build, so a dependency can switch on a feature the author never tested with", "anchors": ["imap-codec/Cargo.toml: [features]", "imap-codec/src/codec/decode.rs: CommandCodec::decode, ResponseCodec::decode, GreetingCodec::decode, AuthenticateDataCodec::decode, IdleDoneCodec::decode", "imap-codec/src/core.rs, response.rs, command.rs, fetch.rs, envelope.rs, body.rs: every cfg(feature = ...)", "imap-types/src/response.rs: Capability::from, Code", "imap-types/src/extensions/enable.rs: CapabilityEnable::from"]}
{"id": "C61", "title": "Decoding and encoding again never takes more than a third more room", "statement": "If a decoder returns a message after reading n bytes, encoding that message gives at most 4n/3 bytes; for answers to SASL challenges 2/3 of a byte more, for greetings 7/3 and for responses 13/3, and these constants are exact. So a limit on received messages is a limit on what a relay that decodes and encodes will send.", "quantifier": "all feature sets, all inputs, all five decoders and encoders, and for the limit all histories of the fragmentizer", "why_tests_cant": "the encoders do not write what was read (NIL for empty lists, quotes around dates, parentheses around single values, CRLF for LF, normal forms of sequence sets, '...' for missing texts); how these add up over nested and repeated structures can only be settled for all of them at once", "anchors": ["imap-codec/src/codec/encode.rs: every EncodeIntoContext implementation", "imap-codec/src/codec/decode.rs: the five decoders", "imap-codec/src/fragmentizer.rs: Fragmentizer::decode_message", "imap-types/src/sequence.rs: SequenceSet", "imap-codec/src/core.rs, body.rs, response.rs: quirks"]}
{"id": "C62", "title": "Quirks never show on the wire and never change what is understood", "statement": "Two builds with the same extension features understand each other whatever their quirk features are: what one of them encodes, the other decodes to the same message (up to the normal form of sequence sets and NIL for empty ID lists, if the writer has these quirks). Whatever a build with quirks accepted, it encodes as something that a build without any quirk decodes to the same message: it repairs what it passes on. And a message accepted without some quirk is decoded to the same message with it.", "quantifier": "all pairs of feature sets with the same extensions, all messages and all inputs; the exceptions (MODSEQ in FETCH, a space after the last capability in a code) are part of the statements", "why_tests_cant": "it ranges over all pairs of feature sets and all messages; the test suite is built with one feature set at a time", "anchors": ["imap-codec/Cargo.toml: quirk_* features", "imap-codec/src/codec/encode.rs: every EncodeIntoContext implementation", "imap-codec/src/codec/decode.rs: the five decoders", "imap-codec/src/core.rs, body.rs, response.rs, envelope.rs, fetch.rs, extensions/id.rs, extensions/quota.rs: quirks"]}
{"id": "C63", "title": "Control characters and 8-bit bytes only travel in literals", "statement": "Without ext_utf8, a decoded command, authenticate data or IDLE done is a line of text (ASCII without NUL, CR and LF) with its line ending, apart from literals, which are announced with their exact length. So is a decoded response or greeting whose code is known; with an unknown code it still has no CR or LF outside of literals. And so is every message that is encoded from values the types allow, if an unknown code or referral in it is text: nothing the application puts into a message can start a new line.", "quantifier": "all inputs, all values of the public types, all feature sets without ext_utf8", "why_tests_cant": "it must hold for every input and every value: a single field that is written without a check would let a message be injected", "anchors": ["imap-codec/src/codec/encode.rs: every EncodeIntoContext implementation", "imap-codec/src/codec/decode.rs: the five decoders", "imap-types/src/core.rs: Atom, Quoted, Literal, Text, Tag", "imap-types/src/response.rs: Code::Referral, CodeOther"]}
{"id": "C64", "title": "A message that passes many relays settles and does not grow", "statement": "A relay decodes a message and passes its encoding on. When a message passes any number of relays, possibly of builds with different quirks but the same extensions, then: no relay rejects what another one has sent; a relay that was passed once would from then on pass the message on unchanged; the row of relays does what a single relay could have done, so the result takes at most a third more room than the input, however many relays there are; and the last receiver reads the message the first relay has read, up to the normal form of sequence sets and NIL for an empty ID list where a relay writes these. (Responses with a MODSEQ item excepted, see C13.)", "quantifier": "all inputs, all rows of relays of any length, all feature sets with the same extensions", "why_tests_cant": "it ranges over all inputs and over rows of relays of any length", "anchors": ["imap-codec/src/codec/decode.rs: the Decoder implementations", "imap-codec/src/codec/encode.rs: the Encoder implementations, the quirks quirk_always_normalize_sequence_sets and quirk_id_empty_to_nil", "imap-codec/Cargo.toml: features"]}
{"id": "C65", "title": "Fragment information stays valid for its message", "statement": "The FragmentInfo that progress has returned gives, with fragment_bytes, the same bytes as long as its message is the current one, whatever is enqueued and parsed in the meantime, and also if the size limit is exceeded in the meantime. fragment_bytes never panics for a FragmentInfo that a Fragmentizer has returned, in any state of any Fragmentizer. The fragments of a message follow each other without gap or overlap, starting at position 0; the literal after an announcement has the announced length.", "quantifier": "all histories of enqueue_bytes, progress, skip_message and poison_message calls, all limits", "why_tests_cant": "it must hold for every history of calls and every limit, in particular when the limit is reached inside of a fragment", "anchors": ["imap-codec/src/fragmentizer.rs: Fragmentizer::fragment_bytes, Fragmentizer::progress, FragmentInfo, LineParser, LiteralParser"]}
{"id": "C66", "title": "The fragmentizer example shows every fragment and message", "statement": "The example program that shows the fragments of its input never panics, whatever it reads and however the input arrives. It shows exactly the lines and literals of the input and every complete message (up to the limit of 1024 bytes), independently of how the input arrives, in printable ASCII. read_line of the other examples ends every line in CRLF and changes nothing else.", "quantifier": "all inputs, all ways they are cut into reads of 1 to 64 bytes", "why_tests_cant": "it ranges over all inputs and all ways they can arrive", "anchors": ["imap-codec/examples/fragmentizer.rs: main", "imap-codec/examples/common/common.rs: read_line", "imap-types/src/utils.rs: escape_byte_string"]}
{"id": "C67", "title": "The stack that decoding needs is known", "statement": "Decoding a command never needs more than ten nested calls of the recursive parsers, whether the command is accepted or rejected, and ten are needed. Decoding a response of n bytes never needs more than 16 + 6*n/77; no fixed number is enough for all responses, and the bound is met up to a constant. So a limit on the size of messages bounds the stack, and without one a peer can overflow it.", "quantifier": "all byte sequences, all sizes of the stack, all feature sets", "why_tests_cant": "it ranges over all inputs and needs the worst case; a test shows only the stack use of the inputs it tries", "anchors": ["imap-codec/src/search.rs: search_key_limited", "imap-codec/src/body.rs: body_limited, body_type_msg_limited, body_type_mpart_limited, body_extension_limited", "imap-codec/src/extensions/thread.rs: thread_list_limited"]}
{"id": "C68", "title": "Debug and release builds decode the same", "statement": "A build without debug assertions, in which the constructors for unvalidated values check nothing, gives for every input the same result as a build with them: the same message and remainder, or the same error. Neither panics, and no message of a release build contains an invalid value although nothing would stop it.", "quantifier": "all byte sequences, all states of a receive buffer, all feature sets, both kinds of builds", "why_tests_cant": "tests run in one kind of build, usually with the checks on, and programs ship in the other; that the checks never fire must hold for all inputs", "anchors": ["imap-types/src/core.rs: Atom::unvalidated, AtomExt::unvalidated, Quoted::unvalidated, Tag::unvalidated, Text::unvalidated, QuotedChar::unvalidated, VecN::unvalidated", "imap-types/src/datetime.rs: DateTime::unvalidated, NaiveDate::unvalidated", "imap-types/src/mailbox.rs: ListCharString::unvalidated", "imap-codec/src/codec/decode.rs: GreetingCodec, CommandCodec, ResponseCodec"]}
{"id": "C69", "title": "Clients' messages: exactly the documented ABNF, up to a marked list of differences", "statement": "The decoders of commands, authentication lines and IDLE terminators accept a text and leave the rest exactly when the text is derivable from the formal syntax (ABNF of RFC 3501 and of the extensions) quoted in the documentation of the parsers, changed at the places that are marked in the grammar and nowhere else: what is accepted in addition (leading zeros, empty attribute lists, the quirks), and what is not accepted (dates that do not exist, base64 that is not canonical, keys nested beyond the limit).", "quantifier": "all byte sequences, all feature sets", "why_tests_cant": "the language of a grammar is infinite, and that nothing else is accepted can not be seen from examples", "anchors": ["imap-codec/src/codec/decode.rs: CommandCodec, AuthenticateDataCodec, IdleDoneCodec", "imap-codec/src/command.rs: documentation of the parsers", "imap-codec/src/search.rs", "imap-codec/src/fetch.rs", "imap-codec/src/core.rs", "imap-codec/src/extensions"]}
{"id": "C70", "title": "Servers' messages: exactly the documented ABNF, up to a marked list of differences", "statement": "The decoders of greetings and responses accept a text and leave the rest exactly when the text is derivable from the formal syntax (ABNF of RFC 3501 and of the extensions) quoted in the documentation of the parsers, changed at the places that are marked in the grammar and nowhere else: what is accepted in addition (capabilities without IMAP4rev1, unknown codes of any bytes, empty body parameters, the quirks), and what is not accepted (human-readable text that starts with a bracket, nesting beyond the limits, a list of charsets with a bracket inside that no text follows). What is documented and keeps to the limits is decoded, whatever bytes follow.", "quantifier": "all byte sequences, all feature sets", "why_tests_cant": "the language of a grammar is infinite, and that nothing else is accepted can not be seen from examples", "anchors": ["imap-codec/src/codec/decode.rs: GreetingCodec, ResponseCodec", "imap-codec/src/response.rs: documentation of the parsers", "imap-codec/src/body.rs", "imap-codec/src/envelope.rs", "imap-codec/src/fetch.rs: msg_att", "imap-codec/src/mailbox.rs: mailbox_data", "imap-codec/src/extensions"]}
{"id": "C71", "title": "What is sent is documented: nothing is written that only a lenient receiver takes", "statement": "The bytes the encoders produce for a message are a text of the formal syntax (ABNF of RFC 3501 and of the extensions) quoted in the documentation of the parsers, without the additions the decoders also accept; response codes are codes of that syntax. This holds for every value the types admit, except the ones listed: FETCH and STATUS with an empty list, numbers of 64 bits in quotas and DELETED-STORAGE, * in sets of known UIDs, quoted UTF-8 strings with CR, LF or NUL, literals of 4 GiB and more, capabilities without IMAP4rev1, unknown codes and referrals that are not an atom and a text, a message/rfc822 body described as a basic one, and the MODSEQ item of FETCH responses. Except for literals of 4 GiB, an instance of each exception is proved not to be documented. A message that was decoded is sent on in the documented syntax under the same exceptions, of which the literals can not occur.", "quantifier": "all commands, authentication data, greetings and responses the types admit, whether decoded or built by hand, all feature sets", "why_tests_cant": "the messages are infinitely many, and every combination of values has to be written in the order, with the separators and in the character set of the grammar", "anchors": ["imap-codec/src/codec/encode.rs: Encoder for CommandCodec, AuthenticateDataCodec, IdleDoneCodec, GreetingCodec, ResponseCodec", "imap-codec/src: documentation of the parsers", "imap-types/src: invariants of the types"]}
{"id": "C72", "title": "A stream can be read in only one way", "statement": "No message is the beginning of another message of its kind, and no message is empty. So the bytes of a connection, given which kind of message is next at each point, can be cut into messages in only one way, and what is left over is determined as well; a stream of commands, and a greeting followed by responses, can not be read as more, fewer or other messages. The kind has to be known: DONE is the end of IDLE and a line of base64.", "quantifier": "all byte streams and all ways to cut them, all sequences of kinds of messages, all feature sets", "why_tests_cant": "that no other way to cut a stream exists is a statement about all byte sequences; two parties that cut differently can be made to disagree on commands (request smuggling)", "anchors": ["imap-codec/src/codec/decode.rs: Decoder for CommandCodec, AuthenticateDataCodec, IdleDoneCodec, GreetingCodec, ResponseCodec"]}
{"id": "C73", "title": "Every message of the documented syntax is cut out of the stream, also one that is refused", "statement": "A command, a line of authentication data, the end of IDLE and a response with data that follow the documented syntax are one message for the fragmentizer, even if the decoder refuses them (nesting beyond its limits, a date that does not exist, a code or list it does not like). So a receiver that reads a stream of documented commands gets exactly one answer for each of them, in order and however the bytes arrive; a refused command does not put the receiver out of step, and the decoder never waits for more bytes than the command has. For greetings and responses that end in a text for humans the same holds unless the text ends like the announcement of a literal, such as {5}.", "quantifier": "all texts of the documented grammar (of any depth and length), all streams of them, all ways to cut a stream into chunks, all feature sets", "why_tests_cant": "the commands that are refused are infinitely many, and a command after which the receiver is out of step lets the bytes of a literal be taken for commands", "anchors": ["imap-codec/src/fragmentizer.rs: Fragmentizer::progress, LineParser", "imap-codec/src/codec/decode.rs: Decoder for CommandCodec"]}
{"id": "C74", "title": "Every command can be answered with its tag", "statement": "A server that reads through the fragmentizer, takes the tag of each command that decodes and asks decode_tag for the tag of each message that does not (refused, or longer than the limit) answers a stream of commands with exactly their tags, each once and in order, however the bytes arrive. This holds for every stream of messages that start with a tag and a space, and every documented command does. The limit only has to leave room for the tag and the space. If the server sends one tagged response for each answer, the client receives exactly one response for each command it sent, with its tag.", "quantifier": "all streams of messages, all ways to cut them into chunks, all limits, all commands and responses that can be built, all feature sets (the exchange: without ext_utf8)", "why_tests_cant": "a client that does not find the tag of its command in any response waits forever; refused and truncated messages are infinitely many", "anchors": ["imap-codec/src/fragmentizer.rs: Fragmentizer::decode_tag, decode_message, parse_tag", "imap-codec/src/codec/decode.rs: CommandCodec, ResponseCodec"]}
{"id": "C75", "title": "Errors can be shown and logged", "statement": "The text of a validation error says what is wrong (for a wrong byte: which one, in hexadecimal, and at which index), and the text of the error of a constructor with several arguments also says which argument is wrong; different errors have different texts. Whatever the arguments were, the text is one line of printable ASCII. The text of a failed LOGIN depends on the password only through the positions of the NUL bytes in it. The text of a date's error gives the year, the nanoseconds or the seconds of the offset that are not allowed.", "quantifier": "all arguments (byte strings, lists, dates) of the constructors of commands and of quota responses", "why_tests_cant": "texts are shown to users and written to logs; that no argument can put a line break, a control character or a secret in them, or make two errors look the same, concerns all arguments", "anchors": ["imap-types/src/error.rs: ValidationError, ValidationErrorKind", "imap-types/src/command.rs: error::LoginError, RenameError, ListError, AppendError, CopyError", "imap-types/src/extensions/quota.rs: error", "imap-types/src/extensions/move.rs: error::MoveError", "imap-types/src/extensions/namespace.rs: error::NamespaceError", "imap-types/src/datetime.rs: error::DateTimeError, NaiveDateError"]}
{"id": "C76", "title": "A client finds the answer to each of its commands", "statement": "A client gives its commands tags from TagGenerators and sends them; the server reads them, and sends one tagged response for each answer it has to give, in any order and mixed with any untagged responses and continuation requests. Then the client, which picks the responses with the tag of a command from what it receives through the fragmentizer, finds exactly one for each of its commands, the one that the server sent with this tag. At every moment, with some beginning of the stream received in any pieces, it has found the answer if and only if the last byte of the answer has arrived; a response to another command, an untagged response or an incomplete one is never taken for it.", "quantifier": "all commands and responses that can be built, all orders of the answers, all ways to cut both streams into chunks, all beginnings of the server's stream, all uses of the tag generators within their bounds; without ext_utf8", "why_tests_cant": "whether an answer is found, found twice or found too early depends on the tags, the order of the responses and the cuts of the stream, which are infinitely many", "anchors": ["imap-types/src/core.rs: TagGenerator", "imap-codec/src/fragmentizer.rs: Fragmentizer", "imap-codec/src/codec/decode.rs: CommandCodec, ResponseCodec", "imap-codec/src/codec/encode.rs: Encoder for CommandCodec, ResponseCodec"]}
{"id": "C77", "title": "The example server withstands any client", "statement": "Whatever bytes a client sends, and in whatever pieces they arrive, the server loop of the example always comes back to waiting for more bytes and never panics. What it has sent and learned depends on the bytes only, not on how they were cut, and is never taken back. While it waits, it holds no more bytes than the limit for a message, and what it is shown of a message that was too long or given up is within the limit too. It sends at most one line, and reports at most one message, for each line that it receives. It says OK exactly once for each AUTHENTICATE that it received, with its tag, in order and after data for it, the last one possibly excepted, and BAD exactly for the messages whose literal it refused, with their tags; each IDLE ends with a DONE, the last one possibly excepted.", "quantifier": "all byte strings a client can send, all ways to cut them into chunks, both limits of the server, all combinations of cargo features", "why_tests_cant": "a hostile client can send anything; the loop mixes skipped, poisoned, too long and complete messages with three states, and none of the infinitely many histories may make it stall, grow, flood or answer what was not asked", "anchors": ["imap-codec/examples/server.rs: main", "imap-codec/src/fragmentizer.rs: Fragmentizer::{progress, skip_message, poison_message, decode_tag, decode_message}"]}
