{
 "claims": [
  {
   "property": "C01",
   "status": "proved",
   "theorems": [
    "C01_chunking",
    "C01_draining_terminates"
   ],
   "note": "Any two histories of enqueue_bytes/progress calls feeding the same stream."
  },
  {
   "property": "C02",
   "status": "proved",
   "theorems": [
    "C02_conservation"
   ],
   "note": "Spec: FragSpec.messages_add_up, delivered."
  },
  {
   "property": "C03",
   "status": "proved",
   "theorems": [
    "C03_lines_and_literals",
    "C03_split_unique",
    "C03_announcement_unique"
   ],
   "note": "Refinement to the declarative relation FragSpec.splits."
  },
  {
   "property": "C04",
   "status": "proved",
   "theorems": [
    "C04_limit",
    "frag_buffer_bounded"
   ],
   "note": "Every history, including skip and poison calls, against the unlimited twin."
  },
  {
   "property": "C05",
   "status": "proved",
   "theorems": [
    "C05_boundaries"
   ],
   "note": ""
  },
  {
   "property": "C06",
   "status": "proved",
   "theorems": [
    "C06_too_long",
    "C06_poisoned",
    "C06_decode"
   ],
   "note": "For an arbitrary decoder."
  },
  {
   "property": "C07",
   "status": "proved",
   "theorems": [
    "C07_skip",
    "C07_after_skip",
    "C07_next_message_fresh",
    "C07_poison_persists"
   ],
   "note": ""
  },
  {
   "property": "C08",
   "status": "proved",
   "theorems": [
    "C08_decode_tag",
    "C08_command_tag"
   ],
   "note": ""
  },
  {
   "property": "C09",
   "status": "proved",
   "theorems": [
    "C09_command",
    "C09_command_exact",
    "C09_scope",
    "C09_command_iff"
   ],
   "note": "The exclusions are shown to be exact (C09_scope, C09_command_iff) and each is witnessed by an example (DefaultExamples, AllExamples)."
  },
  {
   "property": "C10",
   "status": "proved",
   "theorems": [
    "C10_response",
    "C10_response_other",
    "C10_scope",
    "C10_response_iff"
   ],
   "note": "The exclusions are shown to be exact, except that MODSEQ is excluded by has_modseq."
  },
  {
   "property": "C11",
   "status": "proved",
   "theorems": [
    "C11_greeting",
    "C11_scope"
   ],
   "note": ""
  },
  {
   "property": "C12",
   "status": "proved",
   "theorems": [
    "C12_authenticate_data",
    "C12_idle_done"
   ],
   "note": ""
  },
  {
   "property": "C13",
   "status": "partial",
   "theorems": [
    "C13_command",
    "C13_response_partial",
    "C13_response_iff",
    "C13_modseq_rejected",
    "C13_greeting"
   ],
   "note": "Proved for all commands, greetings and responses but FETCH responses with a MODSEQ item, for which it is false (C13_response_iff: a decoded response is read back exactly if it has no such item; C13_modseq_rejected: with one it is always rejected): the encoder writes MODSEQ 5 where the decoder reads MODSEQ (5) (AllExamples.C10_modseq_refuted)."
  },
  {
   "property": "C14",
   "status": "proved",
   "theorems": [
    "C14_command_valid",
    "C14_response_valid",
    "C14_greeting_valid"
   ],
   "note": "Validity is v_command/v_response/v_greeting LType of Valid.v: every invariant of the public constructors."
  },
  {
   "property": "C15",
   "status": "proved",
   "theorems": [
    "C15_command_stable",
    "C15_response_stable",
    "C15_greeting_stable",
    "C15_authenticate_data_stable",
    "C15_idle_done_stable"
   ],
   "note": "The consumed part is shown to end in LF, hence non-empty."
  },
  {
   "property": "C16",
   "status": "proved",
   "theorems": [
    "C16_command_failure_final",
    "C16_response_failure_final",
    "C16_greeting_failure_final",
    "C16_authenticate_data_failure_final",
    "C16_idle_done_failure_final"
   ],
   "note": ""
  },
  {
   "property": "C17",
   "status": "proved",
   "theorems": [
    "C17_command_prefix",
    "C17_response_prefix",
    "C17_greeting_prefix",
    "C17_authenticate_data_prefix",
    "C17_idle_done_prefix"
   ],
   "note": ""
  },
  {
   "property": "C18",
   "status": "proved",
   "theorems": [
    "C18_command_literal_sound",
    "C18_response_literal_sound"
   ],
   "note": ""
  },
  {
   "property": "C19",
   "status": "proved",
   "theorems": [
    "C19_command_literal",
    "C19_response_literal"
   ],
   "note": "Greetings, authenticate data and IDLE done contain no literals (C17: their prefixes are Incomplete)."
  },
  {
   "property": "C20",
   "status": "proved",
   "theorems": [
    "C20_no_panic"
   ],
   "note": "Every unwrap/expect/unreachable of the modelled decoders is a RPanic result in the model and fuel exhaustion is RPanic too, so the theorem covers both; stack depth is C21."
  },
  {
   "property": "C21",
   "status": "partial",
   "theorems": [
    "C21_search_depth",
    "C21_thread_depth",
    "C21_multipart_depth",
    "C21_extension_depth",
    "C21_message_nesting_refuted",
    "C21_nesting_needs_bytes",
    "C21_nesting_limited",
    "C21_nesting_bytes_attained",
    "C21_nesting_depth_attained"
   ],
   "note": "The full claim is false for embedded messages: the recursion limit is reset for each message/rfc822 body, so every nesting depth can be decoded. Proved instead: every embedded message takes 75 bytes of input, so the depth is at most 6 + 6 * (length / 75); both constants are attained."
  },
  {
   "property": "C22",
   "status": "proved",
   "theorems": [
    "C22_framed"
   ],
   "note": ""
  },
  {
   "property": "C23",
   "status": "proved",
   "theorems": [
    "C23_command",
    "C23_response",
    "C23_greeting",
    "C23_authenticate_data",
    "C23_idle_done"
   ],
   "note": "Also: the bytes after the message are parsed as if nothing had preceded them. The two exclusions (a status text that ends like a literal announcement; LF in a QuotedUtf8 with ext_utf8) are necessary: Examples C23_text_refuted and C23_utf8_refuted."
  },
  {
   "property": "C24",
   "status": "proved",
   "theorems": [
    "C24_commands",
    "C24_responses",
    "C24_nothing_else",
    "C24_total"
   ],
   "note": "Also for messages above the limit: they are reported as too long and do not disturb the others."
  },
  {
   "property": "C25",
   "status": "proved",
   "theorems": [
    "C25_escape",
    "C25_unescape",
    "C25_inverse",
    "C25_unique"
   ],
   "note": "Spec: ValueSpec.quoted_body."
  },
  {
   "property": "C26",
   "status": "proved",
   "theorems": [
    "C26_atom",
    "C26_atom_ext",
    "C26_tag",
    "C26_text",
    "C26_list_char_string",
    "C26_quoted",
    "C26_literal",
    "C26_quoted_char",
    "C26_istring",
    "C26_nstring",
    "C26_astring",
    "C26_astring_form",
    "C26_charset",
    "C26_list_mailbox",
    "C26_vec_n"
   ],
   "note": "Character classes are transcribed from the RFC 3501 ABNF in ValueSpec.v; errors are exact (kind, byte, position)."
  },
  {
   "property": "C27",
   "status": "proved",
   "theorems": [
    "C27_convert",
    "C27_convert_error",
    "C27_unique",
    "C27_decode",
    "C27_other"
   ],
   "note": ""
  },
  {
   "property": "C28",
   "status": "proved",
   "theorems": [
    "C28_iter",
    "C28_iter_naive",
    "C28_yields_unique"
   ],
   "note": "The iterator is modelled as the state machine of SequenceSetIter::next; its two unwraps are explicit panics."
  },
  {
   "property": "C29",
   "status": "partial",
   "theorems": [
    "C29_normalize_deterministic",
    "C29_normalize_tidy",
    "C29_meaning_partial",
    "C29_meaning_exact",
    "C29_meaning_without_asterisk",
    "C29_meaning_refuted",
    "C29_asterisk_lost_refuted",
    "C29_large_bound_refuted",
    "C29_above_largest_refuted"
   ],
   "note": "Determinism, canonical form and idempotence hold for all sets. Preservation of meaning is false for numbers above the largest message or near 2^32 (three witnesses); proved for all other sets, and for sets without * whatever the largest message (C29_meaning_without_asterisk). C29_meaning_exact says for every set what it means after normalising, with * read as 2^32-1: only that number itself can come or go, and when."
  },
  {
   "property": "C30",
   "status": "partial",
   "theorems": [
    "C30_from_str",
    "C30_from_str_accepts",
    "C30_print_then_from_str",
    "C30_range",
    "C30_range_inclusive",
    "C30_range_to",
    "C30_range_to_inclusive",
    "C30_range_from",
    "C30_nonzero_range_inclusive",
    "C30_nonzero_range_to_inclusive",
    "C30_nonzero_range_to",
    "C30_nonzero_range_from",
    "C30_range_full",
    "C30_list",
    "C30_from_str_plus_refuted",
    "C30_empty_range_refuted",
    "C30_nonzero_range_refuted",
    "C30_from_str_exact",
    "C30_range_exact",
    "C30_range_meaning_exact",
    "C30_range_inclusive_exact",
    "C30_empty_range_exact",
    "C30_range_from_exact",
    "C30_nonzero_range_exact",
    "C30_nonzero_bounds_exact",
    "C30_list_exact",
    "C30_number_list_exact"
   ],
   "note": "The _exact theorems say for all texts, ranges and lists what they give. Three parts are false of the code: '+5' is accepted as text, empty ranges are not rejected, and a half-open NonZeroU32 range ignores its start (5..10 gives 1:9)."
  },
  {
   "property": "C31",
   "status": "proved",
   "theorems": [
    "C31_basic",
    "C31_basic_accepts",
    "C31_base64",
    "C31_decoded"
   ],
   "note": ""
  },
  {
   "property": "C32",
   "status": "partial",
   "theorems": [
    "C32_known_names",
    "C32_known_capabilities",
    "C32_other_keeps_text",
    "C32_other_not_known",
    "C32_from_bytes",
    "C32_sha3_refuted",
    "C32_namespace_refuted",
    "C32_names_exact",
    "C32_flags_exact",
    "C32_capabilities_exact",
    "C32_quota_resource_refuted"
   ],
   "note": "The _exact theorems say for every atom what it is converted to. Proved for all known names but three that no conversion from text returns: the AuthMechanism variants SCRAM-SHA3-512(-PLUS) and Capability::Namespace (refuted by witnesses); QUOTA=XRES-STORAGE is taken for a known name."
  },
  {
   "property": "C33",
   "status": "proved",
   "theorems": [
    "C33_encode",
    "C33_decode",
    "C33_canonical",
    "C33_function",
    "C33_read"
   ],
   "note": "Spec: ValueSpec.base64 (RFC 4648 section 4)."
  },
  {
   "property": "C34",
   "status": "proved",
   "theorems": [
    "C34_decoded_dates",
    "C34_decoded_times",
    "C34_date_survives",
    "C34_time_survives",
    "C34_internal_date_survives",
    "C34_validate"
   ],
   "note": "Spec: ValueSpec.real_date, real_date_time."
  },
  {
   "property": "C35",
   "status": "proved",
   "theorems": [
    "C35_command",
    "C35_response",
    "C35_greeting",
    "C35_digits",
    "C35_number",
    "C35_exists",
    "C35_expunge",
    "C35_literal_length"
   ],
   "note": "C35_command, C35_response and C35_greeting cover every number of every message: in order, each is the value of a whole run of digits of the text and in the range of its type, so a larger one is never wrapped or cut."
  },
  {
   "property": "C36",
   "status": "proved",
   "theorems": [
    "C36_command",
    "C36_response",
    "C36_greeting",
    "C36_idle_done",
    "C36_command_name",
    "C36_authenticate"
   ],
   "note": "inputs that differ only in letter case give the same error or the same values up to the case of their strings; changing only the case of the name of a command does not change the outcome at all. Base64 data (AUTHENTICATE, continuation requests) is case-sensitive and excluded: C36_authenticate covers the names in AUTHENTICATE commands."
  },
  {
   "property": "C37",
   "status": "proved",
   "theorems": [
    "C37_unique",
    "C37_wraps"
   ],
   "note": "Every interleaving of atomic new and generate events."
  },
  {
   "property": "C38",
   "status": "proved",
   "theorems": [
    "C38_command_injective",
    "C38_response_injective",
    "C38_greeting_injective"
   ],
   "note": "Even prefix-free: if two encodings followed by anything agree, the messages and the rests are equal. Totality: the encoder model is a total function (writing to a Vec does not fail)."
  },
  {
   "property": "C39",
   "status": "proved",
   "theorems": [
    "C39_command",
    "C39_response",
    "C39_no_literals",
    "C09_command",
    "C10_response_other",
    "C22_framed"
   ],
   "note": "changing the modes of the literals in a message changes exactly the literal fragments and their announcements; decoding restores the value with its modes (C09, C10)."
  },
  {
   "property": "C40",
   "status": "proved",
   "theorems": [
    "C40_partial_cmp",
    "C40_incomparable_overlap"
   ],
   "note": ""
  },
  {
   "property": "C41",
   "status": "proved",
   "theorems": [
    "C41_in_order",
    "C41_no_deadlock",
    "C41_terminates",
    "C41_completes",
    "C41_stopped",
    "C41_long_tag_refuted"
   ],
   "note": "Sessions of a client and the server loop of examples/server.rs, all interleavings; C41_long_tag_refuted shows that the condition on the tag is needed."
  },
  {
   "property": "C42",
   "status": "proved",
   "theorems": [
    "C42_printable",
    "C42_injective"
   ],
   "note": ""
  },
  {
   "property": "C43",
   "status": "proved",
   "theorems": [
    "C43_login",
    "C43_login_error",
    "C43_mailbox",
    "C43_rename",
    "C43_list",
    "C43_append",
    "C43_get_quota",
    "C43_name",
    "C43_tag",
    "C43_sent",
    "C43_mailbox_error",
    "C43_second_error",
    "C43_quota_error",
    "C43_set_error",
    "C43_copy_error",
    "C43_status",
    "C43_fetch",
    "C43_store",
    "C43_copy",
    "C43_set_quota",
    "C43_enable",
    "C43_plain"
   ],
   "note": ""
  },
  {
   "property": "C44",
   "status": "proved",
   "theorems": [
    "C44_command",
    "C44_response",
    "C44_greeting",
    "C44_authenticate_data",
    "C44_idle_done"
   ],
   "note": "For the grammar in Grammar.v, every feature set."
  },
  {
   "property": "C45",
   "status": "proved",
   "theorems": [
    "C45_command",
    "C45_response",
    "C45_greeting",
    "C45_authenticate_data",
    "C45_idle_done",
    "C45_unambiguous",
    "C45_unambiguous_response",
    "C45_unambiguous_greeting",
    "C45_exactly",
    "C45_exactly_response",
    "C45_exactly_greeting",
    "C45_exactly_authenticate_data",
    "C45_exactly_idle_done"
   ],
   "note": "For the grammar in Grammar.v, every feature set."
  },
  {
   "property": "C46",
   "status": "proved",
   "theorems": [
    "C46_command",
    "C46_authenticate_data",
    "C46_decode_message",
    "C46_decode_authenticate_data",
    "C46_fragmentizer_refuted",
    "C46_encoded_refuted"
   ],
   "note": "for builds without debug assertions (the documented case); how the standard library prints strings is a parameter of the theorems; the state of the fragmentizer and encoded messages print their bytes (the two *_refuted theorems)"
  },
  {
   "property": "C47",
   "status": "proved",
   "theorems": [
    "C47_command",
    "C47_response",
    "C47_greeting",
    "C47_authenticate_data",
    "C47_state",
    "C47_injective"
   ],
   "note": "For every value that satisfies the invariants of its type, every feature set; the format is a tree of maps, sequences and leaves."
  },
  {
   "property": "C48",
   "status": "proved",
   "theorems": [
    "C48_command",
    "C48_response",
    "C48_greeting",
    "C48_state",
    "C48_fuel",
    "C48_all_refuted"
   ],
   "note": "A deserialised value is valid iff no Other variant carries a known name; C48_all_refuted shows that the exception is needed."
  },
  {
   "property": "C49",
   "status": "proved",
   "theorems": [
    "C49_greeting",
    "C49_status",
    "C49_bye",
    "C49_data_capability",
    "C49_data_expunge",
    "C49_data_fetch",
    "C49_data_quota",
    "C49_data_quota_root",
    "C49_data_quota_error",
    "C49_code_numbers",
    "C49_code_lists",
    "C49_selectability",
    "C49_macros"
   ],
   "note": "Decoding back is under the conditions of C10 and C11 on the code and the text."
  },
  {
   "property": "C50",
   "status": "proved",
   "theorems": [
    "C50_command",
    "C50_greeting",
    "C50_response",
    "C50_command_back",
    "C50_command_target",
    "C50_command_target_cases",
    "C50_greeting_target",
    "C50_response_target",
    "C50_authenticate_data_target",
    "C50_decode_command",
    "C50_decode_greeting",
    "C50_decode_response",
    "C50_decode_authenticate_data",
    "C50_tags",
    "C50_fragmentizer_runs",
    "C50_fragmentizer",
    "C50_command_target_refuted",
    "C50_decode_command_refuted",
    "C50_response_target_refuted",
    "C50_no_extension_list"
   ],
   "note": "The exceptions in the statement are the hypotheses of the _target and _decode theorems; the _refuted theorems show that they are needed."
  },
  {
   "property": "C51",
   "status": "proved",
   "theorems": [
    "C51_session",
    "C51_chunking",
    "C51_total",
    "C51_online",
    "C51_greeting_first",
    "C51_long_greeting_refuted"
   ],
   "note": "responses must be recognisable (quiet texts, no MODSEQ item, see C10 and C23); a greeting above the limit is not part of the claim: C51_long_greeting_refuted shows that the client then takes a response for the greeting"
  },
  {
   "property": "C52",
   "status": "proved",
   "theorems": [
    "C52_thread",
    "C52_thread_encoded",
    "C52_text_and_back"
   ],
   "note": "values the checked constructors can make; SCRAM-SHA3-512(-PLUS) and NAMESPACE are not read back (C32); a mailbox attribute is converted from the atom after its backslash, there is no conversion from text"
  },
  {
   "property": "C53",
   "status": "proved",
   "theorems": [
    "C53_command",
    "C53_response",
    "C53_greeting",
    "C53_authenticate_data",
    "C53_limit",
    "C53_limit_response"
   ],
   "note": "the exception '+' LF is in the statement of C53_response; numbers, dates and fixed words are not counted"
  },
  {
   "property": "C54",
   "status": "proved",
   "theorems": [
    "C54_command",
    "C54_greeting",
    "C54_response",
    "C54_authenticate_data",
    "C54_never_west",
    "C54_never_nonsync_mailbox",
    "C54_never_different_answers"
   ],
   "note": "the primitives of the crate arbitrary are modelled as reaching their whole range; what is left out is r_command etc. in ArbSpec.v"
  },
  {
   "property": "C55",
   "status": "proved",
   "theorems": [
    "C55_counted_progress",
    "C55_counted_tag",
    "C55_counted_history",
    "C55_history",
    "C55_history_pays",
    "C55_receive",
    "C55_receive_total",
    "C55_receive_history"
   ],
   "note": "the counted fragmentizer does what the model of C01-C08 does (C55_counted_*); what Vec and VecDeque do to grow is trusted"
  },
  {
   "property": "C56",
   "status": "proved",
   "theorems": [
    "C56_counted_command",
    "C56_counted_response",
    "C56_counted_greeting",
    "C56_counted_authenticate_data",
    "C56_counted_idle_done",
    "C56_pays_command",
    "C56_pays_response",
    "C56_pays_greeting",
    "C56_command",
    "C56_response",
    "C56_greeting",
    "C56_authenticate_data",
    "C56_idle_done"
   ],
   "note": "the counted decoders return what the decoders of the model return (C56_counted_*); the steps of the functions of nom, abnf-core and base64 are trusted as stated in CostNom.v"
  },
  {
   "property": "C57",
   "status": "proved",
   "theorems": [
    "C57_message_unique",
    "C57_messages",
    "C57_receiver",
    "C57_command_consumes",
    "C57_command_waits",
    "C57_command_decides",
    "C57_server",
    "C57_same_commands",
    "C57_histories",
    "C57_authenticate_data",
    "C57_idle_done",
    "C57_greeting",
    "C57_response_consumes",
    "C57_response_waits",
    "C57_continuation_waits",
    "C57_response_decides",
    "C57_utf8_consumes_refuted",
    "C57_utf8_waits_refuted",
    "C57_bare_lf_refuted",
    "C57_text_consumes_refuted"
   ],
   "note": "false with ext_utf8 (C57_utf8_*_refuted); the two exceptions for responses are in the statements and shown real"
  },
  {
   "property": "C58",
   "status": "proved",
   "theorems": [
    "C58_server_chunks",
    "C58_server_reads",
    "C58_server_all",
    "C58_client_chunks",
    "C58_client_reads",
    "C58_client_all"
   ],
   "note": "the reader itself is written down in ReaderSpec.v: it is the loop the documentation of Decoder suggests, there is no such loop in the crate"
  },
  {
   "property": "C59",
   "status": "proved",
   "theorems": [
    "C59_command",
    "C59_response",
    "C59_greeting",
    "C59_response_greeting",
    "C59_authenticate_data",
    "C59_authenticate_data_idle",
    "C59_idle_done"
   ],
   "note": "the exceptions are exact: C59_greeting, C59_response_greeting, C59_idle_done"
  },
  {
   "property": "C60",
   "status": "proved",
   "theorems": [
    "C60_command",
    "C60_response",
    "C60_greeting",
    "C60_authenticate_data",
    "C60_idle_done",
    "C60_command_same",
    "C60_response_same",
    "C60_greeting_same",
    "C60_command_peers",
    "C60_response_peers",
    "C60_greeting_peers",
    "C60_converse_refuted"
   ],
   "note": "the features of imap-types are taken to be those of imap-codec, as its Cargo.toml forwards them"
  },
  {
   "property": "C61",
   "status": "proved",
   "theorems": [
    "C61_command",
    "C61_authenticate_data",
    "C61_idle_done",
    "C61_greeting",
    "C61_response",
    "C61_limit",
    "C61_limit_response"
   ],
   "note": "the factor 4/3 is an upper bound that is not claimed to be exact; the added constants are"
  },
  {
   "property": "C62",
   "status": "proved",
   "theorems": [
    "C62_command_meaning",
    "C62_response_meaning",
    "C62_greeting_meaning",
    "C62_greeting_meaning_refuted",
    "C62_command_peers",
    "C62_response_peers",
    "C62_greeting_peers",
    "C62_authenticate_data_peers",
    "C62_idle_done_peers",
    "C62_command_repaired",
    "C62_response_repaired",
    "C62_greeting_repaired",
    "C62_response_strict",
    "C62_greeting_strict"
   ],
   "note": "the one exception, a space after the last capability inside a code, is in the statements and shown to be needed by C62_greeting_meaning_refuted; responses with a MODSEQ item are excluded as in C10"
  },
  {
   "property": "C63",
   "status": "proved",
   "theorems": [
    "C63_command",
    "C63_authenticate_data",
    "C63_idle_done",
    "C63_greeting_lines",
    "C63_response_lines",
    "C63_greeting",
    "C63_response",
    "C63_command_sent",
    "C63_authenticate_data_sent",
    "C63_idle_done_sent",
    "C63_greeting_sent",
    "C63_response_sent",
    "C63_response_refuted",
    "C63_command_refuted",
    "C63_response_sent_refuted"
   ],
   "note": "the conditions (no ext_utf8, the code is text) are needed: the three *_refuted theorems"
  },
  {
   "property": "C64",
   "status": "proved",
   "theorems": [
    "C64_command_once",
    "C64_command_settled",
    "C64_command_passed",
    "C64_command_meaning",
    "C64_command_size",
    "C64_response_once",
    "C64_response_settled",
    "C64_response_passed",
    "C64_response_meaning",
    "C64_response_size",
    "C64_greeting_once",
    "C64_greeting_settled",
    "C64_greeting_passed",
    "C64_greeting_meaning",
    "C64_greeting_size",
    "C64_response_passed_refuted"
   ],
   "note": "for responses and greetings no relay may tolerate a space after the last capability of a code unless the first one does; responses with a MODSEQ item are excluded (C64_response_passed_refuted shows why)"
  },
  {
   "property": "C65",
   "status": "proved",
   "theorems": [
    "C65_stable",
    "C65_no_panic",
    "C65_panics_iff",
    "C65_first",
    "C65_first_after_skip",
    "C65_next"
   ],
   "note": "C65_panics_iff: fragment_bytes can panic for a FragmentInfo that the caller has made up"
  },
  {
   "property": "C66",
   "status": "proved",
   "theorems": [
    "C66_total",
    "C66_shows",
    "C66_chunking",
    "C66_reads",
    "C66_printable",
    "C66_read_line"
   ],
   "note": "what the example prints is a list of events; read_more (which ends the program on the input exit) is not modelled"
  },
  {
   "property": "C67",
   "status": "proved",
   "theorems": [
    "C67_command_stack",
    "C67_command_stack_needed",
    "C67_response_stack",
    "C67_response_stack_size",
    "C67_response_stack_needed",
    "C67_response_stack_unbounded",
    "C67_fragmentizer"
   ],
   "note": "stack use is counted in nested calls of the four recursive parsers; between two of them there is a fixed number of other frames"
  },
  {
   "property": "C68",
   "status": "proved",
   "theorems": [
    "C68_build_independent",
    "C68_debug_release",
    "C68_receive",
    "C68_valid"
   ],
   "note": "the parsers of a release build are in Profile.v; checks inside the dependencies (nom, chrono, base64) are not modelled"
  },
  {
   "property": "C69",
   "status": "proved",
   "theorems": [
    "C69_command",
    "C69_authenticate_data",
    "C69_idle_done",
    "C69_between"
   ],
   "note": "the ABNF with its marked differences is AbnfSpec.v; it says which texts are accepted, what they mean is C44 and C45"
  },
  {
   "property": "C70",
   "status": "proved",
   "theorems": [
    "C70_greeting",
    "C70_response",
    "C70_documented"
   ],
   "note": "the ABNF with its marked differences is AbnfSpec.v; it says which texts are accepted, what they mean is C44 and C45; C69_between holds for these rules as well"
  },
  {
   "property": "C71",
   "status": "proved",
   "theorems": [
    "C71_command",
    "C71_authenticate_data",
    "C71_idle_done",
    "C71_greeting",
    "C71_response",
    "C71_greeting_code",
    "C71_response_code",
    "C71_command_plain",
    "C71_greeting_plain",
    "C71_response_plain",
    "C71_relayed_command",
    "C71_relayed_greeting",
    "C71_relayed_response",
    "C71_empty_status_refuted",
    "C71_empty_fetch_refuted",
    "C71_quota_refuted",
    "C71_known_uids_refuted",
    "C71_regular_refuted",
    "C71_odd_code_refuted",
    "C71_modseq_refuted",
    "C71_capability_refuted",
    "C71_vanished_refuted",
    "C71_rfc822_refuted",
    "C71_deleted_storage_refuted",
    "C71_referral_refuted"
   ],
   "note": "the exceptions are the conditions doc_command, doc_greeting, doc_response and regular of SentSpec.v; the theorems named refuted show that they can not be dropped"
  },
  {
   "property": "C72",
   "status": "proved",
   "theorems": [
    "C72_one_end",
    "C72_prefix_free",
    "C72_one_reading",
    "C72_same_kind",
    "C72_server",
    "C72_documented",
    "C72_kind_needed_refuted"
   ],
   "note": "messages are the texts accepted according to AbnfSpec.v (C69, C70)"
  },
  {
   "property": "C73",
   "status": "proved",
   "theorems": [
    "C73_command",
    "C73_authenticate_data",
    "C73_idle_done",
    "C73_data",
    "C73_greeting",
    "C73_response",
    "C73_decided",
    "C73_stream",
    "C73_server",
    "C73_client",
    "C73_text_refuted",
    "C73_utf8_refuted"
   ],
   "note": "proved for the documented syntax and for what is accepted in addition, except the strings with line endings of the extension UTF8=ACCEPT (C73_utf8_refuted) and texts that end like an announcement (C73_text_refuted)"
  },
  {
   "property": "C74",
   "status": "proved",
   "theorems": [
    "C74_messages",
    "C74_documented",
    "C74_server",
    "C74_pipelined",
    "C74_exchange",
    "C74_total"
   ],
   "note": "the server loop (answer) is part of the statement, in AnswerProps.v; what the server does with a command is left open"
  },
  {
   "property": "C75",
   "status": "proved",
   "theorems": [
    "C75_says",
    "C75_says_date",
    "C75_unambiguous",
    "C75_unambiguous_date",
    "C75_argument",
    "C75_printable",
    "C75_printable_date",
    "C75_strings",
    "C75_copy",
    "C75_quota",
    "C75_tag",
    "C75_password",
    "C75_dates",
    "C75_continue",
    "C75_mailbox_other",
    "C75_fetch"
   ],
   "note": ""
  },
  {
   "property": "C76",
   "status": "proved",
   "theorems": [
    "C76_found",
    "C76_nothing",
    "C76_session"
   ],
   "note": "the client's choice (picked) is part of the statement, in MatchProps.v; responses as in C10 and C24 (no MODSEQ, texts that do not end like an announcement)"
  },
  {
   "property": "C77",
   "status": "proved",
   "theorems": [
    "C77_total",
    "C77_chunking",
    "C77_online",
    "C77_limits",
    "C77_no_flood",
    "C77_answers"
   ],
   "note": "the loop of examples/server.rs (ServerRun.v, Session.v) on any bytes; the limits of the example are parameters"
  }
 ]
}