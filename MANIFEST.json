{
 "claims": [
  {
   "property": "C01",
   "status": "partial",
   "theorems": [
    "bitstream_roundtrip_partial",
    "bitstream_units_exact",
    "bitstream_units_end",
    "bitstream_two_full_words_refuted"
   ],
   "note": "Bytes and words (bitstream_units_exact) always. Round trip for every sequence of fitting fields, both host endiannesses, except the two-full-words case, which is undefined behaviour in the code (refuted) and one-bit 64-bit-typed reads."
  },
  {
   "property": "C02",
   "status": "proved",
   "theorems": [
    "bitstream_file_layout",
    "bitstream_file_unique",
    "bitstream_payload_unique",
    "bitstream_finish_idempotent"
   ],
   "note": "For every defined history; definedness is characterised exactly by bitstream_writer_defined_iff."
  },
  {
   "property": "C03",
   "status": "partial",
   "theorems": [
    "bitstream_write_exact_partial",
    "bitstream_high_bits_refuted",
    "bitstream_two_full_words_refuted",
    "bitstream_zero_bits_refuted",
    "bitstream_writer_defined_iff",
    "bitstream_write_after_finish_refuted",
    "bitstream_finish_reports_failure_refuted"
   ],
   "note": "The property as documented is false: values with bits above size corrupt earlier bits and 64-bit shifts occur."
  },
  {
   "property": "C04",
   "status": "partial",
   "theorems": [
    "bitstream_reader_exact_partial",
    "bitstream_fully_consumed_iff",
    "bitstream_read_at_end_refuted"
   ],
   "note": "Exact refinement of an ideal reader on arbitrary bytes for every legal history; 32-bit reads at end of stream are undefined (refuted)."
  },
  {
   "property": "C05",
   "status": "proved",
   "theorems": [
    "bitstream_peek_transparent",
    "bitstream_reader_exact_partial",
    "bitstream_over_discard_refuted"
   ],
   "note": ""
  },
  {
   "property": "C06",
   "status": "partial",
   "theorems": [
    "base64_encode_rfc4648_partial",
    "base64_encode_rfc4648_lenient",
    "base64_encode_chunking_irrelevant",
    "base64_encoded_length",
    "base64_encode_overrun_refuted"
   ],
   "note": "Proved for every input on which the code is defined; the exact set of inputs whose memset overruns the buffer is refuted."
  },
  {
   "property": "C07",
   "status": "partial",
   "theorems": [
    "base64_roundtrip_partial",
    "base64_roundtrip_exact",
    "base64_roundtrip_refuted"
   ],
   "note": "False for inputs one or two bytes short of a multiple of 196608 (exact characterisation proved)."
  },
  {
   "property": "C08",
   "status": "partial",
   "theorems": [
    "base64_decode_exact_partial",
    "base64_well_formed_unique",
    "base64_decode_boundary_refuted",
    "base64_decode_high_byte_refuted"
   ],
   "note": "Exact acceptance for ASCII input; padded texts at the buffer boundary are rejected and bytes above 127 index out of bounds (refuted)."
  },
  {
   "property": "C09",
   "status": "proved",
   "theorems": [
    "huffman_roundtrip",
    "huffman_roundtrip_any_limit",
    "huffman_encode_total"
   ],
   "note": "All inputs, chunk sizes 1..65535 KiB, limits 8..15, every tie-breaking of the priority queue, both endiannesses."
  },
  {
   "property": "C10",
   "status": "proved",
   "theorems": [
    "huffman_codes_prefix_code",
    "huffman_codes_prefix_code_bytes"
   ],
   "note": "Also for limits below 8 when the symbols fit."
  },
  {
   "property": "C11",
   "status": "partial",
   "theorems": [
    "huffman_oversubscribed_refuted",
    "huffman_truncated_refuted",
    "huffman_decode_exact",
    "huffman_decode_covered",
    "huffman_decode_fate",
    "huffman_safe_iff",
    "huffman_table_safe_partial",
    "huffman_symbols_safe_partial",
    "huffman_header_safe"
   ],
   "note": "False: malformed files reach out-of-bounds writes / over-wide shifts. huffman_decode_exact gives the outcome on every byte string (the bytes, failure or harm) in terms of a specification on bit strings, under which every file has exactly one outcome; huffman_safe_iff says which files harm the decoder, without exception: those whose table announces more than 2^max entries, and those in which a code is longer than what is left of the file or, for a code that an earlier chunk left in the table, than what is loaded (stale_harms)."
  },
  {
   "property": "C12",
   "status": "partial",
   "theorems": [
    "huffman_zero_chunk_refuted",
    "huffman_short_limit_refuted",
    "huffman_success_decodable_partial"
   ],
   "note": "False for chunk size 0 and for limits too short for the symbols; proved everywhere else."
  },
  {
   "property": "C13",
   "status": "proved",
   "theorems": [
    "huffman_optimal"
   ],
   "note": "Against every prefix code with non-empty words, when the tree is not higher than the limit."
  },
  {
   "property": "C14",
   "status": "proved",
   "theorems": [
    "endian_swap_reverses",
    "endian_swap_involutive",
    "endian_swap_signed_involutive",
    "big_endian_store_load"
   ],
   "note": ""
  },
  {
   "property": "C15",
   "status": "partial",
   "theorems": [
    "literal_value",
    "literal_rejected_partial",
    "literal_overflow_refuted",
    "literal_unsigned_wraps",
    "literal_bad_digit"
   ],
   "note": "Value exact whenever it fits; rejection proved except that unsigned literals of 2^64 and more wrap and may be accepted (refuted)"
  },
  {
   "property": "C16",
   "status": "proved",
   "theorems": [
    "encode_codepoint_exact",
    "decode_encode",
    "encode_decode"
   ],
   "note": "UTF-8 (signed and unsigned char), UTF-16, UTF-32"
  },
  {
   "property": "C17",
   "status": "proved",
   "theorems": [
    "validate_exact",
    "text_unambiguous"
   ],
   "note": "against the arithmetic definition of the encoding forms"
  },
  {
   "property": "C18",
   "status": "proved",
   "theorems": [
    "convert_exact",
    "convert_rejects",
    "convert_round_trip"
   ],
   "note": "between any two of the encodings"
  },
  {
   "property": "C19",
   "status": "partial",
   "theorems": [
    "escape_printable_ascii",
    "escape_rejects",
    "unescape_escape_partial",
    "unescape_escape_refuted",
    "unescape_escape_iff",
    "unescape_exact",
    "unescape_one_exact",
    "unescape_refuses",
    "escape_forms"
   ],
   "note": "False as stated: a literal backslash followed by u/U in the text is not escaped and is re-read as an escape; proved for exactly all other texts (unescape_escape_iff); unescape_exact characterises the accepted texts and their result, escape_forms the documented forms"
  },
  {
   "property": "C20",
   "status": "partial",
   "theorems": [
    "classify_exact",
    "to_upper_exact",
    "to_lower_exact",
    "digits_exact_partial",
    "digits_exact_unsigned",
    "digits_refuted"
   ],
   "note": "False for is_digit/is_x_digit on negative values of signed character types; everything else proved for all eight platform character types"
  },
  {
   "property": "C21",
   "status": "partial",
   "theorems": [
    "consume_number_exact_partial",
    "consume_hex_exact_partial",
    "lexer_stays_inside",
    "consume_exact",
    "consume_number_refuted",
    "peek_exact"
   ],
   "note": "False for negative characters (taken as digits) and for values of 2^64 and more (wrap); proved for all other texts; memory safety proved for all"
  },
  {
   "property": "C22",
   "status": "partial",
   "theorems": [
    "split_pieces",
    "pieces_exist_unique",
    "split_count",
    "split_at_most_count",
    "split_rest_partial",
    "split_rest_refuted"
   ],
   "note": "Unlimited and limited split fully characterized; the documented \"rest of the string\" for the last element fails when the rest has empty pieces"
  },
  {
   "property": "C23",
   "status": "proved",
   "theorems": [
    "trim_exact",
    "trim_idempotent"
   ],
   "note": ""
  },
  {
   "property": "C24",
   "status": "partial",
   "theorems": [
    "replace_all_removes",
    "replace_all_terminates_partial",
    "remove_all_total",
    "replace_all_char_exact",
    "replace_all_refuted",
    "replace_all_empty_search"
   ],
   "note": "remove_all proved; replace_all does not terminate when the replacement contains the search string (refuted); termination proved when the replacement is shorter or misses a character of the search string"
  },
  {
   "property": "C25",
   "status": "partial",
   "theorems": [
    "wildcard_match_complete",
    "wildcard_match_total",
    "wildcard_match_exact_partial",
    "wildcard_match_guarantee",
    "wildcard_match_iff",
    "wildcard_match_refuted"
   ],
   "note": "Every real match is accepted; the converse is false for patterns with no star or several literal parts (overlap), proved for the others. wildcard_match_iff says exactly which texts are accepted, in terms of the parts of the pattern."
  },
  {
   "property": "C26",
   "status": "partial",
   "theorems": [
    "ipv4_parse_exact",
    "ipv4_parse_inet_aton_partial",
    "ipv4_parse_total",
    "ipv4_host_order",
    "ipv4_network_order",
    "special_addresses",
    "loopback_big_endian_refuted",
    "ipv4_octets",
    "ipv4_format_exact",
    "ipv4_round_trip",
    "ipv4_big_endian_refuted",
    "ipv4_wrap_refuted",
    "ipv4_negative_refuted"
   ],
   "note": "Round trip proved for all 2^32 addresses on little-endian hosts; accepted texts characterized exactly (numbers modulo 2^64). False: big-endian hosts (formatter prints octets reversed), numbers of 2^64 and more (wrap), negative characters taken as digits"
  },
  {
   "property": "C27",
   "status": "partial",
   "theorems": [
    "ipv6_accepts_exact",
    "ipv6_parse_rfc_partial",
    "ipv6_round_trip",
    "ipv6_rfc_refuted"
   ],
   "note": "Round trip and RFC text output proved for all 2^128 addresses; accepted texts characterized exactly for all texts; \"accepts only RFC 4291 text\" is false (leading colon, \":::\", long groups accepted)"
  },
  {
   "property": "C28",
   "status": "partial",
   "theorems": [
    "endpoint4_parse_exact",
    "endpoint6_parse_exact",
    "endpoint4_round_trip",
    "endpoint6_round_trip",
    "endpoint_order",
    "endpoint_order_macos_refuted"
   ],
   "note": "Proved for little-endian hosts (IPv4) and the defaulted comparison; the hand-written macOS operator< is not an order (refuted)"
  },
  {
   "property": "C29",
   "status": "proved",
   "theorems": [
    "string_construction",
    "string_construction_rejects",
    "string_stored_valid",
    "string_round_trip",
    "serialize_any_string_refuted"
   ],
   "note": "Exact characterization of construction, and the round trip for every well-formed UTF-8 string. serialize_any_string_refuted records that a string cut inside a character by Json::resize is no longer serializable (empty optional dereferenced)."
  },
  {
   "property": "C30",
   "status": "proved",
   "theorems": [
    "round_trip",
    "serialize_stable",
    "serialize_injective"
   ],
   "note": "Non-negative signed integers are read back as unsigned ones, which are == to them."
  },
  {
   "property": "C31",
   "status": "proved",
   "theorems": [
    "parser_terminates",
    "parse_exact",
    "strict_exact",
    "features_only_add",
    "document_unique",
    "parse_char_sign",
    "malformed_comment_rejected_refuted",
    "comments_everywhere_refuted"
   ],
   "note": "Exact grammar in both directions for every byte string and feature set. Text of floating-point numbers and its value: an arbitrary platform function. Recorded deviations: vertical tab is white space; with AllowComments a malformed comment after a comma is skipped (\"[1,/x2]\" is [1,2]) and a comment between key and colon is rejected."
  },
  {
   "property": "C32",
   "status": "partial",
   "theorems": [
    "equality_symmetric",
    "equality_exact_partial",
    "order_signed_partial",
    "order_unsigned_partial",
    "order_nonnegative_partial",
    "order_float_partial",
    "order_mixed_partial",
    "mixed_by_value",
    "equality_reflexive_refuted",
    "equality_transitive_refuted",
    "order_asymmetric_refuted",
    "order_consistent_refuted",
    "equality_by_value_refuted",
    "order_mixed_double_refuted",
    "relations_converse",
    "relations_integers_partial",
    "relations_floats_partial",
    "relations_nan_refuted",
    "relations_mixed_refuted"
   ],
   "note": "False in general (refuted theorems): NaN and infinity are not == themselves, the tolerance is not transitive and not consistent with <, and mixed signed/unsigned < is not asymmetric. Proved: symmetry always; == exact and an equivalence without floats; < a strict total order consistent with == on trees whose integers are all signed, all unsigned, or all in [0, 2^63); < a strict weak order on trees with floats other than NaN and no integers, and, where long double holds every 64-bit integer (x87, quadruple), also with integers of one of these kinds (order_mixed_partial), comparing by value (mixed_by_value); not where long double is double (order_mixed_double_refuted). The operators !=, <=, >, >= agree with these orders on the same trees (relations_*), not with NaN or mixed integers."
  },
  {
   "property": "C33",
   "status": "partial",
   "theorems": [
    "parse_ini_exact",
    "parse_ini_sign_independent",
    "render_parses_partial",
    "render_parses_distinct_partial",
    "text_after_equals_is_value_refuted",
    "bracket_value_rejected",
    "empty_value_rejected"
   ],
   "note": "The parser is characterised exactly (parse_ini_exact: iff against a declarative line/section grammar) and rendered documents whose names and values meet plain_name / plain_value are returned exactly. The full claim is false of the code: runs of = are collapsed or dropped, a value ending in ] or an empty value rejects the whole file (refutations)."
  },
  {
   "property": "C34",
   "status": "proved",
   "theorems": [
    "mutual_exclusion",
    "histories_linearizable",
    "queue_first_in_first_out",
    "stack_last_in_first_out",
    "items_conserved",
    "no_item_duplicated",
    "no_item_lost"
   ],
   "note": "Small-step model with one step per access to the mutex, container or condition variable; any number of threads, every interleaving, spurious wake-ups and time-outs. Histories are linearizable to the sequential queue/stack; item conservation holds in every reachable state."
  },
  {
   "property": "C35",
   "status": "proved",
   "theorems": [
    "items_have_wakers",
    "no_lost_wakeup",
    "executions_end",
    "quiescent_means_served",
    "quiescence_reached"
   ],
   "note": "The safety statement (no_lost_wakeup, with a counting form items_have_wakers) and progress: without new calls, spurious wake-ups and time-outs every execution ends within 8 steps per thread, without deadlock, and a consumer that is then still blocked finds the container empty."
  },
  {
   "property": "C36",
   "status": "partial",
   "theorems": [
    "sequenced_one_at_a_time",
    "sequenced_start_after_end",
    "sequenced_in_order",
    "sequenced_none_left_out",
    "sequenced_direct_posts_in_order",
    "accepted_can_finish",
    "accepted_is_executed",
    "sequenced_after_restart_refuted"
   ],
   "note": "Every interleaving of any number of client, worker and timer steps, runners and workers. One at a time and in order (of acceptance; the order of the calls for post_task) always; nothing left out until stop() is called, and in every fair infinite execution without stop() every accepted task is executed to its end (accepted_is_executed). False only after stop()+start(): sequenced_after_restart_refuted."
  },
  {
   "property": "C37",
   "status": "proved",
   "theorems": [
    "used_is_alive",
    "destroyed_starts_none",
    "executed_at_most_once",
    "executed_was_accepted",
    "delayed_not_before",
    "none_after_stop",
    "accepted_not_lost",
    "accepted_can_finish",
    "delayed_not_lost",
    "delayed_can_finish",
    "stop_can_return",
    "delayed_is_executed",
    "stop_returns_under_fairness"
   ],
   "note": "Every interleaving, any clock. Under a fair scheduler every delayed task is executed and stop() returns. Time points are integers without overflow (a huge delay overflows std::chrono in the code)."
  },
  {
   "property": "C38",
   "status": "proved",
   "theorems": [
    "notified_at_most_once",
    "notified_when_ready",
    "not_notified_after_removal",
    "not_notified_when_gone",
    "dropped_only_when_gone",
    "notified_in_order",
    "poll_scheduled",
    "ready_is_served",
    "service_defined"
   ],
   "note": "Any number of sockets, calls at any moment (also from callbacks), any results of ::select. Rests on the order of the sequenced runner (C36). service_defined needs handles below FD_SETSIZE; service_undefined shows that it is needed."
  },
  {
   "property": "C39",
   "status": "proved",
   "theorems": [
    "unmarked_file",
    "utf8_file",
    "marked_file",
    "marked_file_shape",
    "encoded_file",
    "encoded_file_refuted",
    "parse_json_any_scheme",
    "parse_ini_any_scheme",
    "parse_json_utf8_marked",
    "parse_json_unmarked",
    "parse_json_string_exact"
   ],
   "note": "Every file content is covered: unmarked, UTF-8 mark, or the mark of another scheme (marked_file with marked_file_shape). As the statement says, UTF-32LE is tried before UTF-16LE, so UTF-16LE text that starts with U+0000 is not recognised (encoded_file_refuted records it). Opening the file and device errors are not modelled."
  },
  {
   "property": "C40",
   "status": "proved",
   "theorems": [
    "parse_format_exact",
    "parse_format_accepts",
    "digits_are_ascii",
    "pieces_text",
    "lone_closing_brace_rejected",
    "unclosed_brace_rejected",
    "format_exact",
    "format_rejected",
    "format_doubled",
    "fields_spec_ok",
    "integer_field",
    "character_field",
    "boolean_field",
    "zero_padding_without_alignment",
    "string_field",
    "pointer_field",
    "user_field",
    "fill_lookahead_refuted",
    "negative_digit_refuted",
    "wrapped_position_refuted"
   ],
   "note": "Exact grammar (both directions) for every text and argument types, and exact output. User-defined types modelled without a custom parse method; floating-point output abstract. Recorded differences from the documented grammar: \"{:}<\" rejected (fill look-ahead), negative chars count as digits, positions modulo 2^64"
  },
  {
   "property": "C41",
   "status": "proved",
   "theorems": [
    "format_integer_exact",
    "positional_unique",
    "format_integer_as_character",
    "character_shown",
    "format_string_value_exact",
    "format_bool_text",
    "convert_exact_int",
    "convert_format_integer",
    "format_integer_total",
    "number_transcoded"
   ],
   "note": "The value formatters for integers, booleans, characters and strings, and the std::from_chars-style converter; floating-point values are C60, C69 and C70. Note: '{:#o}' of 0 prints 00, one digit more than std::format."
  },
  {
   "property": "C42",
   "status": "partial",
   "theorems": [
    "equal_hash_signed_partial",
    "equal_hash_same_kinds_partial",
    "equal_hash_refuted"
   ],
   "note": "False in general: 1 == 1u but the type index is hashed. Proved where the numbers in corresponding places are of the same kind (signed or unsigned, floats the same)."
  },
  {
   "property": "C43",
   "status": "partial",
   "theorems": [
    "send_reports",
    "send_once",
    "send_not_lost",
    "send_can_complete",
    "send_async_completes",
    "send_async_sends_all",
    "stream_in_order",
    "stream_complete",
    "datagram_pieces",
    "async_sends_refuted",
    "empty_send_refuted"
   ],
   "note": "Every history of one socket and every answer of the operating system (partial, blocked, failed sends). Without the no-overlap hypothesis the order claim is false: an asynchronous send that blocks is queued again behind the later ones (async_sends_refuted). send_async_completes and send_async_sends_all: in every infinite execution in which the service goes on telling the oldest request and the operating system does not answer EWOULDBLOCK forever, every send_async completes (or the socket is closed or the service goes). The methods of one socket are not called concurrently in the model."
  },
  {
   "property": "C44",
   "status": "proved",
   "theorems": [
    "receive_stream",
    "receive_datagrams",
    "receive_once",
    "receive_reports",
    "receive_not_lost",
    "receive_async_completes",
    "end_to_end",
    "empty_datagram_refuted"
   ],
   "note": "Every history of one socket and every answer of the operating system; receive_async_completes is the liveness part, over infinite executions; end_to_end composes two sockets with any stream transport that delivers a prefix. empty_datagram_refuted records that an empty datagram closes the receiving socket."
  },
  {
   "property": "C45",
   "status": "partial",
   "theorems": [
    "connect_reports",
    "connect_once",
    "connect_returns",
    "connect_async_completes",
    "closed_for_good",
    "socket_defined",
    "is_connected_refuted",
    "async_after_close_refuted"
   ],
   "note": "All but the last clause hold; undefined behaviour is reachable by send_async or receive_async on a closed socket (async_after_close_refuted) and, socket_defined says, in no other way in this model. is_connected() stays true after close() (is_connected_refuted). connect_async_completes: after Connecting the callback is invoked, in every execution that serves the socket."
  },
  {
   "property": "C46",
   "status": "proved",
   "theorems": [
    "log_files_complete",
    "log_calls_in_order",
    "log_calls_taken",
    "log_file_sizes",
    "logger_drains",
    "log_records_readable",
    "forged_record_refuted"
   ],
   "note": "The asynchronous logger over an abstract file system, every split of the writes; compression is the Huffman coder of C09 (chunk size >= 1). log_file_sizes needs a size limit that does not change. logger_drains: the own steps are well-founded and available until everything is in files. forged_record_refuted shows that the separator hypothesis of log_records_readable is needed. File names are modelled as distinct (the sequence number and a time stamp)."
  },
  {
   "property": "C47",
   "status": "partial",
   "theorems": [
    "log_files_survive",
    "no_call_lost_silently",
    "failed_logger_stays_failed",
    "zero_chunk_logs_refuted",
    "lost_compression_refuted",
    "write_failure_refuted"
   ],
   "note": "The full statement is false of the code: chunk size 0 loses logs (zero_chunk_logs_refuted), so does a compressed file whose last bytes do not reach the device (lost_compression_refuted), and a failed write over the size limit leaves a gap (write_failure_refuted). log_files_survive is the true version: with failures the encoder notices, every file holds all its records but for the end of its last one."
  },
  {
   "property": "C48",
   "status": "partial",
   "theorems": [
    "sync_logger_goes_on",
    "default_logger_refuted"
   ],
   "note": "False for the default logger when it compresses: it stops for good at its first full file (default_logger_refuted, for every state and call). sync_logger_goes_on proves the claim in all other cases."
  },
  {
   "property": "C49",
   "status": "partial",
   "theorems": [
    "registry_exact",
    "name_clash_refuted",
    "default_name_refuted"
   ],
   "note": "registry_exact needs that no logger is created under a name in use: such an attempt fails but unregisters the existing logger (name_clash_refuted); the name of the default logger is never freed (default_name_refuted)."
  },
  {
   "property": "C50",
   "status": "partial",
   "theorems": [
    "events_read",
    "flags_reported",
    "callbacks_exact",
    "callbacks_registered",
    "changes_handled",
    "removal_results",
    "monitor_drains",
    "race_refuted",
    "alias_refuted",
    "new_directory_refuted",
    "reentry_refuted"
   ],
   "note": "The full statement is false of the code in four ways, each with its own refutation: remove_file releases the mutex before it removes the directory entry and drops a registration made in between (race_refuted); two spellings of one directory share a watch (alias_refuted); a directory removed and made again is not watched though add_file returns true (new_directory_refuted); a callback that uses the monitor deadlocks (reentry_refuted). Without these the theorems prove the claim for every interleaving; inotify queue overflow is excluded by hypothesis. Linux implementation only."
  },
  {
   "property": "C51",
   "status": "partial",
   "theorems": [
    "object_lookups",
    "object_updates",
    "bad_key_refused",
    "object_insert_range",
    "object_erase_range",
    "merge_moves",
    "initializer_list",
    "map_constructor",
    "failed_operations_change_nothing_refuted",
    "map_round_trip_refuted",
    "swap_string_twice_refuted",
    "map_constructor_refused",
    "merge_refused",
    "swap_string_exact"
   ],
   "note": "The map semantics is proved for every operation. What fails: [] / emplace / merge that throw leave {} where null was (failed_operations_change_nothing_refuted); keys and strings copied out and back are unescaped again (map_round_trip_refuted, swap_string_twice_refuted)."
  },
  {
   "property": "C52",
   "status": "partial",
   "theorems": [
    "array_at",
    "array_subscript_beyond",
    "array_resize",
    "array_insert",
    "array_push_pop",
    "array_erase",
    "ends",
    "wrong_type_refused",
    "never_undefined",
    "exceptions_change_little",
    "array_subscript_keeps_refuted",
    "push_back_self_refuted",
    "size_and_empty",
    "clear_keeps_the_type",
    "assign_and_swap"
   ],
   "note": "exceptions_change_little lists what a throwing operation may change; with index SIZE_MAX [] empties the array before it throws (array_subscript_keeps_refuted); j.push_back(j) on null gives [[]] (push_back_self_refuted)."
  },
  {
   "property": "C53",
   "status": "proved",
   "theorems": [
    "iterator_steps",
    "iterator_arithmetic",
    "iterator_refusals",
    "loop_visits",
    "reverse_loop_visits",
    "elements_read",
    "reverse_steps",
    "reverse_arithmetic"
   ],
   "note": "Offsets of PTRDIFF_MIN (undefined) are excluded; stale iterators are undefined, as in C++."
  },
  {
   "property": "C54",
   "status": "partial",
   "theorems": [
    "call_frame",
    "call_ancestors",
    "calls_stay_regular",
    "resize_keeps_serializable_refuted"
   ],
   "note": "False if resize cuts a string inside a character: serializing it is undefined (resize_keeps_serializable_refuted); proved for all other sequences of calls. Arguments that alias the instance are not modelled."
  },
  {
   "property": "C55",
   "status": "partial",
   "theorems": [
    "integer_conversion",
    "integer_conversion_refused",
    "integer_round_trip",
    "bool_conversion",
    "sequence_conversion",
    "sequence_round_trip",
    "integer_to_float_exact",
    "float_to_float_exact",
    "float_round_trip",
    "float_conversion_refused",
    "integer_conversion_refuses_overflow_refuted"
   ],
   "note": "Numbers out of the range of the type wrap silently instead of throwing (integer_conversion_refuses_overflow_refuted), and such floats are undefined. Conversions to floating-point types are exact where the number is one of the type (integer_to_float_exact, float_to_float_exact, float_round_trip); how others are rounded is the platform's static_cast. Maps and other encodings are C68."
  },
  {
   "property": "C56",
   "status": "partial",
   "theorems": [
    "configs_hold_their_section",
    "quiet_configs_match_the_file",
    "values_come_from_files",
    "one_config_per_identifier",
    "create_config_result",
    "prune_counts",
    "get_value_result",
    "get_value_bad_name",
    "updates_can_complete",
    "initial_file_refuted",
    "non_object_file_refuted",
    "get_value_default_refuted"
   ],
   "note": "False in three ways: a file that exists at the start is not read until it changes (initial_file_refuted); a file without key-value pairs leaves the old values in configs in use, until create_config takes them away (non_object_file_refuted); numbers out of range wrap (get_value_default_refuted). Proved otherwise, for every interleaving. The report of every change is C50."
  },
  {
   "property": "C57",
   "status": "partial",
   "theorems": [
    "request_kept",
    "runs_at_most_once",
    "reply_after_task",
    "task_was_posted",
    "owner_exists",
    "skipped_without_owner",
    "skipped_means_never",
    "sequenced_one_by_one",
    "replies_in_order",
    "reply_handed_after_return",
    "nothing_forgotten",
    "runner_drains",
    "rvalues_never_dangle",
    "lvalue_task_refuted",
    "lvalue_reply_refuted",
    "reply_not_next_refuted"
   ],
   "note": "False for callables given as lvalues: the wrapper keeps a reference to the caller's variable (lvalue_task_refuted, lvalue_reply_refuted); proved for rvalues. reply_not_next_refuted shows that other tasks may run between a task and its reply. The runner underneath is its specification (C36, C37). The time of a delay is C37."
  },
  {
   "property": "C58",
   "status": "partial",
   "theorems": [
    "closes_its_own",
    "closed_once",
    "others_untouched",
    "open_means_holds",
    "nothing_leaks",
    "all_closed_at_the_end",
    "io_mode_holds",
    "ids_differ",
    "close_result",
    "move_result",
    "accepted_socket",
    "failed_accept_closed",
    "each_call_ends_once",
    "async_true_with_service",
    "requests_are_for_open_sockets",
    "assignment_leaks_refuted",
    "listening_after_close_refuted",
    "same_id_refuted",
    "connected_but_closed_refuted"
   ],
   "note": "False in four ways: assigning to an open socket leaks what it held (assignment_leaks_refuted; nothing_leaks says that nothing else does); is_listening() stays true after close() (listening_after_close_refuted; true for open sockets: io_mode_holds); a moved-from object keeps the id (same_id_refuted; open objects have different ids: ids_differ); an accepted socket whose mode cannot be set is closed and says that it is connected (connected_but_closed_refuted). Everything else is proved for every history. Methods of one object are not called concurrently. The service is its specification (C38)."
  },
  {
   "property": "C59",
   "status": "partial",
   "theorems": [
    "monitor_created",
    "monitor_not_created",
    "monitor_goes_on",
    "monitor_defined",
    "cpu_count_reported",
    "system_usage_reported",
    "system_usage_kept",
    "first_usage_since_boot",
    "usage_not_a_number",
    "usage_is_percentage_refuted",
    "process_usage_reported",
    "process_usage_kept",
    "memory_reported",
    "process_memory_reported"
   ],
   "note": "Every sequence of polls; the files are given as bytes and scanned as std::getline and sscanf do; doubles are IEEE binary64 (Flocq), so these theorems rest on the axioms of the standard library of real numbers. The usage clause is false when two readable polls see the same counters (0/0 is stored: usage_is_percentage_refuted, usage_not_a_number), and the first poll reports the usage since the system was started (first_usage_since_boot). The percentages need 100 * ticks <= 2^53. Getters called during a poll see the values between two updates."
  },
  {
   "property": "C60",
   "status": "partial",
   "theorems": [
    "printf_text_unique",
    "printf_text_exists",
    "printf_text_ascii",
    "float_text_shown",
    "float_formatted",
    "floating_field",
    "double_fits",
    "fixed_fits",
    "special_fits",
    "default_double_shown",
    "large_fixed_refuted",
    "alternate_infinity_refuted",
    "alternate_half_refuted",
    "precision_refuted"
   ],
   "note": "False in four ways: a double of 10^46 or more does not fit the 53-character buffer with {:f} (large_fixed_refuted: the output is never right); {:#} of infinity is inf.000 (alternate_infinity_refuted); {:#.pg} of 0.5 is one digit short (alternate_half_refuted); a precision of 2^32 is taken for 0 (precision_refuted). Otherwise, for every value whose text fits the buffer (double_fits, fixed_fits and special_fits say which do): exactly printf's text. Modelled on the branch with std::to_chars, whose result is the specification's decimal text (unique: printf_text_unique; it exists: printf_text_exists); hexadecimal is only covered relative to the text of std::to_chars (float_text_shown)."
  },
  {
   "property": "C61",
   "status": "partial",
   "theorems": [
    "join_shown",
    "plain_unique",
    "join_separator_refuted",
    "split_join",
    "random_string",
    "random_string_any",
    "random_characters"
   ],
   "note": "False where the character type is signed and the separator is negative (a char above 127): the separator is left out (join_separator_refuted). join_shown for every other separator; floating-point values are shown as their formatter (C60) shows them without options. split_join also says that the joined strings are the pieces of the result, empty ones included. random_string: for whatever the engine delivers in the distribution's range."
  },
  {
   "property": "C62",
   "status": "partial",
   "theorems": [
    "string_success",
    "string_failure",
    "other_files_untouched",
    "file_coded",
    "file_success",
    "file_failure",
    "base64_notices_read_faults",
    "write_faults_reported",
    "file_call_total",
    "files_roundtrip",
    "base64_inverts",
    "huffman_inverts",
    "failure_keeps_output_refuted",
    "onto_itself_refuted",
    "read_fault_refuted",
    "unwritten_refuted"
   ],
   "note": "False in four ways: the output file is emptied even if the input does not exist (failure_keeps_output_refuted); coding a file onto itself loses it and reports success (onto_itself_refuted); the Huffman encoder takes a read fault for the end of the input (read_fault_refuted); success is reported before the output stream has written its last bytes (unwritten_refuted). Otherwise true: strings always, other files always (other_files_untouched), and files when the operating system does what is asked (file_coded, file_success, file_failure, base64_notices_read_faults, write_faults_reported, files_roundtrip with base64_inverts and huffman_inverts)."
  },
  {
   "property": "C63",
   "status": "partial",
   "theorems": [
    "styler_applied",
    "styler_scoped",
    "other_streams_plain",
    "last_color_wins",
    "cursor_moves",
    "console_line",
    "nested_refuted",
    "restream_refuted",
    "hexadecimal_refuted",
    "console_escape_refuted"
   ],
   "note": "True of one styler on a plain stream and a terminal in its normal state (styler_applied, styler_scoped, other_streams_plain) and of console lines without escape characters (console_line). False otherwise: a styler that ends resets all attributes, also those of a styler that still lives (nested_refuted); streaming a styler twice ends its styling (restream_refuted); a stream in hexadecimal garbles colors (hexadecimal_refuted); escape sequences in a message stay in force after its line (console_escape_refuted)."
  },
  {
   "property": "C64",
   "status": "partial",
   "theorems": [
    "signals_handled",
    "other_signals_default",
    "first_set_safe",
    "replacement_outcomes",
    "destroyed_only_while_running",
    "removing_refuted",
    "replacing_refuted",
    "handler_destroyed_refuted"
   ],
   "note": "Between calls true (signals_handled, other_signals_default), and while the first handler is set (first_set_safe). False in three ways: while a handler is removed a signal calls an empty function (removing_refuted); while one is replaced it reads a variable that is being assigned (replacing_refuted); a handler that sets another one is destroyed while it runs (handler_destroyed_refuted). replacement_outcomes and destroyed_only_while_running say that nothing else goes wrong."
  },
  {
   "property": "C65",
   "status": "proved",
   "theorems": [
    "error_string_text",
    "error_string_injective",
    "local_time_text",
    "local_time_injective",
    "local_time_length"
   ],
   "note": "The message table and localtime_r are parameters; strftime is written out for the format used. Linux implementation."
  },
  {
   "property": "C66",
   "status": "partial",
   "theorems": [
    "json_log_result",
    "json_warnings_truthful",
    "json_warning_position_partial",
    "json_success_warnings",
    "json_strict_success_quiet",
    "json_accepts_all_read",
    "json_failure_reported_partial",
    "ini_log_result",
    "ini_warnings_exact",
    "ini_success_quiet",
    "json_failure_reported_refuted",
    "json_warning_column_refuted",
    "json_one_warning_refuted",
    "json_success_quiet_refuted",
    "ini_warning_line_refuted"
   ],
   "note": "False in five ways: a text that ends too early is refused without a warning; on every line but the first the column is one too high; a comment where none is allowed is reported twice; with AllowComments a mis-started comment after a comma is reported but the text accepted; an INI warning gives the number of the line after the faulty one unless it is the last. True otherwise: every warning says what is so where it was logged, INI warnings are about the first faulty line, what is returned is what C31 and C33 say. The wording of the messages is not modelled."
  },
  {
   "property": "C67",
   "status": "partial",
   "theorems": [
    "foreign_exact",
    "foreign_uncut",
    "foreign_cut_between_characters",
    "foreign_ascii",
    "foreign_precision_drops_text",
    "foreign_width_refuted",
    "foreign_padding_refuted"
   ],
   "note": "foreign_exact is the exact contract: text is transcoded or dropped, never mangled. Width and precision count units of the value before transcoding, so the claims on the field width are false (foreign_width_refuted, foreign_padding_refuted), and a precision ending inside a character drops the whole text (foreign_precision_drops_text); for ASCII everything holds (foreign_ascii)."
  },
  {
   "property": "C68",
   "status": "partial",
   "theorems": [
    "wide_same",
    "wide_construct",
    "wide_read",
    "wide_read_undefined",
    "wide_round_trip",
    "wide_map_exact",
    "wide_map_refused",
    "wide_map_construct",
    "wide_map_construct_refused",
    "wide_map_round_trip",
    "wide_number",
    "wide_number_round_trip",
    "wide_read_resized_refuted"
   ],
   "note": "All parts proved except that reading out is always defined: resize() cuts a string inside a character, after which reading it out in another encoding dereferences an empty optional (wide_read_resized_refuted); it is undefined for no other strings (wide_read_undefined)."
  },
  {
   "property": "C69",
   "status": "partial",
   "theorems": [
    "stream_restored",
    "formatting_has_no_history",
    "c_library_exists",
    "stream_exact",
    "stream_formatted_partial",
    "floating_field_stream_partial",
    "fixed_has_no_plus",
    "builds_agree",
    "blank_in_exponent_refuted",
    "hexfloat_builds_refuted",
    "hexfloat_precision_refuted"
   ],
   "note": "History independence, and the exact text for every option (stream_exact). False with the blank sign option, where the facet also replaces the plus sign of the exponent (blank_in_exponent_refuted), and for hexadecimal values, which have 0x only in this build and ignore the precision. What printf writes is a parameter (c_library, which exists: c_library_exists)."
  },
  {
   "property": "C70",
   "status": "partial",
   "theorems": [
    "nearest_exists",
    "charconv_exact",
    "stod_exact",
    "stod_reads_more",
    "read_back",
    "format_then_convert",
    "double_round_trip",
    "conversion_builds_refuted",
    "default_format_loses_refuted"
   ],
   "note": "The standard functions std::from_chars and std::stof/stod/stold are written out as their standards describe them (when underflow is reported is a parameter); the converters around them are modelled. Both implementations are characterised exactly, and 17 digits survive the round trip. Missing because it is false: the two builds accept the same texts (with std::stod leading white space, '+' and hexadecimal are accepted: conversion_builds_refuted). default_format_loses_refuted: '{}' shows six digits, so 1 + 2^-30 does not survive it. The round trip is stated for numbers above the smallest normal one, below which underflow may be reported."
  },
  {
   "property": "C71",
   "status": "partial",
   "theorems": [
    "json_real_exact",
    "finite_written",
    "real_documents",
    "library_exists",
    "only_json_numbers_refuted",
    "special_numbers_refuted",
    "digits_kept_refuted",
    "negative_zero_refuted",
    "smallest_normal_refuted"
   ],
   "note": "The parser and serializer of C29-C31 with the conversions of C60 and C70 in place of their parameter. Proved: the accepted texts and their values with std::from_chars; the texts written; stability and nearness for documents whose numbers are +0 or a factor of two inside of the normal range (real_documents, both builds). False: with std::stold hexadecimal numbers are accepted, [0x1.8] (only_json_numbers_refuted); infinities, NaN and, where underflow is reported for subnormal results, the smallest normal number are written but cannot be parsed; -0 is written -0 and then 0; what is read back is in general not equal to the original (digits_kept_refuted)."
  },
  {
   "property": "C72",
   "status": "partial",
   "theorems": [
    "async_sink",
    "async_in_order",
    "async_complete",
    "async_left_out",
    "sync_serialized",
    "sync_race_refuted",
    "sync_failure_refuted",
    "async_destroyed_refuted"
   ],
   "note": "With a task runner everything but the last clause holds (async_sink, async_in_order, async_complete). False in three ways: without a task runner concurrent calls race on m_index and call the sink concurrently, two records get the same number (sync_race_refuted), and the failure of one thread's record is forgotten when another's succeeds (sync_failure_refuted); sync_serialized says that calls that do not overlap are all right. A logger with a task runner that is released drops accepted records (async_destroyed_refuted); async_left_out says that nothing but a refusal, the release or the end of the task manager does. The sequenced runner is modelled as a queue (C36)."
  },
  {
   "property": "C73",
   "status": "proved",
   "theorems": [
    "container_conversion",
    "container_conversion_total",
    "container_conversion_refused",
    "container_determined",
    "container_to_json",
    "container_round_trip",
    "integers_usable",
    "json_set_usable_partial",
    "json_set_refuted"
   ],
   "note": "For any element type, conversions and any usable order or equality; the insertions of the standard containers are modelled by what the C++ standard says of them, the place of an element in an unordered container is open. Sets of Json values themselves: usable for values with signed integers only (json_set_usable_partial); the < of Json in general does not meet the requirement of std::set (json_set_refuted, see C32), so for those the property has no model."
  },
  {
   "property": "C74",
   "status": "partial",
   "theorems": [
    "assertion_report",
    "assertion_holds",
    "assertion_fails",
    "assertion_disabled",
    "report_is_text_refuted",
    "first_name_refuted"
   ],
   "note": "Proved for any expression, place, message, call stack and captured values except floating-point ones (their formatter is a parameter here). False: the message is shown with the NUL at the end of its literal (report_is_text_refuted), and an array of constant characters captured in the first place is taken for a message, its name is not shown (first_name_refuted)."
  },
  {
   "property": "C75",
   "status": "partial",
   "theorems": [
    "setting_value",
    "setting_out_of_range",
    "settings_follow_the_file",
    "compress_setting",
    "configured_encoder_round_trip",
    "configured_encoder_total",
    "configured_encoder_refuses",
    "configured_encoder_refuted",
    "ini_compress_refuted"
   ],
   "note": "Proved for values in range of the documented types, for everything that is no number, and for chunk sizes of 1 to 65535 kilobytes with code lengths of 8 to 15 bits (16 to 255: refused). False beyond: a number out of range is not refused but reduced modulo the type, a floating-point value out of range is undefined (setting_out_of_range says exactly what happens); with a chunk size of 0 or 65536 every compression succeeds and none of the results can be decompressed (configured_encoder_refuted); in an INI file compression cannot be switched off by compress_log_files=false (ini_compress_refuted). What the file sink, the sockets and the monitors do with their settings is C43, C44, C46, C50 and C59."
  },
  {
   "property": "C76",
   "status": "partial",
   "theorems": [
    "log_function",
    "log_function_failed",
    "log_macro",
    "log_macro_ill_formed",
    "log_macro_system",
    "log_macro_failed",
    "default_set",
    "default_replaced",
    "system_explicit_refuted",
    "system_unused_refuted",
    "system_fields_refuted"
   ],
   "note": "Proved for every format string and state for LOGD, LOGI, LOGW, LOGE and the functions; for LOGS provided the format string uses automatic positions, each argument exactly once, and fewer than 64 fields. False beyond (the macro appends ': {}' to the format string and the error text to the arguments): with explicit positions or 64 fields the record says that the format is invalid, with an unused argument it shows that argument instead of the error. The loggers are synchronous here; threads and task runners are C72."
  },
  {
   "property": "C77",
   "status": "partial",
   "theorems": [
    "told4",
    "told6",
    "told_text4",
    "told_text6",
    "reported4",
    "reported6",
    "there_and_back",
    "answered4",
    "answered6",
    "bind_exact",
    "connect_exact",
    "send_to_addressed",
    "send_to_complete",
    "send_to_history",
    "reported_exact",
    "by_name",
    "numeric_name",
    "scope_refuted",
    "name_cut_refuted"
   ],
   "note": "Proved for both families and byte orders. False in two cases: the scope (the interface of a link-local address) and flow information of an IPv6 peer are dropped, so a reply to a link-local sender does not go to where it came from (scope_refuted; answered6 says exactly when it does), and a host name with a NUL character is cut there (name_cut_refuted)."
  },
  {
   "property": "C78",
   "status": "partial",
   "theorems": [
    "what_text",
    "explained",
    "blames_this",
    "what_read_back",
    "index_shown",
    "pop_back_shown",
    "key_shown_partial",
    "key_lost_refuted",
    "text_explained",
    "control_shown",
    "quote_shown",
    "escape_shown",
    "unfinished_shown",
    "not_text_shown",
    "iterators_explained",
    "comparisons_explained",
    "iterator_shown",
    "both_shown",
    "instance_shown"
   ],
   "note": "Proved for every operation of the API model and the iterators. False in one case: at(key) with a std::string key shows an empty key, because the key has been moved from when the message is made (key_lost_refuted); for views and pointers the key is shown (key_shown_partial). pop_back of an empty array names the index 2^64 - 1 (pop_back_shown). An instance whose strings are not UTF-8 (possible after resize) has no text: serialize_any_string_refuted."
  }
 ]
}