(** What each theorem of MANIFEST.json rests on: every line must say "Closed under the global context", except those of C59, which rest on the standard library's axioms for the real numbers (DESIGN.md, section 3).  Generated from MANIFEST.json. *)
From Verif Require Assert_Props.
From Verif Require Base64_Props.
From Verif Require BitStream_Props.
From Verif Require Coder_Props.
From Verif Require Components_Props.
From Verif Require Concurrent_Props.
From Verif Require Config_Props.
From Verif Require Diag_Props.
From Verif Require Endian_Props.
From Verif Require FloatRead_Props.
From Verif Require FloatRound_Props.
From Verif Require FloatStream_Props.
From Verif Require Float_Props.
From Verif Require Foreign_Props.
From Verif Require FormatFields_Props.
From Verif Require FormatString_Props.
From Verif Require Format_Props.
From Verif Require Handle_Props.
From Verif Require HuffmanFile_Props.
From Verif Require Huffman_Props.
From Verif Require Ini_Props.
From Verif Require Join_Props.
From Verif Require JsonApi_Props.
From Verif Require JsonConv_Props.
From Verif Require JsonFloat_Props.
From Verif Require JsonIter_Props.
From Verif Require JsonReal_Props.
From Verif Require JsonRel_Props.
From Verif Require JsonSets_Props.
From Verif Require JsonValue_Props.
From Verif Require JsonWhat_Props.
From Verif Require JsonWhat_Shown_Props.
From Verif Require JsonWide_Props.
From Verif Require Json_Order_Props.
From Verif Require Json_Props.
From Verif Require Lexer_Props.
From Verif Require Literal_Props.
From Verif Require LogPoint_Props.
From Verif Require LogThreads_Props.
From Verif Require Logger_Props.
From Verif Require Net_Props.
From Verif Require ParseFile_Props.
From Verif Require Path_Props.
From Verif Require Registry_Props.
From Verif Require Reply_Props.
From Verif Require Service_Props.
From Verif Require Signal_Props.
From Verif Require SockAddr_Props.
From Verif Require Socket_Fair_Props.
From Verif Require Socket_Props.
From Verif Require Strings_Props.
From Verif Require Styler_Props.
From Verif Require SysText_Props.
From Verif Require System_Props.
From Verif Require Task_Alive_Props.
From Verif Require Task_Fair_Props.
From Verif Require Task_Props.
From Verif Require Unescape_Props.
From Verif Require Unicode_Props.
(* C01 *) Print Assumptions Verif.BitStream_Props.bitstream_roundtrip_partial.
(* C01 *) Print Assumptions Verif.BitStream_Props.bitstream_units_exact.
(* C01 *) Print Assumptions Verif.BitStream_Props.bitstream_units_end.
(* C01 *) Print Assumptions Verif.BitStream_Props.bitstream_two_full_words_refuted.
(* C02 *) Print Assumptions Verif.BitStream_Props.bitstream_file_layout.
(* C02 *) Print Assumptions Verif.BitStream_Props.bitstream_file_unique.
(* C02 *) Print Assumptions Verif.BitStream_Props.bitstream_payload_unique.
(* C02 *) Print Assumptions Verif.BitStream_Props.bitstream_finish_idempotent.
(* C03 *) Print Assumptions Verif.BitStream_Props.bitstream_write_exact_partial.
(* C03 *) Print Assumptions Verif.BitStream_Props.bitstream_high_bits_refuted.
(* C03 *) Print Assumptions Verif.BitStream_Props.bitstream_two_full_words_refuted.
(* C03 *) Print Assumptions Verif.BitStream_Props.bitstream_zero_bits_refuted.
(* C03 *) Print Assumptions Verif.BitStream_Props.bitstream_writer_defined_iff.
(* C03 *) Print Assumptions Verif.BitStream_Props.bitstream_write_after_finish_refuted.
(* C03 *) Print Assumptions Verif.BitStream_Props.bitstream_finish_reports_failure_refuted.
(* C04 *) Print Assumptions Verif.BitStream_Props.bitstream_reader_exact_partial.
(* C04 *) Print Assumptions Verif.BitStream_Props.bitstream_fully_consumed_iff.
(* C04 *) Print Assumptions Verif.BitStream_Props.bitstream_read_at_end_refuted.
(* C05 *) Print Assumptions Verif.BitStream_Props.bitstream_peek_transparent.
(* C05 *) Print Assumptions Verif.BitStream_Props.bitstream_reader_exact_partial.
(* C05 *) Print Assumptions Verif.BitStream_Props.bitstream_over_discard_refuted.
(* C06 *) Print Assumptions Verif.Base64_Props.base64_encode_rfc4648_partial.
(* C06 *) Print Assumptions Verif.Base64_Props.base64_encode_rfc4648_lenient.
(* C06 *) Print Assumptions Verif.Base64_Props.base64_encode_chunking_irrelevant.
(* C06 *) Print Assumptions Verif.Base64_Props.base64_encoded_length.
(* C06 *) Print Assumptions Verif.Base64_Props.base64_encode_overrun_refuted.
(* C07 *) Print Assumptions Verif.Base64_Props.base64_roundtrip_partial.
(* C07 *) Print Assumptions Verif.Base64_Props.base64_roundtrip_exact.
(* C07 *) Print Assumptions Verif.Base64_Props.base64_roundtrip_refuted.
(* C08 *) Print Assumptions Verif.Base64_Props.base64_decode_exact_partial.
(* C08 *) Print Assumptions Verif.Base64_Props.base64_well_formed_unique.
(* C08 *) Print Assumptions Verif.Base64_Props.base64_decode_boundary_refuted.
(* C08 *) Print Assumptions Verif.Base64_Props.base64_decode_high_byte_refuted.
(* C09 *) Print Assumptions Verif.Huffman_Props.huffman_roundtrip.
(* C09 *) Print Assumptions Verif.Huffman_Props.huffman_roundtrip_any_limit.
(* C09 *) Print Assumptions Verif.Huffman_Props.huffman_encode_total.
(* C10 *) Print Assumptions Verif.Huffman_Props.huffman_codes_prefix_code.
(* C10 *) Print Assumptions Verif.Huffman_Props.huffman_codes_prefix_code_bytes.
(* C11 *) Print Assumptions Verif.Huffman_Props.huffman_oversubscribed_refuted.
(* C11 *) Print Assumptions Verif.Huffman_Props.huffman_truncated_refuted.
(* C11 *) Print Assumptions Verif.HuffmanFile_Props.huffman_decode_exact.
(* C11 *) Print Assumptions Verif.HuffmanFile_Props.huffman_decode_covered.
(* C11 *) Print Assumptions Verif.HuffmanFile_Props.huffman_decode_fate.
(* C11 *) Print Assumptions Verif.HuffmanFile_Props.huffman_safe_iff.
(* C11 *) Print Assumptions Verif.Huffman_Props.huffman_table_safe_partial.
(* C11 *) Print Assumptions Verif.Huffman_Props.huffman_symbols_safe_partial.
(* C11 *) Print Assumptions Verif.Huffman_Props.huffman_header_safe.
(* C12 *) Print Assumptions Verif.Huffman_Props.huffman_zero_chunk_refuted.
(* C12 *) Print Assumptions Verif.Huffman_Props.huffman_short_limit_refuted.
(* C12 *) Print Assumptions Verif.Huffman_Props.huffman_success_decodable_partial.
(* C13 *) Print Assumptions Verif.Huffman_Props.huffman_optimal.
(* C14 *) Print Assumptions Verif.Endian_Props.endian_swap_reverses.
(* C14 *) Print Assumptions Verif.Endian_Props.endian_swap_involutive.
(* C14 *) Print Assumptions Verif.Endian_Props.endian_swap_signed_involutive.
(* C14 *) Print Assumptions Verif.Endian_Props.big_endian_store_load.
(* C15 *) Print Assumptions Verif.Literal_Props.literal_value.
(* C15 *) Print Assumptions Verif.Literal_Props.literal_rejected_partial.
(* C15 *) Print Assumptions Verif.Literal_Props.literal_overflow_refuted.
(* C15 *) Print Assumptions Verif.Literal_Props.literal_unsigned_wraps.
(* C15 *) Print Assumptions Verif.Literal_Props.literal_bad_digit.
(* C16 *) Print Assumptions Verif.Unicode_Props.encode_codepoint_exact.
(* C16 *) Print Assumptions Verif.Unicode_Props.decode_encode.
(* C16 *) Print Assumptions Verif.Unicode_Props.encode_decode.
(* C17 *) Print Assumptions Verif.Unicode_Props.validate_exact.
(* C17 *) Print Assumptions Verif.Unicode_Props.text_unambiguous.
(* C18 *) Print Assumptions Verif.Unicode_Props.convert_exact.
(* C18 *) Print Assumptions Verif.Unicode_Props.convert_rejects.
(* C18 *) Print Assumptions Verif.Unicode_Props.convert_round_trip.
(* C19 *) Print Assumptions Verif.Unicode_Props.escape_printable_ascii.
(* C19 *) Print Assumptions Verif.Unicode_Props.escape_rejects.
(* C19 *) Print Assumptions Verif.Unicode_Props.unescape_escape_partial.
(* C19 *) Print Assumptions Verif.Unicode_Props.unescape_escape_refuted.
(* C19 *) Print Assumptions Verif.Unescape_Props.unescape_escape_iff.
(* C19 *) Print Assumptions Verif.Unescape_Props.unescape_exact.
(* C19 *) Print Assumptions Verif.Unescape_Props.unescape_one_exact.
(* C19 *) Print Assumptions Verif.Unescape_Props.unescape_refuses.
(* C19 *) Print Assumptions Verif.Unescape_Props.escape_forms.
(* C20 *) Print Assumptions Verif.Lexer_Props.classify_exact.
(* C20 *) Print Assumptions Verif.Lexer_Props.to_upper_exact.
(* C20 *) Print Assumptions Verif.Lexer_Props.to_lower_exact.
(* C20 *) Print Assumptions Verif.Lexer_Props.digits_exact_partial.
(* C20 *) Print Assumptions Verif.Lexer_Props.digits_exact_unsigned.
(* C20 *) Print Assumptions Verif.Lexer_Props.digits_refuted.
(* C21 *) Print Assumptions Verif.Lexer_Props.consume_number_exact_partial.
(* C21 *) Print Assumptions Verif.Lexer_Props.consume_hex_exact_partial.
(* C21 *) Print Assumptions Verif.Lexer_Props.lexer_stays_inside.
(* C21 *) Print Assumptions Verif.Lexer_Props.consume_exact.
(* C21 *) Print Assumptions Verif.Lexer_Props.consume_number_refuted.
(* C21 *) Print Assumptions Verif.Lexer_Props.peek_exact.
(* C22 *) Print Assumptions Verif.Strings_Props.split_pieces.
(* C22 *) Print Assumptions Verif.Strings_Props.pieces_exist_unique.
(* C22 *) Print Assumptions Verif.Strings_Props.split_count.
(* C22 *) Print Assumptions Verif.Strings_Props.split_at_most_count.
(* C22 *) Print Assumptions Verif.Strings_Props.split_rest_partial.
(* C22 *) Print Assumptions Verif.Strings_Props.split_rest_refuted.
(* C23 *) Print Assumptions Verif.Strings_Props.trim_exact.
(* C23 *) Print Assumptions Verif.Strings_Props.trim_idempotent.
(* C24 *) Print Assumptions Verif.Strings_Props.replace_all_removes.
(* C24 *) Print Assumptions Verif.Strings_Props.replace_all_terminates_partial.
(* C24 *) Print Assumptions Verif.Strings_Props.remove_all_total.
(* C24 *) Print Assumptions Verif.Strings_Props.replace_all_char_exact.
(* C24 *) Print Assumptions Verif.Strings_Props.replace_all_refuted.
(* C24 *) Print Assumptions Verif.Strings_Props.replace_all_empty_search.
(* C25 *) Print Assumptions Verif.Strings_Props.wildcard_match_complete.
(* C25 *) Print Assumptions Verif.Strings_Props.wildcard_match_total.
(* C25 *) Print Assumptions Verif.Strings_Props.wildcard_match_exact_partial.
(* C25 *) Print Assumptions Verif.Strings_Props.wildcard_match_guarantee.
(* C25 *) Print Assumptions Verif.Strings_Props.wildcard_match_iff.
(* C25 *) Print Assumptions Verif.Strings_Props.wildcard_match_refuted.
(* C26 *) Print Assumptions Verif.Net_Props.ipv4_parse_exact.
(* C26 *) Print Assumptions Verif.Net_Props.ipv4_parse_inet_aton_partial.
(* C26 *) Print Assumptions Verif.Net_Props.ipv4_parse_total.
(* C26 *) Print Assumptions Verif.Net_Props.ipv4_host_order.
(* C26 *) Print Assumptions Verif.Net_Props.ipv4_network_order.
(* C26 *) Print Assumptions Verif.Net_Props.special_addresses.
(* C26 *) Print Assumptions Verif.Net_Props.loopback_big_endian_refuted.
(* C26 *) Print Assumptions Verif.Net_Props.ipv4_octets.
(* C26 *) Print Assumptions Verif.Net_Props.ipv4_format_exact.
(* C26 *) Print Assumptions Verif.Net_Props.ipv4_round_trip.
(* C26 *) Print Assumptions Verif.Net_Props.ipv4_big_endian_refuted.
(* C26 *) Print Assumptions Verif.Net_Props.ipv4_wrap_refuted.
(* C26 *) Print Assumptions Verif.Net_Props.ipv4_negative_refuted.
(* C27 *) Print Assumptions Verif.Net_Props.ipv6_accepts_exact.
(* C27 *) Print Assumptions Verif.Net_Props.ipv6_parse_rfc_partial.
(* C27 *) Print Assumptions Verif.Net_Props.ipv6_round_trip.
(* C27 *) Print Assumptions Verif.Net_Props.ipv6_rfc_refuted.
(* C28 *) Print Assumptions Verif.Net_Props.endpoint4_parse_exact.
(* C28 *) Print Assumptions Verif.Net_Props.endpoint6_parse_exact.
(* C28 *) Print Assumptions Verif.Net_Props.endpoint4_round_trip.
(* C28 *) Print Assumptions Verif.Net_Props.endpoint6_round_trip.
(* C28 *) Print Assumptions Verif.Net_Props.endpoint_order.
(* C28 *) Print Assumptions Verif.Net_Props.endpoint_order_macos_refuted.
(* C29 *) Print Assumptions Verif.Json_Props.string_construction.
(* C29 *) Print Assumptions Verif.Json_Props.string_construction_rejects.
(* C29 *) Print Assumptions Verif.Json_Props.string_stored_valid.
(* C29 *) Print Assumptions Verif.Json_Props.string_round_trip.
(* C29 *) Print Assumptions Verif.Json_Props.serialize_any_string_refuted.
(* C30 *) Print Assumptions Verif.Json_Props.round_trip.
(* C30 *) Print Assumptions Verif.Json_Props.serialize_stable.
(* C30 *) Print Assumptions Verif.Json_Props.serialize_injective.
(* C31 *) Print Assumptions Verif.Json_Props.parser_terminates.
(* C31 *) Print Assumptions Verif.Json_Props.parse_exact.
(* C31 *) Print Assumptions Verif.Json_Props.strict_exact.
(* C31 *) Print Assumptions Verif.Json_Props.features_only_add.
(* C31 *) Print Assumptions Verif.Json_Props.document_unique.
(* C31 *) Print Assumptions Verif.Json_Props.parse_char_sign.
(* C31 *) Print Assumptions Verif.Json_Props.malformed_comment_rejected_refuted.
(* C31 *) Print Assumptions Verif.Json_Props.comments_everywhere_refuted.
(* C32 *) Print Assumptions Verif.Json_Order_Props.equality_symmetric.
(* C32 *) Print Assumptions Verif.Json_Order_Props.equality_exact_partial.
(* C32 *) Print Assumptions Verif.Json_Order_Props.order_signed_partial.
(* C32 *) Print Assumptions Verif.Json_Order_Props.order_unsigned_partial.
(* C32 *) Print Assumptions Verif.Json_Order_Props.order_nonnegative_partial.
(* C32 *) Print Assumptions Verif.Json_Order_Props.order_float_partial.
(* C32 *) Print Assumptions Verif.JsonFloat_Props.order_mixed_partial.
(* C32 *) Print Assumptions Verif.JsonFloat_Props.mixed_by_value.
(* C32 *) Print Assumptions Verif.Json_Order_Props.equality_reflexive_refuted.
(* C32 *) Print Assumptions Verif.Json_Order_Props.equality_transitive_refuted.
(* C32 *) Print Assumptions Verif.Json_Order_Props.order_asymmetric_refuted.
(* C32 *) Print Assumptions Verif.Json_Order_Props.order_consistent_refuted.
(* C32 *) Print Assumptions Verif.Json_Order_Props.equality_by_value_refuted.
(* C32 *) Print Assumptions Verif.JsonFloat_Props.order_mixed_double_refuted.
(* C32 *) Print Assumptions Verif.JsonRel_Props.relations_converse.
(* C32 *) Print Assumptions Verif.JsonRel_Props.relations_integers_partial.
(* C32 *) Print Assumptions Verif.JsonRel_Props.relations_floats_partial.
(* C32 *) Print Assumptions Verif.JsonRel_Props.relations_nan_refuted.
(* C32 *) Print Assumptions Verif.JsonRel_Props.relations_mixed_refuted.
(* C33 *) Print Assumptions Verif.Ini_Props.parse_ini_exact.
(* C33 *) Print Assumptions Verif.Ini_Props.parse_ini_sign_independent.
(* C33 *) Print Assumptions Verif.Ini_Props.render_parses_partial.
(* C33 *) Print Assumptions Verif.Ini_Props.render_parses_distinct_partial.
(* C33 *) Print Assumptions Verif.Ini_Props.text_after_equals_is_value_refuted.
(* C33 *) Print Assumptions Verif.Ini_Props.bracket_value_rejected.
(* C33 *) Print Assumptions Verif.Ini_Props.empty_value_rejected.
(* C34 *) Print Assumptions Verif.Concurrent_Props.mutual_exclusion.
(* C34 *) Print Assumptions Verif.Concurrent_Props.histories_linearizable.
(* C34 *) Print Assumptions Verif.Concurrent_Props.queue_first_in_first_out.
(* C34 *) Print Assumptions Verif.Concurrent_Props.stack_last_in_first_out.
(* C34 *) Print Assumptions Verif.Concurrent_Props.items_conserved.
(* C34 *) Print Assumptions Verif.Concurrent_Props.no_item_duplicated.
(* C34 *) Print Assumptions Verif.Concurrent_Props.no_item_lost.
(* C35 *) Print Assumptions Verif.Concurrent_Props.items_have_wakers.
(* C35 *) Print Assumptions Verif.Concurrent_Props.no_lost_wakeup.
(* C35 *) Print Assumptions Verif.Concurrent_Props.executions_end.
(* C35 *) Print Assumptions Verif.Concurrent_Props.quiescent_means_served.
(* C35 *) Print Assumptions Verif.Concurrent_Props.quiescence_reached.
(* C36 *) Print Assumptions Verif.Task_Props.sequenced_one_at_a_time.
(* C36 *) Print Assumptions Verif.Task_Props.sequenced_start_after_end.
(* C36 *) Print Assumptions Verif.Task_Props.sequenced_in_order.
(* C36 *) Print Assumptions Verif.Task_Props.sequenced_none_left_out.
(* C36 *) Print Assumptions Verif.Task_Props.sequenced_direct_posts_in_order.
(* C36 *) Print Assumptions Verif.Task_Props.accepted_can_finish.
(* C36 *) Print Assumptions Verif.Task_Fair_Props.accepted_is_executed.
(* C36 *) Print Assumptions Verif.Task_Props.sequenced_after_restart_refuted.
(* C37 *) Print Assumptions Verif.Task_Alive_Props.used_is_alive.
(* C37 *) Print Assumptions Verif.Task_Alive_Props.destroyed_starts_none.
(* C37 *) Print Assumptions Verif.Task_Props.executed_at_most_once.
(* C37 *) Print Assumptions Verif.Task_Props.executed_was_accepted.
(* C37 *) Print Assumptions Verif.Task_Props.delayed_not_before.
(* C37 *) Print Assumptions Verif.Task_Props.none_after_stop.
(* C37 *) Print Assumptions Verif.Task_Props.accepted_not_lost.
(* C37 *) Print Assumptions Verif.Task_Props.accepted_can_finish.
(* C37 *) Print Assumptions Verif.Task_Props.delayed_not_lost.
(* C37 *) Print Assumptions Verif.Task_Props.delayed_can_finish.
(* C37 *) Print Assumptions Verif.Task_Props.stop_can_return.
(* C37 *) Print Assumptions Verif.Task_Fair_Props.delayed_is_executed.
(* C37 *) Print Assumptions Verif.Task_Fair_Props.stop_returns_under_fairness.
(* C38 *) Print Assumptions Verif.Service_Props.notified_at_most_once.
(* C38 *) Print Assumptions Verif.Service_Props.notified_when_ready.
(* C38 *) Print Assumptions Verif.Service_Props.not_notified_after_removal.
(* C38 *) Print Assumptions Verif.Service_Props.not_notified_when_gone.
(* C38 *) Print Assumptions Verif.Service_Props.dropped_only_when_gone.
(* C38 *) Print Assumptions Verif.Service_Props.notified_in_order.
(* C38 *) Print Assumptions Verif.Service_Props.poll_scheduled.
(* C38 *) Print Assumptions Verif.Service_Props.ready_is_served.
(* C38 *) Print Assumptions Verif.Service_Props.service_defined.
(* C39 *) Print Assumptions Verif.ParseFile_Props.unmarked_file.
(* C39 *) Print Assumptions Verif.ParseFile_Props.utf8_file.
(* C39 *) Print Assumptions Verif.ParseFile_Props.marked_file.
(* C39 *) Print Assumptions Verif.ParseFile_Props.marked_file_shape.
(* C39 *) Print Assumptions Verif.ParseFile_Props.encoded_file.
(* C39 *) Print Assumptions Verif.ParseFile_Props.encoded_file_refuted.
(* C39 *) Print Assumptions Verif.ParseFile_Props.parse_json_any_scheme.
(* C39 *) Print Assumptions Verif.ParseFile_Props.parse_ini_any_scheme.
(* C39 *) Print Assumptions Verif.ParseFile_Props.parse_json_utf8_marked.
(* C39 *) Print Assumptions Verif.ParseFile_Props.parse_json_unmarked.
(* C39 *) Print Assumptions Verif.ParseFile_Props.parse_json_string_exact.
(* C40 *) Print Assumptions Verif.FormatString_Props.parse_format_exact.
(* C40 *) Print Assumptions Verif.FormatString_Props.parse_format_accepts.
(* C40 *) Print Assumptions Verif.FormatString_Props.digits_are_ascii.
(* C40 *) Print Assumptions Verif.FormatString_Props.pieces_text.
(* C40 *) Print Assumptions Verif.FormatString_Props.lone_closing_brace_rejected.
(* C40 *) Print Assumptions Verif.FormatString_Props.unclosed_brace_rejected.
(* C40 *) Print Assumptions Verif.FormatString_Props.format_exact.
(* C40 *) Print Assumptions Verif.FormatString_Props.format_rejected.
(* C40 *) Print Assumptions Verif.FormatString_Props.format_doubled.
(* C40 *) Print Assumptions Verif.FormatString_Props.fields_spec_ok.
(* C40 *) Print Assumptions Verif.FormatString_Props.integer_field.
(* C40 *) Print Assumptions Verif.FormatFields_Props.character_field.
(* C40 *) Print Assumptions Verif.FormatFields_Props.boolean_field.
(* C40 *) Print Assumptions Verif.FormatFields_Props.zero_padding_without_alignment.
(* C40 *) Print Assumptions Verif.FormatString_Props.string_field.
(* C40 *) Print Assumptions Verif.FormatString_Props.pointer_field.
(* C40 *) Print Assumptions Verif.FormatString_Props.user_field.
(* C40 *) Print Assumptions Verif.FormatString_Props.fill_lookahead_refuted.
(* C40 *) Print Assumptions Verif.FormatString_Props.negative_digit_refuted.
(* C40 *) Print Assumptions Verif.FormatString_Props.wrapped_position_refuted.
(* C41 *) Print Assumptions Verif.Format_Props.format_integer_exact.
(* C41 *) Print Assumptions Verif.Format_Props.positional_unique.
(* C41 *) Print Assumptions Verif.Format_Props.format_integer_as_character.
(* C41 *) Print Assumptions Verif.FormatFields_Props.character_shown.
(* C41 *) Print Assumptions Verif.Format_Props.format_string_value_exact.
(* C41 *) Print Assumptions Verif.Format_Props.format_bool_text.
(* C41 *) Print Assumptions Verif.Format_Props.convert_exact_int.
(* C41 *) Print Assumptions Verif.Format_Props.convert_format_integer.
(* C41 *) Print Assumptions Verif.Format_Props.format_integer_total.
(* C41 *) Print Assumptions Verif.Format_Props.number_transcoded.
(* C42 *) Print Assumptions Verif.Json_Order_Props.equal_hash_signed_partial.
(* C42 *) Print Assumptions Verif.Json_Order_Props.equal_hash_same_kinds_partial.
(* C42 *) Print Assumptions Verif.Json_Order_Props.equal_hash_refuted.
(* C43 *) Print Assumptions Verif.Socket_Props.send_reports.
(* C43 *) Print Assumptions Verif.Socket_Props.send_once.
(* C43 *) Print Assumptions Verif.Socket_Props.send_not_lost.
(* C43 *) Print Assumptions Verif.Socket_Props.send_can_complete.
(* C43 *) Print Assumptions Verif.Socket_Fair_Props.send_async_completes.
(* C43 *) Print Assumptions Verif.Socket_Fair_Props.send_async_sends_all.
(* C43 *) Print Assumptions Verif.Socket_Props.stream_in_order.
(* C43 *) Print Assumptions Verif.Socket_Props.stream_complete.
(* C43 *) Print Assumptions Verif.Socket_Props.datagram_pieces.
(* C43 *) Print Assumptions Verif.Socket_Props.async_sends_refuted.
(* C43 *) Print Assumptions Verif.Socket_Props.empty_send_refuted.
(* C44 *) Print Assumptions Verif.Socket_Props.receive_stream.
(* C44 *) Print Assumptions Verif.Socket_Props.receive_datagrams.
(* C44 *) Print Assumptions Verif.Socket_Props.receive_once.
(* C44 *) Print Assumptions Verif.Socket_Props.receive_reports.
(* C44 *) Print Assumptions Verif.Socket_Props.receive_not_lost.
(* C44 *) Print Assumptions Verif.Socket_Fair_Props.receive_async_completes.
(* C44 *) Print Assumptions Verif.Socket_Props.end_to_end.
(* C44 *) Print Assumptions Verif.Socket_Props.empty_datagram_refuted.
(* C45 *) Print Assumptions Verif.Socket_Props.connect_reports.
(* C45 *) Print Assumptions Verif.Socket_Props.connect_once.
(* C45 *) Print Assumptions Verif.Socket_Props.connect_returns.
(* C45 *) Print Assumptions Verif.Socket_Fair_Props.connect_async_completes.
(* C45 *) Print Assumptions Verif.Socket_Props.closed_for_good.
(* C45 *) Print Assumptions Verif.Socket_Props.socket_defined.
(* C45 *) Print Assumptions Verif.Socket_Props.is_connected_refuted.
(* C45 *) Print Assumptions Verif.Socket_Props.async_after_close_refuted.
(* C46 *) Print Assumptions Verif.Logger_Props.log_files_complete.
(* C46 *) Print Assumptions Verif.Logger_Props.log_calls_in_order.
(* C46 *) Print Assumptions Verif.Logger_Props.log_calls_taken.
(* C46 *) Print Assumptions Verif.Logger_Props.log_file_sizes.
(* C46 *) Print Assumptions Verif.Logger_Props.logger_drains.
(* C46 *) Print Assumptions Verif.Logger_Props.log_records_readable.
(* C46 *) Print Assumptions Verif.Logger_Props.forged_record_refuted.
(* C47 *) Print Assumptions Verif.Logger_Props.log_files_survive.
(* C47 *) Print Assumptions Verif.Logger_Props.no_call_lost_silently.
(* C47 *) Print Assumptions Verif.Logger_Props.failed_logger_stays_failed.
(* C47 *) Print Assumptions Verif.Logger_Props.zero_chunk_logs_refuted.
(* C47 *) Print Assumptions Verif.Logger_Props.lost_compression_refuted.
(* C47 *) Print Assumptions Verif.Logger_Props.write_failure_refuted.
(* C48 *) Print Assumptions Verif.Logger_Props.sync_logger_goes_on.
(* C48 *) Print Assumptions Verif.Logger_Props.default_logger_refuted.
(* C49 *) Print Assumptions Verif.Registry_Props.registry_exact.
(* C49 *) Print Assumptions Verif.Registry_Props.name_clash_refuted.
(* C49 *) Print Assumptions Verif.Registry_Props.default_name_refuted.
(* C50 *) Print Assumptions Verif.Path_Props.events_read.
(* C50 *) Print Assumptions Verif.Path_Props.flags_reported.
(* C50 *) Print Assumptions Verif.Path_Props.callbacks_exact.
(* C50 *) Print Assumptions Verif.Path_Props.callbacks_registered.
(* C50 *) Print Assumptions Verif.Path_Props.changes_handled.
(* C50 *) Print Assumptions Verif.Path_Props.removal_results.
(* C50 *) Print Assumptions Verif.Path_Props.monitor_drains.
(* C50 *) Print Assumptions Verif.Path_Props.race_refuted.
(* C50 *) Print Assumptions Verif.Path_Props.alias_refuted.
(* C50 *) Print Assumptions Verif.Path_Props.new_directory_refuted.
(* C50 *) Print Assumptions Verif.Path_Props.reentry_refuted.
(* C51 *) Print Assumptions Verif.JsonApi_Props.object_lookups.
(* C51 *) Print Assumptions Verif.JsonApi_Props.object_updates.
(* C51 *) Print Assumptions Verif.JsonApi_Props.bad_key_refused.
(* C51 *) Print Assumptions Verif.JsonApi_Props.object_insert_range.
(* C51 *) Print Assumptions Verif.JsonApi_Props.object_erase_range.
(* C51 *) Print Assumptions Verif.JsonApi_Props.merge_moves.
(* C51 *) Print Assumptions Verif.JsonApi_Props.initializer_list.
(* C51 *) Print Assumptions Verif.JsonApi_Props.map_constructor.
(* C51 *) Print Assumptions Verif.JsonApi_Props.failed_operations_change_nothing_refuted.
(* C51 *) Print Assumptions Verif.JsonApi_Props.map_round_trip_refuted.
(* C51 *) Print Assumptions Verif.JsonApi_Props.swap_string_twice_refuted.
(* C51 *) Print Assumptions Verif.JsonValue_Props.map_constructor_refused.
(* C51 *) Print Assumptions Verif.JsonValue_Props.merge_refused.
(* C51 *) Print Assumptions Verif.JsonValue_Props.swap_string_exact.
(* C52 *) Print Assumptions Verif.JsonApi_Props.array_at.
(* C52 *) Print Assumptions Verif.JsonApi_Props.array_subscript_beyond.
(* C52 *) Print Assumptions Verif.JsonApi_Props.array_resize.
(* C52 *) Print Assumptions Verif.JsonApi_Props.array_insert.
(* C52 *) Print Assumptions Verif.JsonApi_Props.array_push_pop.
(* C52 *) Print Assumptions Verif.JsonApi_Props.array_erase.
(* C52 *) Print Assumptions Verif.JsonApi_Props.ends.
(* C52 *) Print Assumptions Verif.JsonApi_Props.wrong_type_refused.
(* C52 *) Print Assumptions Verif.JsonApi_Props.never_undefined.
(* C52 *) Print Assumptions Verif.JsonApi_Props.exceptions_change_little.
(* C52 *) Print Assumptions Verif.JsonApi_Props.array_subscript_keeps_refuted.
(* C52 *) Print Assumptions Verif.JsonApi_Props.push_back_self_refuted.
(* C52 *) Print Assumptions Verif.JsonValue_Props.size_and_empty.
(* C52 *) Print Assumptions Verif.JsonValue_Props.clear_keeps_the_type.
(* C52 *) Print Assumptions Verif.JsonValue_Props.assign_and_swap.
(* C53 *) Print Assumptions Verif.JsonIter_Props.iterator_steps.
(* C53 *) Print Assumptions Verif.JsonIter_Props.iterator_arithmetic.
(* C53 *) Print Assumptions Verif.JsonIter_Props.iterator_refusals.
(* C53 *) Print Assumptions Verif.JsonIter_Props.loop_visits.
(* C53 *) Print Assumptions Verif.JsonIter_Props.reverse_loop_visits.
(* C53 *) Print Assumptions Verif.JsonIter_Props.elements_read.
(* C53 *) Print Assumptions Verif.JsonIter_Props.reverse_steps.
(* C53 *) Print Assumptions Verif.JsonValue_Props.reverse_arithmetic.
(* C54 *) Print Assumptions Verif.JsonIter_Props.call_frame.
(* C54 *) Print Assumptions Verif.JsonIter_Props.call_ancestors.
(* C54 *) Print Assumptions Verif.JsonIter_Props.calls_stay_regular.
(* C54 *) Print Assumptions Verif.JsonIter_Props.resize_keeps_serializable_refuted.
(* C55 *) Print Assumptions Verif.JsonConv_Props.integer_conversion.
(* C55 *) Print Assumptions Verif.JsonConv_Props.integer_conversion_refused.
(* C55 *) Print Assumptions Verif.JsonConv_Props.integer_round_trip.
(* C55 *) Print Assumptions Verif.JsonConv_Props.bool_conversion.
(* C55 *) Print Assumptions Verif.JsonConv_Props.sequence_conversion.
(* C55 *) Print Assumptions Verif.JsonConv_Props.sequence_round_trip.
(* C55 *) Print Assumptions Verif.JsonFloat_Props.integer_to_float_exact.
(* C55 *) Print Assumptions Verif.JsonFloat_Props.float_to_float_exact.
(* C55 *) Print Assumptions Verif.JsonFloat_Props.float_round_trip.
(* C55 *) Print Assumptions Verif.JsonFloat_Props.float_conversion_refused.
(* C55 *) Print Assumptions Verif.JsonConv_Props.integer_conversion_refuses_overflow_refuted.
(* C56 *) Print Assumptions Verif.Config_Props.configs_hold_their_section.
(* C56 *) Print Assumptions Verif.Config_Props.quiet_configs_match_the_file.
(* C56 *) Print Assumptions Verif.Config_Props.values_come_from_files.
(* C56 *) Print Assumptions Verif.Config_Props.one_config_per_identifier.
(* C56 *) Print Assumptions Verif.Config_Props.create_config_result.
(* C56 *) Print Assumptions Verif.Config_Props.prune_counts.
(* C56 *) Print Assumptions Verif.Config_Props.get_value_result.
(* C56 *) Print Assumptions Verif.Config_Props.get_value_bad_name.
(* C56 *) Print Assumptions Verif.Config_Props.updates_can_complete.
(* C56 *) Print Assumptions Verif.Config_Props.initial_file_refuted.
(* C56 *) Print Assumptions Verif.Config_Props.non_object_file_refuted.
(* C56 *) Print Assumptions Verif.Config_Props.get_value_default_refuted.
(* C57 *) Print Assumptions Verif.Reply_Props.request_kept.
(* C57 *) Print Assumptions Verif.Reply_Props.runs_at_most_once.
(* C57 *) Print Assumptions Verif.Reply_Props.reply_after_task.
(* C57 *) Print Assumptions Verif.Reply_Props.task_was_posted.
(* C57 *) Print Assumptions Verif.Reply_Props.owner_exists.
(* C57 *) Print Assumptions Verif.Reply_Props.skipped_without_owner.
(* C57 *) Print Assumptions Verif.Reply_Props.skipped_means_never.
(* C57 *) Print Assumptions Verif.Reply_Props.sequenced_one_by_one.
(* C57 *) Print Assumptions Verif.Reply_Props.replies_in_order.
(* C57 *) Print Assumptions Verif.Reply_Props.reply_handed_after_return.
(* C57 *) Print Assumptions Verif.Reply_Props.nothing_forgotten.
(* C57 *) Print Assumptions Verif.Reply_Props.runner_drains.
(* C57 *) Print Assumptions Verif.Reply_Props.rvalues_never_dangle.
(* C57 *) Print Assumptions Verif.Reply_Props.lvalue_task_refuted.
(* C57 *) Print Assumptions Verif.Reply_Props.lvalue_reply_refuted.
(* C57 *) Print Assumptions Verif.Reply_Props.reply_not_next_refuted.
(* C58 *) Print Assumptions Verif.Handle_Props.closes_its_own.
(* C58 *) Print Assumptions Verif.Handle_Props.closed_once.
(* C58 *) Print Assumptions Verif.Handle_Props.others_untouched.
(* C58 *) Print Assumptions Verif.Handle_Props.open_means_holds.
(* C58 *) Print Assumptions Verif.Handle_Props.nothing_leaks.
(* C58 *) Print Assumptions Verif.Handle_Props.all_closed_at_the_end.
(* C58 *) Print Assumptions Verif.Handle_Props.io_mode_holds.
(* C58 *) Print Assumptions Verif.Handle_Props.ids_differ.
(* C58 *) Print Assumptions Verif.Handle_Props.close_result.
(* C58 *) Print Assumptions Verif.Handle_Props.move_result.
(* C58 *) Print Assumptions Verif.Handle_Props.accepted_socket.
(* C58 *) Print Assumptions Verif.Handle_Props.failed_accept_closed.
(* C58 *) Print Assumptions Verif.Handle_Props.each_call_ends_once.
(* C58 *) Print Assumptions Verif.Handle_Props.async_true_with_service.
(* C58 *) Print Assumptions Verif.Handle_Props.requests_are_for_open_sockets.
(* C58 *) Print Assumptions Verif.Handle_Props.assignment_leaks_refuted.
(* C58 *) Print Assumptions Verif.Handle_Props.listening_after_close_refuted.
(* C58 *) Print Assumptions Verif.Handle_Props.same_id_refuted.
(* C58 *) Print Assumptions Verif.Handle_Props.connected_but_closed_refuted.
(* C59 *) Print Assumptions Verif.System_Props.monitor_created.
(* C59 *) Print Assumptions Verif.System_Props.monitor_not_created.
(* C59 *) Print Assumptions Verif.System_Props.monitor_goes_on.
(* C59 *) Print Assumptions Verif.System_Props.monitor_defined.
(* C59 *) Print Assumptions Verif.System_Props.cpu_count_reported.
(* C59 *) Print Assumptions Verif.System_Props.system_usage_reported.
(* C59 *) Print Assumptions Verif.System_Props.system_usage_kept.
(* C59 *) Print Assumptions Verif.System_Props.first_usage_since_boot.
(* C59 *) Print Assumptions Verif.System_Props.usage_not_a_number.
(* C59 *) Print Assumptions Verif.System_Props.usage_is_percentage_refuted.
(* C59 *) Print Assumptions Verif.System_Props.process_usage_reported.
(* C59 *) Print Assumptions Verif.System_Props.process_usage_kept.
(* C59 *) Print Assumptions Verif.System_Props.memory_reported.
(* C59 *) Print Assumptions Verif.System_Props.process_memory_reported.
(* C60 *) Print Assumptions Verif.Float_Props.printf_text_unique.
(* C60 *) Print Assumptions Verif.Float_Props.printf_text_exists.
(* C60 *) Print Assumptions Verif.Float_Props.printf_text_ascii.
(* C60 *) Print Assumptions Verif.Float_Props.float_text_shown.
(* C60 *) Print Assumptions Verif.Float_Props.float_formatted.
(* C60 *) Print Assumptions Verif.FormatFields_Props.floating_field.
(* C60 *) Print Assumptions Verif.Float_Props.double_fits.
(* C60 *) Print Assumptions Verif.Float_Props.fixed_fits.
(* C60 *) Print Assumptions Verif.Float_Props.special_fits.
(* C60 *) Print Assumptions Verif.Float_Props.default_double_shown.
(* C60 *) Print Assumptions Verif.Float_Props.large_fixed_refuted.
(* C60 *) Print Assumptions Verif.Float_Props.alternate_infinity_refuted.
(* C60 *) Print Assumptions Verif.Float_Props.alternate_half_refuted.
(* C60 *) Print Assumptions Verif.Float_Props.precision_refuted.
(* C61 *) Print Assumptions Verif.Join_Props.join_shown.
(* C61 *) Print Assumptions Verif.Join_Props.plain_unique.
(* C61 *) Print Assumptions Verif.Join_Props.join_separator_refuted.
(* C61 *) Print Assumptions Verif.Join_Props.split_join.
(* C61 *) Print Assumptions Verif.Join_Props.random_string.
(* C61 *) Print Assumptions Verif.Join_Props.random_string_any.
(* C61 *) Print Assumptions Verif.Join_Props.random_characters.
(* C62 *) Print Assumptions Verif.Coder_Props.string_success.
(* C62 *) Print Assumptions Verif.Coder_Props.string_failure.
(* C62 *) Print Assumptions Verif.Coder_Props.other_files_untouched.
(* C62 *) Print Assumptions Verif.Coder_Props.file_coded.
(* C62 *) Print Assumptions Verif.Coder_Props.file_success.
(* C62 *) Print Assumptions Verif.Coder_Props.file_failure.
(* C62 *) Print Assumptions Verif.Coder_Props.base64_notices_read_faults.
(* C62 *) Print Assumptions Verif.Coder_Props.write_faults_reported.
(* C62 *) Print Assumptions Verif.Coder_Props.file_call_total.
(* C62 *) Print Assumptions Verif.Coder_Props.files_roundtrip.
(* C62 *) Print Assumptions Verif.Coder_Props.base64_inverts.
(* C62 *) Print Assumptions Verif.Coder_Props.huffman_inverts.
(* C62 *) Print Assumptions Verif.Coder_Props.failure_keeps_output_refuted.
(* C62 *) Print Assumptions Verif.Coder_Props.onto_itself_refuted.
(* C62 *) Print Assumptions Verif.Coder_Props.read_fault_refuted.
(* C62 *) Print Assumptions Verif.Coder_Props.unwritten_refuted.
(* C63 *) Print Assumptions Verif.Styler_Props.styler_applied.
(* C63 *) Print Assumptions Verif.Styler_Props.styler_scoped.
(* C63 *) Print Assumptions Verif.Styler_Props.other_streams_plain.
(* C63 *) Print Assumptions Verif.Styler_Props.last_color_wins.
(* C63 *) Print Assumptions Verif.Styler_Props.cursor_moves.
(* C63 *) Print Assumptions Verif.Styler_Props.console_line.
(* C63 *) Print Assumptions Verif.Styler_Props.nested_refuted.
(* C63 *) Print Assumptions Verif.Styler_Props.restream_refuted.
(* C63 *) Print Assumptions Verif.Styler_Props.hexadecimal_refuted.
(* C63 *) Print Assumptions Verif.Styler_Props.console_escape_refuted.
(* C64 *) Print Assumptions Verif.Signal_Props.signals_handled.
(* C64 *) Print Assumptions Verif.Signal_Props.other_signals_default.
(* C64 *) Print Assumptions Verif.Signal_Props.first_set_safe.
(* C64 *) Print Assumptions Verif.Signal_Props.replacement_outcomes.
(* C64 *) Print Assumptions Verif.Signal_Props.destroyed_only_while_running.
(* C64 *) Print Assumptions Verif.Signal_Props.removing_refuted.
(* C64 *) Print Assumptions Verif.Signal_Props.replacing_refuted.
(* C64 *) Print Assumptions Verif.Signal_Props.handler_destroyed_refuted.
(* C65 *) Print Assumptions Verif.SysText_Props.error_string_text.
(* C65 *) Print Assumptions Verif.SysText_Props.error_string_injective.
(* C65 *) Print Assumptions Verif.SysText_Props.local_time_text.
(* C65 *) Print Assumptions Verif.SysText_Props.local_time_injective.
(* C65 *) Print Assumptions Verif.SysText_Props.local_time_length.
(* C66 *) Print Assumptions Verif.Diag_Props.json_log_result.
(* C66 *) Print Assumptions Verif.Diag_Props.json_warnings_truthful.
(* C66 *) Print Assumptions Verif.Diag_Props.json_warning_position_partial.
(* C66 *) Print Assumptions Verif.Diag_Props.json_success_warnings.
(* C66 *) Print Assumptions Verif.Diag_Props.json_strict_success_quiet.
(* C66 *) Print Assumptions Verif.Diag_Props.json_accepts_all_read.
(* C66 *) Print Assumptions Verif.Diag_Props.json_failure_reported_partial.
(* C66 *) Print Assumptions Verif.Diag_Props.ini_log_result.
(* C66 *) Print Assumptions Verif.Diag_Props.ini_warnings_exact.
(* C66 *) Print Assumptions Verif.Diag_Props.ini_success_quiet.
(* C66 *) Print Assumptions Verif.Diag_Props.json_failure_reported_refuted.
(* C66 *) Print Assumptions Verif.Diag_Props.json_warning_column_refuted.
(* C66 *) Print Assumptions Verif.Diag_Props.json_one_warning_refuted.
(* C66 *) Print Assumptions Verif.Diag_Props.json_success_quiet_refuted.
(* C66 *) Print Assumptions Verif.Diag_Props.ini_warning_line_refuted.
(* C67 *) Print Assumptions Verif.Foreign_Props.foreign_exact.
(* C67 *) Print Assumptions Verif.Foreign_Props.foreign_uncut.
(* C67 *) Print Assumptions Verif.Foreign_Props.foreign_cut_between_characters.
(* C67 *) Print Assumptions Verif.Foreign_Props.foreign_ascii.
(* C67 *) Print Assumptions Verif.Foreign_Props.foreign_precision_drops_text.
(* C67 *) Print Assumptions Verif.Foreign_Props.foreign_width_refuted.
(* C67 *) Print Assumptions Verif.Foreign_Props.foreign_padding_refuted.
(* C68 *) Print Assumptions Verif.JsonWide_Props.wide_same.
(* C68 *) Print Assumptions Verif.JsonWide_Props.wide_construct.
(* C68 *) Print Assumptions Verif.JsonWide_Props.wide_read.
(* C68 *) Print Assumptions Verif.JsonWide_Props.wide_read_undefined.
(* C68 *) Print Assumptions Verif.JsonWide_Props.wide_round_trip.
(* C68 *) Print Assumptions Verif.JsonWide_Props.wide_map_exact.
(* C68 *) Print Assumptions Verif.JsonWide_Props.wide_map_refused.
(* C68 *) Print Assumptions Verif.JsonWide_Props.wide_map_construct.
(* C68 *) Print Assumptions Verif.JsonWide_Props.wide_map_construct_refused.
(* C68 *) Print Assumptions Verif.JsonWide_Props.wide_map_round_trip.
(* C68 *) Print Assumptions Verif.JsonWide_Props.wide_number.
(* C68 *) Print Assumptions Verif.JsonWide_Props.wide_number_round_trip.
(* C68 *) Print Assumptions Verif.JsonWide_Props.wide_read_resized_refuted.
(* C69 *) Print Assumptions Verif.FloatStream_Props.stream_restored.
(* C69 *) Print Assumptions Verif.FloatStream_Props.formatting_has_no_history.
(* C69 *) Print Assumptions Verif.FloatStream_Props.c_library_exists.
(* C69 *) Print Assumptions Verif.FloatStream_Props.stream_exact.
(* C69 *) Print Assumptions Verif.FloatStream_Props.stream_formatted_partial.
(* C69 *) Print Assumptions Verif.FormatFields_Props.floating_field_stream_partial.
(* C69 *) Print Assumptions Verif.FloatStream_Props.fixed_has_no_plus.
(* C69 *) Print Assumptions Verif.FloatStream_Props.builds_agree.
(* C69 *) Print Assumptions Verif.FloatStream_Props.blank_in_exponent_refuted.
(* C69 *) Print Assumptions Verif.FloatStream_Props.hexfloat_builds_refuted.
(* C69 *) Print Assumptions Verif.FloatStream_Props.hexfloat_precision_refuted.
(* C70 *) Print Assumptions Verif.FloatRead_Props.nearest_exists.
(* C70 *) Print Assumptions Verif.FloatRead_Props.charconv_exact.
(* C70 *) Print Assumptions Verif.FloatRead_Props.stod_exact.
(* C70 *) Print Assumptions Verif.FloatRead_Props.stod_reads_more.
(* C70 *) Print Assumptions Verif.FloatRound_Props.read_back.
(* C70 *) Print Assumptions Verif.FloatRound_Props.format_then_convert.
(* C70 *) Print Assumptions Verif.FloatRound_Props.double_round_trip.
(* C70 *) Print Assumptions Verif.FloatRead_Props.conversion_builds_refuted.
(* C70 *) Print Assumptions Verif.FloatRound_Props.default_format_loses_refuted.
(* C71 *) Print Assumptions Verif.JsonReal_Props.json_real_exact.
(* C71 *) Print Assumptions Verif.JsonReal_Props.finite_written.
(* C71 *) Print Assumptions Verif.JsonReal_Props.real_documents.
(* C71 *) Print Assumptions Verif.JsonReal_Props.library_exists.
(* C71 *) Print Assumptions Verif.JsonReal_Props.only_json_numbers_refuted.
(* C71 *) Print Assumptions Verif.JsonReal_Props.special_numbers_refuted.
(* C71 *) Print Assumptions Verif.JsonReal_Props.digits_kept_refuted.
(* C71 *) Print Assumptions Verif.JsonReal_Props.negative_zero_refuted.
(* C71 *) Print Assumptions Verif.JsonReal_Props.smallest_normal_refuted.
(* C72 *) Print Assumptions Verif.LogThreads_Props.async_sink.
(* C72 *) Print Assumptions Verif.LogThreads_Props.async_in_order.
(* C72 *) Print Assumptions Verif.LogThreads_Props.async_complete.
(* C72 *) Print Assumptions Verif.LogThreads_Props.async_left_out.
(* C72 *) Print Assumptions Verif.LogThreads_Props.sync_serialized.
(* C72 *) Print Assumptions Verif.LogThreads_Props.sync_race_refuted.
(* C72 *) Print Assumptions Verif.LogThreads_Props.sync_failure_refuted.
(* C72 *) Print Assumptions Verif.LogThreads_Props.async_destroyed_refuted.
(* C73 *) Print Assumptions Verif.JsonSets_Props.container_conversion.
(* C73 *) Print Assumptions Verif.JsonSets_Props.container_conversion_total.
(* C73 *) Print Assumptions Verif.JsonSets_Props.container_conversion_refused.
(* C73 *) Print Assumptions Verif.JsonSets_Props.container_determined.
(* C73 *) Print Assumptions Verif.JsonSets_Props.container_to_json.
(* C73 *) Print Assumptions Verif.JsonSets_Props.container_round_trip.
(* C73 *) Print Assumptions Verif.JsonSets_Props.integers_usable.
(* C73 *) Print Assumptions Verif.JsonSets_Props.json_set_usable_partial.
(* C73 *) Print Assumptions Verif.JsonSets_Props.json_set_refuted.
(* C74 *) Print Assumptions Verif.Assert_Props.assertion_report.
(* C74 *) Print Assumptions Verif.Assert_Props.assertion_holds.
(* C74 *) Print Assumptions Verif.Assert_Props.assertion_fails.
(* C74 *) Print Assumptions Verif.Assert_Props.assertion_disabled.
(* C74 *) Print Assumptions Verif.Assert_Props.report_is_text_refuted.
(* C74 *) Print Assumptions Verif.Assert_Props.first_name_refuted.
(* C75 *) Print Assumptions Verif.Components_Props.setting_value.
(* C75 *) Print Assumptions Verif.Components_Props.setting_out_of_range.
(* C75 *) Print Assumptions Verif.Components_Props.settings_follow_the_file.
(* C75 *) Print Assumptions Verif.Components_Props.compress_setting.
(* C75 *) Print Assumptions Verif.Components_Props.configured_encoder_round_trip.
(* C75 *) Print Assumptions Verif.Components_Props.configured_encoder_total.
(* C75 *) Print Assumptions Verif.Components_Props.configured_encoder_refuses.
(* C75 *) Print Assumptions Verif.Components_Props.configured_encoder_refuted.
(* C75 *) Print Assumptions Verif.Components_Props.ini_compress_refuted.
(* C76 *) Print Assumptions Verif.LogPoint_Props.log_function.
(* C76 *) Print Assumptions Verif.LogPoint_Props.log_function_failed.
(* C76 *) Print Assumptions Verif.LogPoint_Props.log_macro.
(* C76 *) Print Assumptions Verif.LogPoint_Props.log_macro_ill_formed.
(* C76 *) Print Assumptions Verif.LogPoint_Props.log_macro_system.
(* C76 *) Print Assumptions Verif.LogPoint_Props.log_macro_failed.
(* C76 *) Print Assumptions Verif.LogPoint_Props.default_set.
(* C76 *) Print Assumptions Verif.LogPoint_Props.default_replaced.
(* C76 *) Print Assumptions Verif.LogPoint_Props.system_explicit_refuted.
(* C76 *) Print Assumptions Verif.LogPoint_Props.system_unused_refuted.
(* C76 *) Print Assumptions Verif.LogPoint_Props.system_fields_refuted.
(* C77 *) Print Assumptions Verif.SockAddr_Props.told4.
(* C77 *) Print Assumptions Verif.SockAddr_Props.told6.
(* C77 *) Print Assumptions Verif.SockAddr_Props.told_text4.
(* C77 *) Print Assumptions Verif.SockAddr_Props.told_text6.
(* C77 *) Print Assumptions Verif.SockAddr_Props.reported4.
(* C77 *) Print Assumptions Verif.SockAddr_Props.reported6.
(* C77 *) Print Assumptions Verif.SockAddr_Props.there_and_back.
(* C77 *) Print Assumptions Verif.SockAddr_Props.answered4.
(* C77 *) Print Assumptions Verif.SockAddr_Props.answered6.
(* C77 *) Print Assumptions Verif.SockAddr_Props.bind_exact.
(* C77 *) Print Assumptions Verif.SockAddr_Props.connect_exact.
(* C77 *) Print Assumptions Verif.SockAddr_Props.send_to_addressed.
(* C77 *) Print Assumptions Verif.SockAddr_Props.send_to_complete.
(* C77 *) Print Assumptions Verif.SockAddr_Props.send_to_history.
(* C77 *) Print Assumptions Verif.SockAddr_Props.reported_exact.
(* C77 *) Print Assumptions Verif.SockAddr_Props.by_name.
(* C77 *) Print Assumptions Verif.SockAddr_Props.numeric_name.
(* C77 *) Print Assumptions Verif.SockAddr_Props.scope_refuted.
(* C77 *) Print Assumptions Verif.SockAddr_Props.name_cut_refuted.
(* C78 *) Print Assumptions Verif.JsonWhat_Props.what_text.
(* C78 *) Print Assumptions Verif.JsonWhat_Props.explained.
(* C78 *) Print Assumptions Verif.JsonWhat_Props.blames_this.
(* C78 *) Print Assumptions Verif.JsonWhat_Props.what_read_back.
(* C78 *) Print Assumptions Verif.JsonWhat_Props.index_shown.
(* C78 *) Print Assumptions Verif.JsonWhat_Props.pop_back_shown.
(* C78 *) Print Assumptions Verif.JsonWhat_Props.key_shown_partial.
(* C78 *) Print Assumptions Verif.JsonWhat_Props.key_lost_refuted.
(* C78 *) Print Assumptions Verif.JsonWhat_Props.text_explained.
(* C78 *) Print Assumptions Verif.JsonWhat_Props.control_shown.
(* C78 *) Print Assumptions Verif.JsonWhat_Props.quote_shown.
(* C78 *) Print Assumptions Verif.JsonWhat_Props.escape_shown.
(* C78 *) Print Assumptions Verif.JsonWhat_Props.unfinished_shown.
(* C78 *) Print Assumptions Verif.JsonWhat_Props.not_text_shown.
(* C78 *) Print Assumptions Verif.JsonWhat_Props.iterators_explained.
(* C78 *) Print Assumptions Verif.JsonWhat_Props.comparisons_explained.
(* C78 *) Print Assumptions Verif.JsonWhat_Shown_Props.iterator_shown.
(* C78 *) Print Assumptions Verif.JsonWhat_Shown_Props.both_shown.
(* C78 *) Print Assumptions Verif.JsonWhat_Shown_Props.instance_shown.
