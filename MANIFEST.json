{
 "claims": [
  {
   "property": "C01",
   "status": "proved",
   "theorems": [
    "C01_varint_roundtrip",
    "C01_varint_read",
    "C01_varint_oversize"
   ],
   "note": "nghttp3_put_varint/get_varint/put_varintlen, both directions, against the RFC 9000 grammar."
  },
  {
   "property": "C02",
   "status": "proved",
   "theorems": [
    "C02_varint_cuts"
   ],
   "note": "nghttp3_read_varint driven piece by piece."
  },
  {
   "property": "C03",
   "status": "proved",
   "theorems": [
    "C03_frame_header",
    "C03_settings",
    "C03_settings_len_total",
    "C03_goaway",
    "C03_priority_update"
   ],
   "note": "frame header, SETTINGS, GOAWAY, PRIORITY_UPDATE writers against the RFC 9114 frame grammar."
  },
  {
   "property": "C04",
   "status": "proved",
   "theorems": [
    "C04_prefix_int_write",
    "C04_prefix_int_read"
   ],
   "note": "nghttp3_qpack_put_varint / qpack_read_varint with all prefixes 3..8, any cut; against RFC 7541 5.1 integer grammar."
  },
  {
   "property": "C05",
   "status": "proved",
   "theorems": [
    "C05_huffman_roundtrip",
    "C05_huffman_length",
    "C05_huffman_encode_rfc"
   ],
   "note": "nghttp3_qpack_huffman_encode/decode; code table shown equal to the canonical code given by the RFC 7541 code lengths."
  },
  {
   "property": "C06",
   "status": "proved",
   "theorems": [
    "C06_huffman_accepts"
   ],
   "note": ""
  },
  {
   "property": "C07",
   "status": "proved",
   "theorems": [
    "C07_huffman_cuts",
    "C07_huffman_output_bound"
   ],
   "note": ""
  },
  {
   "property": "C08",
   "status": "proved",
   "theorems": [
    "C08_static_table_is_rfc",
    "C08_token_known",
    "C08_token_injective",
    "C08_row_token",
    "C08_lookup_static"
   ],
   "note": "static table typed from RFC 9204 App. A and compared; lookup over all names."
  },
  {
   "property": "C09",
   "status": "proved",
   "theorems": [
    "C09_decoder_table_fits",
    "C09_encoder_table_fits",
    "C09_encoder_obeys_capacity",
    "C09_last_capacity_refuted"
   ],
   "note": "Decoder and encoder, every history. Refuted beside it: the capacity last set through the encoder API is not always the one obeyed (set A, set larger B, set A again before encoding)."
  },
  {
   "property": "C10",
   "status": "proved",
   "theorems": [
    "C10_decoder_never_aborts",
    "C10_encoder_stream_cut",
    "C10_section_cut"
   ],
   "note": "every history of decoder calls; cut independence of the encoder stream and of field sections in every reachable state"
  },
  {
   "property": "C11",
   "status": "proved",
   "theorems": [
    "C11_stream_accepted",
    "C11_same_entries",
    "C11_same_after_encode"
   ],
   "note": "Every prefix of the encoder stream is accepted; with everything delivered the decoder's table is the encoder's table plus possibly older entries; tables and capacities are equal right after an encode whenever the encoder's table fits its capacity."
  },
  {
   "property": "C12",
   "status": "proved",
   "theorems": [
    "C12_section_decodes",
    "C12_section_waits",
    "C12_any_delay_refuted"
   ],
   "note": "Joint theorem over every encoder history and every error-free decoder history (same capacity, any part of the encoder stream delivered). Waiting sections resume. Refuted beside it: an arbitrarily late encoder stream (RFC 9204 2.1.1 eviction of unacknowledged entries)."
  },
  {
   "property": "C13",
   "status": "proved",
   "theorems": [
    "C13_references_kept"
   ],
   "note": "As decodability of every outstanding section against the encoder's current table."
  },
  {
   "property": "C14",
   "status": "proved",
   "theorems": [
    "C14_blocked_limit"
   ],
   "note": ""
  },
  {
   "property": "C15",
   "status": "proved",
   "theorems": [
    "C15_sensitive_not_stored",
    "C15_representations"
   ],
   "note": ""
  },
  {
   "property": "C16",
   "status": "proved",
   "theorems": [
    "C16_exact",
    "C16_sound",
    "C16_mixed_capacities_refuted"
   ],
   "note": "Proved for equal capacities; refuted for an encoder created with a smaller capacity than the decoder advertised."
  },
  {
   "property": "C17",
   "status": "proved",
   "theorems": [
    "C17_encoder_never_aborts",
    "C17_known_at_most_inserted",
    "C17_feedback_read",
    "C17_decoder_stream_cut"
   ],
   "note": ""
  },
  {
   "property": "C18",
   "status": "proved",
   "theorems": [
    "C18_decoder_stream_adds_up",
    "C18_announced_length"
   ],
   "note": ""
  },
  {
   "property": "C19",
   "status": "proved",
   "theorems": [
    "C19_check_header_value",
    "C19_check_header_name",
    "C19_check_header_name_lowercase_refuted",
    "C19_received_field",
    "C19_avx2"
   ],
   "note": "nghttp3_check_header_value exact; nghttp3_check_header_name characterised exactly, and its documented rejection of upper-case letters refuted; received fields exact."
  },
  {
   "property": "C20",
   "status": "proved",
   "theorems": [
    "C20_request_sound",
    "C20_request_complete",
    "C20_trailers",
    "C20_trailers_complete"
   ],
   "note": "http_request_on_header / on_request_headers against RFC 9114 4.3.1, 4.4, RFC 9220 rules: sound and complete; trailers. The structured-field parser is arbitrary."
  },
  {
   "property": "C21",
   "status": "proved",
   "theorems": [
    "C21_response_sound",
    "C21_response_complete"
   ],
   "note": "http_response_on_header / on_response_headers after any number of informational responses: sound and complete."
  },
  {
   "property": "C22",
   "status": "proved",
   "theorems": [
    "C22_request",
    "C22_response",
    "C22_informational"
   ],
   "note": "exact condition for a body in any chunks to be accepted, requests and responses."
  },
  {
   "property": "C23",
   "status": "proved",
   "theorems": [
    "C23_trace",
    "C23_message",
    "C23_order_enforced",
    "C23_end_reported",
    "C23_truncation_refuted",
    "C23_api_trace",
    "C23_api_message",
    "C23_api_silent"
   ],
   "note": "The receive path of one stream for every byte sequence, cut, blocking and unblocking (C23_trace, C23_message, C23_order_enforced, C23_end_reported), and the same through the API for every history of calls over all streams, failing call included (C23_api_*); a truncated blocked HEADERS frame goes unreported (C23_truncation_refuted)."
  },
  {
   "property": "C24",
   "status": "proved",
   "theorems": [
    "C24_cut_independent"
   ],
   "note": "any two ways to cut the same bytes; other-stream activity between pieces arbitrary (any evolution of the QPACK decoder)"
  },
  {
   "property": "C25",
   "status": "proved",
   "theorems": [
    "C25_accounting",
    "C25_api",
    "C25_api_closed"
   ],
   "note": "one stream with arbitrary other activity (C25_accounting) and every history of API calls, in terms of return values and callbacks only (C25_api, C25_api_closed); deletion with pending bytes included"
  },
  {
   "property": "C26",
   "status": "proved",
   "theorems": [
    "C26_trace",
    "C26_settings_first",
    "C26_missing_settings",
    "C26_frame",
    "C26_trailing_bytes_refuted",
    "C26_max_push_error_refuted",
    "C26_api_trace",
    "C26_api_settings_first",
    "C26_api_failing",
    "C26_api_none",
    "C26_api_meaning",
    "C26_api_refused",
    "C26_api_first_refused",
    "C26_api_taken",
    "C26_api_taken_lawful",
    "C26_api_refused_cut",
    "C26_api_refused_cut_lawful",
    "C26_api_first_refused_cut",
    "C26_api_first_refused_cut_lawful",
    "C26_api_callbacks"
   ],
   "note": "nghttp3_conn_read_control, both roles; every byte string and cut. Two deviations from RFC 9114 refuted beside it. C26_api_*: the same for every history of API calls of ConnModel; C26_api_meaning leaves open which callbacks an incomplete last frame has made; C26_api_callbacks: exactly those of the table when the bytes end with a frame. C26_api_failing: also the callbacks of a call that fails. C26_api_refused, C26_api_taken, C26_api_first_refused, C26_api_refused_cut (a refused frame arriving in pieces; C26_api_refused_cut_lawful, C26_api_first_refused_cut, C26_api_first_refused_cut_lawful): the verdict on the next complete frame, at every point of a history between frames (C26_api_taken_lawful: no failed assertion either, where C49 excludes one)."
  },
  {
   "property": "C27",
   "status": "proved",
   "theorems": [
    "C27_client",
    "C27_server",
    "C27_abort_refuted",
    "C27_leftover_refuted",
    "C27_api_client",
    "C27_api_server"
   ],
   "note": "client in full (C27_client); server up to the two defects refuted beside it. C27_api_*: for two histories of two connections that share only the bytes of the control stream."
  },
  {
   "property": "C28",
   "status": "proved",
   "theorems": [
    "C28_one_each",
    "C28_no_push",
    "C28_refused",
    "C28_accepted",
    "C28_end_refused",
    "C28_unknown_ignored",
    "C28_cut_type",
    "C28_close_refused",
    "C28_end_with_type_refused_refuted",
    "C28_close_untyped_refuted"
   ],
   "note": "histories of API calls (ConnModel.v); the two exceptions in the statement are refuted beside the theorems"
  },
  {
   "property": "C29",
   "status": "proved",
   "theorems": [
    "C29_nonincreasing",
    "C29_goaway",
    "C29_api_nonincreasing",
    "C29_api_failing",
    "C29_api_refused"
   ],
   "note": "any mixture with other frames, any cut; the exact verdict for each GOAWAY frame. C29_api_nonincreasing: every history of API calls. C29_api_failing: also in a call that fails. C29_api_refused: every other identifier makes the call fail with H3_ID_ERROR, without a callback."
  },
  {
   "property": "C30",
   "status": "proved",
   "theorems": [
    "C30_frame",
    "C30_never_increase",
    "C30_notice_id",
    "C30_shutdown_id",
    "C30_refused",
    "C30_first_read",
    "C30_first_succeeds",
    "C30_shutdown_again_refuted",
    "C30_notice_after_shutdown_refuted"
   ],
   "note": "histories of API calls on the connection; 'never aborts' holds up to the first shutdown, refuted beyond it"
  },
  {
   "property": "C31",
   "status": "proved",
   "theorems": [
    "C31_api_bytes",
    "C31_offered_in_order",
    "C31_empty_section_sent_refuted",
    "C31_empty_section_no_abort_refuted"
   ],
   "note": "one stream (C31_offered_in_order) and every stream of every history of API calls (C31_api_bytes). QPACK encoder and application reader are arguments. Empty field sections refuted beside it."
  },
  {
   "property": "C32",
   "status": "proved",
   "theorems": [
    "C32_api_acks",
    "C32_api_memory",
    "C32_acks_reported_once",
    "C32_memory_held_until_acked",
    "C32_unsent_ack_rejected_refuted"
   ],
   "note": "callback totals and memory held, for one stream and for every history of API calls (C32_api_*); acknowledgements beyond the sent data refuted beside it."
  },
  {
   "property": "C33",
   "status": "proved",
   "theorems": [
    "C33_api_fin",
    "C33_api_offer",
    "C33_api_critical_never",
    "C33_fin_is_the_end"
   ],
   "note": "one stream (C33_fin_is_the_end) and every history of API calls: when fin was offered (C33_api_fin), when the call offers it (C33_api_offer, iff), never on critical streams (C33_api_critical_never)."
  },
  {
   "property": "C34",
   "status": "proved",
   "theorems": [
    "C34_api_frames",
    "C34_data_frames"
   ],
   "note": "the bytes of a stream are a sequence of RFC 9114 frames, DATA payloads are the reader's answers; through the API: the frames submitted, in order, and nothing else (C34_api_frames)."
  },
  {
   "property": "C35",
   "status": "proved",
   "theorems": [
    "C35_offered_is_most_urgent",
    "C35_nothing_offered_only_if_nothing_ready_refuted",
    "C35_most_urgent_first",
    "C35_scheduler_never_aborts"
   ],
   "note": "the scheduler on its own and nghttp3_conn_writev_stream over histories of API calls"
  },
  {
   "property": "C36",
   "status": "proved",
   "theorems": [
    "C36_priority_queue"
   ],
   "note": "pq.c as an abstract set over whole histories for any strict weak order."
  },
  {
   "property": "C37",
   "status": "proved",
   "theorems": [
    "C37_fair_share"
   ],
   "note": "scheduler histories (nghttp3_tnode.c and its use in nghttp3_conn.c); lifted to histories of API calls in ConnModel.v as it grows"
  },
  {
   "property": "C38",
   "status": "proved",
   "theorems": [
    "C38_ring_buffer",
    "C38_queue_deterministic"
   ],
   "note": "ringbuf.c as a bounded double-ended queue over whole histories, wrap-around and reallocation included."
  },
  {
   "property": "C39",
   "status": "proved",
   "theorems": [
    "C39_identifier_set",
    "C39_gap_tracker",
    "C39_connection_tracker",
    "C39_connection_exact_refuted"
   ],
   "note": "gaptr.c/idtr.c as sets over whole histories; the ordered map (ksl.c) is modelled as a sorted list; the 32-gap limit of the connection refutes exactness there."
  },
  {
   "property": "C40",
   "status": "proved",
   "theorems": [
    "C40_precedence",
    "C40_valid",
    "C40_update_before_open_refuted"
   ],
   "note": "histories of API calls (ConnModel.v); an update of a stream inside a forgotten identifier gap is lost (refuted beside it, cf. C39)"
  },
  {
   "property": "C41",
   "status": "proved",
   "theorems": [
    "C41_error_codes",
    "C41_error_mapping"
   ],
   "note": ""
  },
  {
   "property": "C42",
   "status": "proved",
   "theorems": [
    "C42_drained",
    "C42_count_exact",
    "C42_drained_accepts_none_refuted"
   ],
   "note": "histories of API calls on a server; that a drained connection accepts no request is refuted"
  },
  {
   "property": "C43",
   "status": "proved",
   "theorems": [
    "C43_request_stream",
    "C43_request_stream_no_frames",
    "C43_critical_stream",
    "C43_blocked_until_unblocked_refuted",
    "C43_shut_never_offered_refuted",
    "C43_untidy_refuted"
   ],
   "note": "histories of API calls; what brings a blocked or shut stream back is explicit in the statement and refuted beside the theorems"
  },
  {
   "property": "C44",
   "status": "proved",
   "theorems": [
    "C44_applied",
    "C44_accepted",
    "C44_unparsable",
    "C44_duplicates_refuted",
    "C44_connect_on_client_refuted",
    "C44_api_applied"
   ],
   "note": "both directions; duplicates and client-side ENABLE_CONNECT_PROTOCOL refuted beside it. C44_api_applied: every history of API calls."
  },
  {
   "property": "C45",
   "status": "proved",
   "theorems": [
    "C45_decoder_output_bounded",
    "C45_configured"
   ],
   "note": ""
  },
  {
   "property": "C46",
   "status": "proved",
   "theorems": [
    "C46_nva_copy"
   ],
   "note": ""
  },
  {
   "property": "C47",
   "status": "proved",
   "theorems": [
    "C47_limit",
    "C47_waits",
    "C47_holds"
   ],
   "note": "histories of API calls over all streams"
  },
  {
   "property": "C48",
   "status": "proved",
   "theorems": [
    "C48_control_stream",
    "C48_one_control_stream"
   ],
   "note": "every history of API calls"
  },
  {
   "property": "C49",
   "status": "proved",
   "theorems": [
    "C49_no_abort",
    "C49_priority_unbound_refuted",
    "C49_element_id_refuted"
   ],
   "note": "every history of API calls and every call after it; the QPACK encoder, its reader of the decoder stream and the structured field parser are arguments. The two defects that make a lawful looking call abort are refuted beside it."
  },
  {
   "property": "C50",
   "status": "proved",
   "theorems": [
    "C50_encoder_stream_means_rfc",
    "C50_encoder_stream_refused",
    "C50_section_means_rfc",
    "C50_section_accepted"
   ],
   "note": "the specification RfcQpackSpec.v is written from RFC 9204 4.1, 4.3, 4.5; the encoder stream over whole decoder histories, a section read in one piece at any point of a history (C24/C10 lift it to any cut, C51 to streams fed in pieces while the table changes)."
  },
  {
   "property": "C51",
   "status": "proved",
   "theorems": [
    "C51_means",
    "C51_complete",
    "C51_inserted",
    "C51_encoder_bytes",
    "C51_stream"
   ],
   "note": "the specification RfcStreamSpec.v is written from RFC 9114 4.1, 7.1, 7.2 and RfcQpackSpec.v. API level for every open request stream after every history; a call that fails or deletes the stream is covered at the level of one stream (C51_stream)."
  },
  {
   "property": "C52",
   "status": "proved",
   "theorems": [
    "C52_map",
    "C52_one_entry",
    "C52_kept",
    "C52_gone",
    "C52_limit_refuted"
   ],
   "note": "nghttp3_map.c in full except nghttp3_map_print_distance. Up to 805306368 entries; C52_limit_refuted shows what happens beyond."
  },
  {
   "property": "C53",
   "status": "proved",
   "theorems": [
    "C53_ksl",
    "C53_sorted",
    "C53_lower_bound",
    "C53_iterators",
    "C53_keys",
    "C53_update_key_refuted",
    "C53_remove_iterator_refuted"
   ],
   "note": "nghttp3_ksl.c: insert, remove, remove_hint, lower_bound, update_key, len, clear and the iterators. Not modelled: the pointers between leaves (the leaves are kept in their order), allocation failures, nghttp3_ksl_print. lower_bound_search with a custom search is covered when the search is monotone in the order of the keys."
  },
  {
   "property": "C54",
   "status": "proved",
   "theorems": [
    "C54_encoder_stream",
    "C54_sections",
    "C54_only_reading",
    "C54_outstanding",
    "C54_encode_says"
   ],
   "note": "every history of encoder calls against RfcQpackSpec.v (written from RFC 9204); the receiver is any reader of that specification, not nghttp3's decoder. The window on the Insert Count is needed (C12_any_delay_refuted)."
  },
  {
   "property": "C55",
   "status": "proved",
   "theorems": [
    "C55_delivered",
    "C55_all_delivered"
   ],
   "note": "two connections of ConnModel, any histories; the sender's QPACK encoder is an encoder history (C54) whose sections are those used on the stream (replays), the receiver has a prefix of its instructions; in ConnModel the encoder is an oracle, so that link is a hypothesis. Same capacity at both ends (C16_mixed_capacities_refuted) and the Insert Count window (C12_any_delay_refuted) are needed. The encoder history need only answer for the sections that have been encoded; C58_delivered removes the hypothesis on the encoder stream."
  },
  {
   "property": "C56",
   "status": "proved",
   "theorems": [
    "C56_never_misused",
    "C56_counts",
    "C56_no_leak",
    "C56_kept",
    "C56_reset_midway_refuted"
   ],
   "note": "buffers as cells with a count, every holder explicit: both parsers, both dynamic tables, the application; any allocation may fail; instruction contents are choices, so all byte streams are covered. OContextReset is restricted to between sections: C56_reset_midway_refuted shows the leak otherwise."
  },
  {
   "property": "C57",
   "status": "proved",
   "theorems": [
    "C57_no_abort",
    "C57_get",
    "C57_live",
    "C57_clear"
   ],
   "note": "memory as a map from addresses to words, with the links of the free list stored inside the released objects, as in the C code; the users of live objects write anything in them."
  },
  {
   "property": "C58",
   "status": "proved",
   "theorems": [
    "C58_one_order",
    "C58_frames",
    "C58_encoder_stream",
    "C58_no_encoder_stream",
    "C58_delivered",
    "C58_all_delivered"
   ],
   "note": "joins the encoder's answers, an oracle of ConnModel indexed by stream and number, to one encoder history: `encodings` is the order of the header sections, and the encoder stream carries their instructions in that order. C58_delivered is C55 without hypotheses about the encoder stream. The Required Insert Count window (in_window) stays a hypothesis, as in C54 and C55."
  },
  {
   "property": "C59",
   "status": "proved",
   "theorems": [
    "C59_once",
    "C59_only",
    "C59_unasked",
    "C59_now",
    "C59_pending",
    "C59_absent",
    "C59_failing"
   ],
   "note": "both roles, every history of API calls; stream_close also for a stream whose deletion waits for the QPACK encoder. C59_failing: also the callbacks of a call that fails with a connection error."
  },
  {
   "property": "C60",
   "status": "proved",
   "theorems": [
    "C60_left_control",
    "C60_left_goaway_refuted",
    "C60_writable",
    "C60_left",
    "C60_left_all",
    "C60_left_meaning",
    "C60_left_none"
   ],
   "note": "writable: exact, both roles, all histories. frame_payload_left: request streams, as long as the application has not shut down reading and no stop_sending was made for the stream (after a malformed message the model's counter differs from the code's). C60_left_control: the peer's control stream, GOAWAY and MAX_PUSH_ID frames excepted (C60_left_goaway_refuted: the counter is 0 behind the identifier although payload bytes are missing); for a server, no priority field value longer than 8 bytes."
  },
  {
   "property": "C61",
   "status": "proved",
   "theorems": [
    "C61_own_encoder_refuted",
    "C61_silent",
    "C61_next",
    "C61_failing",
    "C61_consumed",
    "C61_no_error",
    "C61_cancel",
    "C61_again",
    "C61_not_request",
    "C61_still_counts_refuted"
   ],
   "note": "all histories, both roles. The statement's exception (a stream that waits for the encoder when its reading is shut down keeps counting toward QPACK_BLOCKED_STREAMS) is proved as C61_still_counts_refuted; C61_own_encoder_refuted shows that nghttp3's own encoder, configured by the server's SETTINGS, is such a peer."
  }
 ]
}