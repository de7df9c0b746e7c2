{
 "C01": [
  "proved",
  "nghttp3_put_varint/get_varint/put_varintlen, both directions, against the RFC 9000 grammar."
 ],
 "C02": [
  "proved",
  "nghttp3_read_varint driven piece by piece."
 ],
 "C03": [
  "proved",
  "frame header, SETTINGS, GOAWAY, PRIORITY_UPDATE writers against the RFC 9114 frame grammar."
 ],
 "C41": [
  "proved",
  ""
 ],
 "C46": [
  "proved",
  ""
 ],
 "C04": [
  "proved",
  "nghttp3_qpack_put_varint / qpack_read_varint with all prefixes 3..8, any cut; against RFC 7541 5.1 integer grammar."
 ],
 "C05": [
  "proved",
  "nghttp3_qpack_huffman_encode/decode; code table shown equal to the canonical code given by the RFC 7541 code lengths."
 ],
 "C06": [
  "proved",
  ""
 ],
 "C07": [
  "proved",
  ""
 ],
 "C08": [
  "proved",
  "static table typed from RFC 9204 App. A and compared; lookup over all names."
 ],
 "C09": [
  "proved",
  "Decoder and encoder, every history. Refuted beside it: the capacity last set through the encoder API is not always the one obeyed (set A, set larger B, set A again before encoding)."
 ],
 "C10": [
  "proved",
  "every history of decoder calls; cut independence of the encoder stream and of field sections in every reachable state"
 ],
 "C18": [
  "proved",
  ""
 ],
 "C45": [
  "proved",
  ""
 ],
 "C11": [
  "proved",
  "Every prefix of the encoder stream is accepted; with everything delivered the decoder's table is the encoder's table plus possibly older entries; tables and capacities are equal right after an encode whenever the encoder's table fits its capacity."
 ],
 "C12": [
  "proved",
  "Joint theorem over every encoder history and every error-free decoder history (same capacity, any part of the encoder stream delivered). Waiting sections resume. Refuted beside it: an arbitrarily late encoder stream (RFC 9204 2.1.1 eviction of unacknowledged entries)."
 ],
 "C13": [
  "proved",
  "As decodability of every outstanding section against the encoder's current table."
 ],
 "C14": [
  "proved",
  ""
 ],
 "C15": [
  "proved",
  ""
 ],
 "C16": [
  "proved",
  "Proved for equal capacities; refuted for an encoder created with a smaller capacity than the decoder advertised."
 ],
 "C17": [
  "proved",
  ""
 ],
 "C19": [
  "proved",
  "nghttp3_check_header_value exact; nghttp3_check_header_name characterised exactly, and its documented rejection of upper-case letters refuted; received fields exact."
 ],
 "C20": [
  "proved",
  "http_request_on_header / on_request_headers against RFC 9114 4.3.1, 4.4, RFC 9220 rules: sound and complete; trailers. The structured-field parser is arbitrary."
 ],
 "C21": [
  "proved",
  "http_response_on_header / on_response_headers after any number of informational responses: sound and complete."
 ],
 "C22": [
  "proved",
  "exact condition for a body in any chunks to be accepted, requests and responses."
 ],
 "C23": [
  "proved",
  "The receive path of one stream for every byte sequence, cut, blocking and unblocking (C23_trace, C23_message, C23_order_enforced, C23_end_reported), and the same through the API for every history of calls over all streams, failing call included (C23_api_*); a truncated blocked HEADERS frame goes unreported (C23_truncation_refuted)."
 ],
 "C24": [
  "proved",
  "any two ways to cut the same bytes; other-stream activity between pieces arbitrary (any evolution of the QPACK decoder)"
 ],
 "C25": [
  "proved",
  "one stream with arbitrary other activity (C25_accounting) and every history of API calls, in terms of return values and callbacks only (C25_api, C25_api_closed); deletion with pending bytes included"
 ],
 "C26": [
  "proved",
  "nghttp3_conn_read_control, both roles; every byte string and cut. Two deviations from RFC 9114 refuted beside it. C26_api_*: the same for every history of API calls of ConnModel; C26_api_meaning leaves open which callbacks an incomplete last frame has made; C26_api_callbacks: exactly those of the table when the bytes end with a frame. C26_api_failing: also the callbacks of a call that fails. C26_api_refused, C26_api_taken, C26_api_first_refused, C26_api_refused_cut (a refused frame arriving in pieces; C26_api_refused_cut_lawful, C26_api_first_refused_cut, C26_api_first_refused_cut_lawful): the verdict on the next complete frame, at every point of a history between frames (C26_api_taken_lawful: no failed assertion either, where C49 excludes one)."
 ],
 "C27": [
  "proved",
  "client in full (C27_client); server up to the two defects refuted beside it. C27_api_*: for two histories of two connections that share only the bytes of the control stream."
 ],
 "C29": [
  "proved",
  "any mixture with other frames, any cut; the exact verdict for each GOAWAY frame. C29_api_nonincreasing: every history of API calls. C29_api_failing: also in a call that fails. C29_api_refused: every other identifier makes the call fail with H3_ID_ERROR, without a callback."
 ],
 "C44": [
  "proved",
  "both directions; duplicates and client-side ENABLE_CONNECT_PROTOCOL refuted beside it. C44_api_applied: every history of API calls."
 ],
 "C36": [
  "proved",
  "pq.c as an abstract set over whole histories for any strict weak order."
 ],
 "C38": [
  "proved",
  "ringbuf.c as a bounded double-ended queue over whole histories, wrap-around and reallocation included."
 ],
 "C39": [
  "proved",
  "gaptr.c/idtr.c as sets over whole histories; the ordered map (ksl.c) is modelled as a sorted list; the 32-gap limit of the connection refutes exactness there."
 ],
 "C31": [
  "proved",
  "one stream (C31_offered_in_order) and every stream of every history of API calls (C31_api_bytes). QPACK encoder and application reader are arguments. Empty field sections refuted beside it."
 ],
 "C32": [
  "proved",
  "callback totals and memory held, for one stream and for every history of API calls (C32_api_*); acknowledgements beyond the sent data refuted beside it."
 ],
 "C33": [
  "proved",
  "one stream (C33_fin_is_the_end) and every history of API calls: when fin was offered (C33_api_fin), when the call offers it (C33_api_offer, iff), never on critical streams (C33_api_critical_never)."
 ],
 "C34": [
  "proved",
  "the bytes of a stream are a sequence of RFC 9114 frames, DATA payloads are the reader's answers; through the API: the frames submitted, in order, and nothing else (C34_api_frames)."
 ],
 "C37": [
  "proved",
  "scheduler histories (nghttp3_tnode.c and its use in nghttp3_conn.c); lifted to histories of API calls in ConnModel.v as it grows"
 ],
 "C35": [
  "proved",
  "the scheduler on its own and nghttp3_conn_writev_stream over histories of API calls"
 ],
 "C40": [
  "proved",
  "histories of API calls (ConnModel.v); an update of a stream inside a forgotten identifier gap is lost (refuted beside it, cf. C39)"
 ],
 "C42": [
  "proved",
  "histories of API calls on a server; that a drained connection accepts no request is refuted"
 ],
 "C28": [
  "proved",
  "histories of API calls (ConnModel.v); the two exceptions in the statement are refuted beside the theorems"
 ],
 "C30": [
  "proved",
  "histories of API calls on the connection; 'never aborts' holds up to the first shutdown, refuted beyond it"
 ],
 "C43": [
  "proved",
  "histories of API calls; what brings a blocked or shut stream back is explicit in the statement and refuted beside the theorems"
 ],
 "C47": [
  "proved",
  "histories of API calls over all streams"
 ],
 "C48": [
  "proved",
  "every history of API calls"
 ],
 "C49": [
  "proved",
  "every history of API calls and every call after it; the QPACK encoder, its reader of the decoder stream and the structured field parser are arguments. The two defects that make a lawful looking call abort are refuted beside it."
 ],
 "C50": [
  "proved",
  "the specification RfcQpackSpec.v is written from RFC 9204 4.1, 4.3, 4.5; the encoder stream over whole decoder histories, a section read in one piece at any point of a history (C24/C10 lift it to any cut, C51 to streams fed in pieces while the table changes)."
 ],
 "C51": [
  "proved",
  "the specification RfcStreamSpec.v is written from RFC 9114 4.1, 7.1, 7.2 and RfcQpackSpec.v. API level for every open request stream after every history; a call that fails or deletes the stream is covered at the level of one stream (C51_stream)."
 ],
 "C52": [
  "proved",
  "nghttp3_map.c in full except nghttp3_map_print_distance. Up to 805306368 entries; C52_limit_refuted shows what happens beyond."
 ],
 "C53": [
  "proved",
  "nghttp3_ksl.c: insert, remove, remove_hint, lower_bound, update_key, len, clear and the iterators. Not modelled: the pointers between leaves (the leaves are kept in their order), allocation failures, nghttp3_ksl_print. lower_bound_search with a custom search is covered when the search is monotone in the order of the keys."
 ],
 "C54": [
  "proved",
  "every history of encoder calls against RfcQpackSpec.v (written from RFC 9204); the receiver is any reader of that specification, not nghttp3's decoder. The window on the Insert Count is needed (C12_any_delay_refuted)."
 ],
 "C55": [
  "proved",
  "two connections of ConnModel, any histories; the sender's QPACK encoder is an encoder history (C54) whose sections are those used on the stream (replays), the receiver has a prefix of its instructions; in ConnModel the encoder is an oracle, so that link is a hypothesis. Same capacity at both ends (C16_mixed_capacities_refuted) and the Insert Count window (C12_any_delay_refuted) are needed. The encoder history need only answer for the sections that have been encoded; C58_delivered removes the hypothesis on the encoder stream."
 ],
 "C56": [
  "proved",
  "buffers as cells with a count, every holder explicit: both parsers, both dynamic tables, the application; any allocation may fail; instruction contents are choices, so all byte streams are covered. OContextReset is restricted to between sections: C56_reset_midway_refuted shows the leak otherwise."
 ],
 "C57": [
  "proved",
  "memory as a map from addresses to words, with the links of the free list stored inside the released objects, as in the C code; the users of live objects write anything in them."
 ],
 "C58": [
  "proved",
  "joins the encoder's answers, an oracle of ConnModel indexed by stream and number, to one encoder history: `encodings` is the order of the header sections, and the encoder stream carries their instructions in that order. C58_delivered is C55 without hypotheses about the encoder stream. The Required Insert Count window (in_window) stays a hypothesis, as in C54 and C55."
 ],
 "C59": [
  "proved",
  "both roles, every history of API calls; stream_close also for a stream whose deletion waits for the QPACK encoder. C59_failing: also the callbacks of a call that fails with a connection error."
 ],
 "C60": [
  "proved",
  "writable: exact, both roles, all histories. frame_payload_left: request streams, as long as the application has not shut down reading and no stop_sending was made for the stream (after a malformed message the model's counter differs from the code's). C60_left_control: the peer's control stream, GOAWAY and MAX_PUSH_ID frames excepted (C60_left_goaway_refuted: the counter is 0 behind the identifier although payload bytes are missing); for a server, no priority field value longer than 8 bytes."
 ],
 "C61": [
  "proved",
  "all histories, both roles. The statement's exception (a stream that waits for the encoder when its reading is shut down keeps counting toward QPACK_BLOCKED_STREAMS) is proved as C61_still_counts_refuted; C61_own_encoder_refuted shows that nghttp3's own encoder, configured by the server's SETTINGS, is such a peer."
 ]
}