{"id": "C01", "title": "QUIC variable-length integers round-trip and are minimal", "statement": "Every integer below 2^62 that the library writes on the wire occupies exactly the number of bytes the length function announced (the smallest of 1, 2, 4, 8 that can hold it), every byte is an octet, and the reader returns that integer and that length whatever bytes follow. Conversely every 1/2/4/8-byte encoding read yields an integer below 2^62.", "quantifier": "all integers 0 <= n < 2^62, all byte strings that follow", "why_tests_cant": "2^62 values and unbounded suffixes; tests sample boundary values only", "anchors": ["lib/nghttp3_conv.c: nghttp3_get_varint, nghttp3_put_varint, nghttp3_put_uvarintlen, nghttp3_get_uvarintlen"]}
{"id": "C02", "title": "Integers split across reads are reassembled exactly", "statement": "When a variable-length integer arrives on a stream in pieces, the incremental reader yields the same integer as the one-shot reader and consumes exactly its bytes, however the bytes are cut; a stream that ends inside an integer is an error.", "quantifier": "all byte strings, all ways of cutting them into non-empty pieces, all positions of the stream end", "why_tests_cant": "the number of segmentations is exponential in the length", "anchors": ["lib/nghttp3_stream.c: nghttp3_read_varint"]}
{"id": "C03", "title": "Frames are written with the length they announce and parse back to the same frame", "statement": "For SETTINGS, GOAWAY, PRIORITY_UPDATE and frame headers, the writer emits exactly as many bytes as the length function returned, the payload length in the header equals the payload that follows, and parsing the bytes by the RFC 9114/9218 grammar yields the frame that was written.", "quantifier": "all frames with integers below 2^62, all entry lists and priority field values", "why_tests_cant": "all field values and list lengths", "anchors": ["lib/nghttp3_frame.c: nghttp3_frame_write_*"]}
{"id": "C04", "title": "QPACK prefix integers round-trip, overflow is rejected, cuts do not matter", "statement": "An integer written with an N-bit prefix (N in 3..8) occupies the announced number of bytes, leaves the flag bits of the first byte intact and is read back exactly; the reader never accepts a value above 2^62-1 and never computes one modulo 2^64; cutting the input anywhere gives the same value.", "quantifier": "all n < 2^62, all prefix sizes, all byte strings and all cuts", "why_tests_cant": "unbounded continuation bytes and every cut position", "anchors": ["lib/nghttp3_qpack.c: nghttp3_qpack_put_varint, nghttp3_qpack_put_varint_len, qpack_read_varint"]}
{"id": "C05", "title": "Huffman coding is lossless", "statement": "For every byte string, decoding the Huffman encoding returns the same string, and the encoding has exactly the length that was announced.", "quantifier": "all byte strings of any length", "why_tests_cant": "256^n strings; the 32-bit flush path depends on the accumulated bit position", "anchors": ["lib/nghttp3_qpack_huffman.c: nghttp3_qpack_huffman_encode, nghttp3_qpack_huffman_encode_count, nghttp3_qpack_huffman_decode", "lib/nghttp3_qpack_huffman_data.c"]}
{"id": "C06", "title": "Huffman decoding accepts only valid encodings", "statement": "If a Huffman string is accepted, then its bits are exactly the codes of the returned bytes followed by at most 7 one-bits; strings containing EOS, or with longer or non-one padding, are rejected.", "quantifier": "all byte strings", "why_tests_cant": "all inputs; the table has 4112 entries that interact over arbitrarily long inputs", "anchors": ["lib/nghttp3_qpack_huffman.c: nghttp3_qpack_huffman_decode", "lib/nghttp3_qpack_huffman_data.c: qpack_huffman_decode_table"]}
{"id": "C07", "title": "Huffman decoding never overruns its destination and is independent of input cuts", "statement": "Decoding n bytes produces at most 2n bytes (the buffer allocated), also when the input is fed in pieces, and feeding in pieces produces the same bytes and verdict as feeding at once.", "quantifier": "all byte strings, all cuts", "why_tests_cant": "memory safety over all inputs", "anchors": ["lib/nghttp3_qpack_huffman.c", "lib/nghttp3_qpack.c: qpack_read_huffman_string"]}
{"id": "C08", "title": "Header name tokens and the static table agree with RFC 9204", "statement": "A header name is mapped to a token exactly when the name is one of the names the library knows, distinct names get distinct tokens, and the token found for a static-table name points to static-table rows carrying that name. Looking up a field in the static table returns a row with the same name, and with the same value when it claims an exact match.", "quantifier": "all byte strings as names and values", "why_tests_cant": "the lookup must be right on every non-member name too", "anchors": ["lib/nghttp3_qpack.c: qpack_lookup_token, token_stable, stable, nghttp3_qpack_lookup_stable"]}
{"id": "C09", "title": "Dynamic tables never exceed their capacity", "statement": "Whatever instructions arrive on the encoder stream, the decoder's dynamic table never holds more bytes (32 + name + value per entry) than the current capacity, which never exceeds the capacity the decoder advertised; instructions that would violate this are rejected. The encoder never lets its own table exceed the limit either.", "quantifier": "all instruction histories, including malicious ones", "why_tests_cant": "unbounded histories", "anchors": ["lib/nghttp3_qpack.c: nghttp3_qpack_context_dtable_add, nghttp3_qpack_decoder_set_max_dtable_capacity, nghttp3_qpack_decoder_read_encoder"]}
{"id": "C10", "title": "No peer input makes the QPACK decoder touch a missing table entry", "statement": "For every byte sequence fed to the encoder-stream reader and to the field-section reader, in every interleaving and cut, the decoder never fails an internal assertion nor accesses a static or dynamic table entry that does not exist: it returns a header, asks for more, reports blocked, or returns an error.", "quantifier": "all byte sequences, all interleavings of encoder stream and request streams", "why_tests_cant": "all adversarial inputs and interleavings", "anchors": ["lib/nghttp3_qpack.c: nghttp3_qpack_decoder_read_encoder, nghttp3_qpack_decoder_read_request, nghttp3_qpack_decoder_rel2abs, nghttp3_qpack_decoder_brel2abs, nghttp3_qpack_decoder_pbrel2abs"]}
{"id": "C11", "title": "Encoder and decoder tables stay identical", "statement": "If the decoder processes everything the encoder has written to the encoder stream, both dynamic tables contain the same entries at the same absolute indices with the same capacity, for every history of encoded sections, capacity changes, acknowledgements and cancellations.", "quantifier": "all histories of API calls on the encoder", "why_tests_cant": "unbounded histories; divergence shows only many inserts later", "anchors": ["lib/nghttp3_qpack.c: nghttp3_qpack_encoder_encode, nghttp3_qpack_encoder_process_dtable_update, nghttp3_qpack_decoder_read_encoder"]}
{"id": "C12", "title": "A header section decodes to exactly what was encoded", "statement": "For every list of header fields and every encoder history, a decoder of the same table capacity that has received the encoder stream decodes the section bytes to exactly that list: same names, values, order, and never-index flags, consumes all bytes and reports the end of the section.", "quantifier": "all header lists within the decoder's length limits, all encoder histories", "why_tests_cant": "unbounded lists, contents and histories", "anchors": ["lib/nghttp3_qpack.c: nghttp3_qpack_encoder_encode, nghttp3_qpack_encoder_encode_nv, nghttp3_qpack_decoder_read_request"]}
{"id": "C13", "title": "Entries referenced by unacknowledged sections are never evicted", "statement": "As long as a section that refers to the dynamic table has been neither acknowledged nor cancelled, none of the entries it refers to is evicted by the encoder, whatever is encoded afterwards, even when the capacity is lowered.", "quantifier": "all histories of encoder calls and decoder feedback", "why_tests_cant": "unbounded histories and schedules", "anchors": ["lib/nghttp3_qpack.c: qpack_encoder_can_index, nghttp3_qpack_encoder_shrink_dtable, qpack_encoder_add_stream_ref"]}
{"id": "C14", "title": "The encoder respects the blocked-streams limit", "statement": "The number of streams with sections requiring insertions not yet known to have been received never exceeds the limit set through the API (as long as the limit is not lowered), and equals the number the API reports.", "quantifier": "all histories of encoder calls and decoder feedback", "why_tests_cant": "unbounded histories", "anchors": ["lib/nghttp3_qpack.c: nghttp3_qpack_encoder_encode, nghttp3_qpack_encoder_block_stream, nghttp3_qpack_encoder_unblock"]}
{"id": "C15", "title": "Sensitive header fields are never placed in the dynamic table", "statement": "A field submitted with the never-index flag, an authorization field, or a cookie shorter than 20 bytes is never inserted in the dynamic table, and never represented by an index of a full field line; the never-index flag reaches the receiver.", "quantifier": "all header lists, all encoder histories", "why_tests_cant": "must hold on every path of every history", "anchors": ["lib/nghttp3_qpack.c: qpack_encoder_decide_indexing_mode, nghttp3_qpack_encoder_encode_nv"]}
{"id": "C16", "title": "The Required Insert Count survives its modular encoding", "statement": "The Required Insert Count written in a section prefix is reconstructed exactly by the decoder whenever both sides use the same maximum capacity and the decoder's insert count is within MaxEntries of it; the decoder never accepts a zero or out-of-range result. (Encoder and decoder may be configured with different capacities by the public API.)", "quantifier": "all insert counts and capacities", "why_tests_cant": "arithmetic over 64-bit ranges with wrap-around", "anchors": ["lib/nghttp3_qpack.c: nghttp3_qpack_encoder_write_field_section_prefix, nghttp3_qpack_decoder_reconstruct_ricnt"]}
{"id": "C17", "title": "Decoder-stream feedback can never corrupt the encoder", "statement": "Whatever bytes arrive on the decoder stream, the encoder's known received count never exceeds the number of entries it inserted, acknowledgements of streams without outstanding sections and zero or too large increments are rejected, no internal assertion fails, and cuts do not matter.", "quantifier": "all byte sequences on the decoder stream in all encoder states reachable through the API", "why_tests_cant": "all adversarial inputs and histories", "anchors": ["lib/nghttp3_qpack.c: nghttp3_qpack_encoder_read_decoder, nghttp3_qpack_encoder_ack_header, nghttp3_qpack_encoder_add_icnt, nghttp3_qpack_encoder_cancel_stream"]}
{"id": "C18", "title": "Decoder acknowledgements add up", "statement": "Over any history the insert count communicated by the decoder through section acknowledgements and increments never exceeds the number of entries it received, and after flushing the decoder stream equals it; the byte count announced for the decoder stream is the byte count written.", "quantifier": "all histories of decoder calls", "why_tests_cant": "unbounded histories", "anchors": ["lib/nghttp3_qpack.c: nghttp3_qpack_decoder_write_decoder, nghttp3_qpack_decoder_get_decoder_streamlen, nghttp3_qpack_decoder_write_section_ack, nghttp3_qpack_decoder_cancel_stream"]}
{"id": "C19", "title": "Header names and values are accepted exactly per RFC 9110/9114 character rules", "statement": "A header name passes validation exactly when it is a non-empty token in lower case (pseudo-header colon only in front); a value passes exactly when it contains no control characters other than HTAB and no DEL, and neither starts nor ends with space or HTAB.", "quantifier": "all byte strings", "why_tests_cant": "all byte strings of any length", "anchors": ["lib/nghttp3_http.c: nghttp3_check_header_name, nghttp3_check_header_value, VALID_HD_NAME_CHARS, VALID_HD_VALUE_CHARS"]}
{"id": "C20", "title": "Only well-formed requests are delivered", "statement": "If all fields of a request header section are accepted and the section is completed without error, then pseudo-headers come first, each at most once, the mandatory ones for the method are present, no response pseudo-header or connection-specific field occurs, content-length occurs at most once and is a number, and the path and scheme satisfy the URI rules.", "quantifier": "all header field sequences", "why_tests_cant": "all sequences of fields in any order and number", "anchors": ["lib/nghttp3_http.c: nghttp3_http_on_header, http_request_on_header, nghttp3_http_on_request_headers, check_pseudo_header"]}
{"id": "C21", "title": "Only well-formed responses are delivered", "statement": "If a response header section is accepted then it has exactly one :status of three digits, no request pseudo-header, no connection-specific field, no 101 status, and no content-length or transfer coding where forbidden (1xx and 204, 2xx to CONNECT).", "quantifier": "all header field sequences and request methods", "why_tests_cant": "all sequences of fields", "anchors": ["lib/nghttp3_http.c: http_response_on_header, nghttp3_http_on_response_headers"]}
{"id": "C22", "title": "content-length is enforced on every message", "statement": "If a message with a content-length n is received to its end without error then the DATA bytes received total exactly n, however they are split; as soon as more than n bytes arrive the stream fails.", "quantifier": "all splits of the body, all n", "why_tests_cant": "all body lengths and segmentations", "anchors": ["lib/nghttp3_http.c: nghttp3_http_on_data_chunk, nghttp3_http_on_remote_end_stream"]}
{"id": "C23", "title": "Frame order on a request stream is legal before the application sees it", "statement": "The sequence of header, data and end-of-stream events accepted on a request stream always belongs to the HTTP message grammar: on a server HEADERS DATA* [HEADERS] END; on a client (1xx HEADERS)* HEADERS DATA* [HEADERS] END; anything else is an error, never an assertion failure.", "quantifier": "all sequences of frame events", "why_tests_cant": "all event sequences", "anchors": ["lib/nghttp3_stream.c: nghttp3_stream_transit_rx_http_state"]}
{"id": "C24", "title": "Request-stream parsing does not depend on how bytes are delivered", "statement": "Feeding the bytes of a request stream in one call or cut into any number of calls produces the same sequence of callbacks (data callbacks up to concatenation), the same final state and the same error.", "quantifier": "all byte strings, all cuts", "why_tests_cant": "exponentially many cuts", "anchors": ["lib/nghttp3_conn.c: nghttp3_conn_read_bidi"]}
{"id": "C25", "title": "Every received byte is accounted for exactly once for flow control", "statement": "On a request stream, bytes reported as consumed by the read call, bytes handed to the application as data, and bytes held back for a blocked section (later reported by the deferred-consume callback) add up to the bytes received, none twice.", "quantifier": "all byte strings, all cuts, all blocking points", "why_tests_cant": "all schedules", "anchors": ["lib/nghttp3_conn.c: nghttp3_conn_read_stream, nghttp3_conn_read_bidi, conn_process_blocked_stream_data"]}
{"id": "C26", "title": "Control stream: SETTINGS first and only once, no request frames", "statement": "On the peer's control stream the first frame must be SETTINGS and no second one is accepted; DATA, HEADERS and other reserved frame types are rejected; every complete frame has exactly the callbacks or the connection error of the table in the specification, for every delivery of the bytes. Exceptions, proved beside it: bytes behind the identifier of GOAWAY or MAX_PUSH_ID are read as further frames, and a decreasing MAX_PUSH_ID gives H3_FRAME_ERROR, not H3_ID_ERROR.", "quantifier": "all byte strings, all cuts; all histories of API calls, the control stream's bytes coming in any pieces between calls for other streams, including the last one, which may fail with a connection error", "why_tests_cant": "all inputs", "anchors": ["lib/nghttp3_conn.c: nghttp3_conn_read_control"]}
{"id": "C27", "title": "Control-stream parsing does not depend on how bytes are delivered and never aborts", "statement": "A client: feeding control stream bytes in one call or in pieces produces the same callbacks, state and errors, and no input fails an internal assertion. A server: the same, with two exceptions proved to be real: a piece that ends right behind the element ID of a PRIORITY_UPDATE frame fails an assertion, and a priority value longer than 8 bytes that arrives in pieces corrupts the next one. Hence for two connections, with whatever histories of calls: if they share the bytes received on the control stream (and, servers, the limit of client streams, and no value is longer than 8 bytes), they have made the same callbacks for it.", "quantifier": "all byte strings, all cuts; all histories of API calls, the control stream's bytes coming in any pieces between calls for other streams", "why_tests_cant": "all inputs and cuts", "anchors": ["lib/nghttp3_conn.c: nghttp3_conn_read_control"]}
{"id": "C28", "title": "At most one control, encoder and decoder stream per peer", "statement": "A second remote control, QPACK encoder or QPACK decoder stream, a push stream opened by a client, and the end of a critical stream are connection errors; streams of unknown type are ignored without effect; the type is recognised for every cut of its bytes. Exceptions: an end of stream that arrives together with the last byte of the type of a critical stream is not noticed, and closing a peer stream whose type is not yet known is reported as the closure of a critical stream.", "quantifier": "all histories of unidirectional streams", "why_tests_cant": "all histories", "anchors": ["lib/nghttp3_conn.c: conn_read_type, nghttp3_conn_read_uni, nghttp3_conn_read_stream"]}
{"id": "C29", "title": "GOAWAY identifiers received never increase", "statement": "An accepted sequence of GOAWAY frames from the peer has non-increasing identifiers, each valid for the receiver's role; any other identifier gives an ID error.", "quantifier": "all sequences of GOAWAY frames; all histories of API calls, the control stream's bytes coming in any pieces between calls for other streams, including the last one, which may fail with a connection error", "why_tests_cant": "all histories", "anchors": ["lib/nghttp3_conn.c: nghttp3_conn_read_control (GOAWAY)"]}
{"id": "C30", "title": "GOAWAY identifiers sent never increase; streams beyond them are refused", "statement": "The identifiers in the GOAWAY frames produced by the shutdown API never increase; shutdown of a server announces an identifier above every request stream there has been (at most 2^62-4); a request stream opened by the peer at or above an announced identifier is stopped and reset with H3_REQUEST_REJECTED when it first appears and never reaches the application, one below every announced identifier is not; until the first shutdown both calls succeed once the control stream is bound. (After it they may fail an assertion: shutdown again once a higher stream was refused, a notice after a shutdown.)", "quantifier": "all sequences of shutdown calls and stream openings", "why_tests_cant": "all histories", "anchors": ["lib/nghttp3_conn.c: nghttp3_conn_submit_shutdown_notice, nghttp3_conn_shutdown, nghttp3_conn_read_stream"]}
{"id": "C31", "title": "Stream bytes reach the transport exactly once and in order", "statement": "For every sequence of frame submissions, write requests and partial writes, the bytes offered to the transport from the current offset are always the unsent suffix of the concatenation of everything queued; advancing by n bytes removes exactly n bytes; nothing is skipped, repeated or reordered, and no call fails an assertion. Exception (refuted beside it): a field section without any field line is dropped instead of sent, and can make a later release fail an assertion.", "quantifier": "all histories of API calls on a connection, any interleaving of any number of streams; all schedules of submissions, partial writes and acknowledgements", "why_tests_cant": "all interleavings and sizes", "anchors": ["lib/nghttp3_stream.c: nghttp3_stream_outq_add, nghttp3_stream_writev, nghttp3_stream_add_outq_offset"]}
{"id": "C32", "title": "Acknowledgements report every application byte exactly once", "statement": "For every monotone sequence of acknowledged offsets not beyond the data sent, the total reported by the acked-stream-data callback equals the number of application data bytes below the acknowledged offset, a buffer is released only when all its bytes are acknowledged, and an offset below the current one is rejected. An offset beyond the sent data is not rejected (refuted beside it): the caller must not pass one.", "quantifier": "all histories of API calls on a connection, any interleaving of any number of streams; all schedules of submissions, partial writes and acknowledgements", "why_tests_cant": "all schedules", "anchors": ["lib/nghttp3_stream.c: nghttp3_stream_update_ack_offset", "lib/nghttp3_conn.c: nghttp3_conn_update_ack_offset, nghttp3_conn_add_ack_offset"]}
{"id": "C33", "title": "The end of stream is signalled exactly after the last byte", "statement": "The fin flag is offered to the transport only together with the last queued byte after the application declared the end, and always when all this holds; never before pending frames. It is never offered on the endpoint's control and QPACK streams.", "quantifier": "all histories of API calls on a connection, any interleaving of any number of streams; all schedules of submissions, partial writes and acknowledgements", "why_tests_cant": "all schedules", "anchors": ["lib/nghttp3_stream.c: nghttp3_stream_writev, nghttp3_stream_fill_outq, nghttp3_stream_write_data"]}
{"id": "C34", "title": "DATA frames carry exactly the application's bytes", "statement": "Each data chunk returned by the read-data callback is sent as one DATA frame whose length is the sum of its vectors and whose payload is their concatenation; zero-length chunks at end of stream produce no frame unless needed; a total above 2^62-1 is an error.", "quantifier": "all histories of API calls on a connection, any interleaving of any number of streams; all schedules of submissions, partial writes and acknowledgements", "why_tests_cant": "all callback behaviours", "anchors": ["lib/nghttp3_stream.c: nghttp3_stream_write_data"]}
{"id": "C35", "title": "More urgent streams are always served first", "statement": "The stream chosen for transmission is always one of the schedulable streams with the smallest urgency value; a less urgent stream is never chosen while a more urgent one is schedulable, and none is chosen only if none is schedulable. No scheduler operation fails an assertion. Through the API: the request stream whose data nghttp3_conn_writev_stream offers is at least as urgent, by the priorities the API reports, as every open request stream that has something to send and is neither blocked nor shut.", "quantifier": "all sets of streams, priorities and histories", "why_tests_cant": "all scheduling histories", "anchors": ["lib/nghttp3_conn.c: nghttp3_conn_get_next_tx_stream, conn_get_sched_pq", "lib/nghttp3_tnode.c"]}
{"id": "C36", "title": "The priority queue always yields a minimum and loses nothing", "statement": "After any sequence of push, pop and remove-by-handle operations the queue contains exactly the pushed and not yet removed items, each item's handle designates its position, and the top is a minimum.", "quantifier": "all operation sequences, all item counts, all orders", "why_tests_cant": "all heap shapes", "anchors": ["lib/nghttp3_pq.c"]}
{"id": "C37", "title": "Incremental streams of equal urgency share fairly and none starves", "statement": "Among incremental streams of equal urgency that stay schedulable, the bytes served to one are at most twice the bytes served to another plus a constant (plus 1600 per submission made on the other in between), so none starves; a non-incremental stream is never passed over for an equally urgent stream with a higher identifier.", "quantifier": "all schedules and write sizes", "why_tests_cant": "liveness over unbounded schedules", "anchors": ["lib/nghttp3_tnode.c: nghttp3_tnode_schedule", "lib/nghttp3_conn.c: cycle_less"]}
{"id": "C38", "title": "The ring buffer is a double-ended queue", "statement": "Under every intended sequence of calls (nothing popped when empty, capacity a power of two), pushes and pops at either end, indexing, truncation and growing act as on an abstract bounded sequence; nothing is lost or reordered when the buffer wraps or is reallocated; a push into a full buffer replaces the element at the other end.", "quantifier": "all operation sequences and capacities", "why_tests_cant": "all wrap positions", "anchors": ["lib/nghttp3_ringbuf.c"]}
{"id": "C39", "title": "A peer stream identifier is accepted as new at most once", "statement": "The tracker of used identifiers behaves as a set: opening an identifier succeeds exactly the first time, whatever other identifiers were opened before and in whatever order; the gap list stays sorted, disjoint and exact. A connection keeps at most 32 gaps: there an identifier is never accepted twice and one above all earlier ones is always accepted, but an identifier in a forgotten gap is refused (refuted beside it).", "quantifier": "all sequences of identifiers", "why_tests_cant": "all orders and histories", "anchors": ["lib/nghttp3_idtr.c", "lib/nghttp3_gaptr.c"]}
{"id": "C40", "title": "Priority signals take precedence as documented", "statement": "After any sequence of priority header fields, PRIORITY_UPDATE frames and server-set priorities, the effective priority of an open stream is the last server-set value if any, else the last PRIORITY_UPDATE, else the header field, else urgency 3 non-incremental; urgency is always within 0..7. Exception: a PRIORITY_UPDATE for a stream that is not open and whose identifier lies in a gap the connection has dropped (more than 32 gaps) is ignored.", "quantifier": "all sequences of signals", "why_tests_cant": "all orders", "anchors": ["lib/nghttp3_conn.c: conn_update_stream_priority, nghttp3_conn_on_priority_update, nghttp3_conn_set_server_stream_priority", "lib/nghttp3_http.c: nghttp3_http_parse_priority"]}
{"id": "C41", "title": "Every library error maps to a defined HTTP/3 application error code", "statement": "The error-code inference returns an RFC 9114/9204 code for every library error, the no-error code exactly for 0, and the general protocol error otherwise.", "quantifier": "all integers", "why_tests_cant": "all int values", "anchors": ["lib/nghttp3_err.c: nghttp3_err_infer_quic_app_error_code"]}
{"id": "C42", "title": "A drained connection has no request streams left", "statement": "A server's is_drained reports true exactly when shutdown was called, no client-initiated bidirectional stream is open and everything queued on the local control stream has been handed to the transport; the count of open streams always equals the number of open client bidirectional streams. (A drained connection still accepts a request stream below the announced GOAWAY identifier: refuted that it accepts none.)", "quantifier": "all histories of connection calls", "why_tests_cant": "all histories", "anchors": ["lib/nghttp3_conn.c: nghttp3_conn_is_drained, nghttp3_conn_create_stream, conn_delete_stream"]}
{"id": "C43", "title": "Blocked or write-closed streams are not scheduled", "statement": "A control or QPACK stream reported as flow-control blocked is not offered again before it is unblocked, and one shut for writing never. A request stream blocked or shut for writing is not offered until a call or a signal of the peer schedules it again (unblock, resume, a submission, a report of written bytes, a change of its priority); if none of its frames is waiting, only unblock or a submission does. Provided nothing schedules a stream that was closed while its header section waits for the QPACK encoder (otherwise a deleted stream is used: refuted).", "quantifier": "all histories", "why_tests_cant": "all histories", "anchors": ["lib/nghttp3_conn.c: nghttp3_conn_block_stream, nghttp3_conn_shutdown_stream_write, nghttp3_conn_unblock_stream, nghttp3_conn_resume_stream", "lib/nghttp3_stream.c: nghttp3_stream_require_schedule"]}
{"id": "C44", "title": "SETTINGS values are applied once and invalid ones rejected", "statement": "Reserved HTTP/2 identifiers and out-of-range values in SETTINGS are rejected with H3_SETTINGS_ERROR; unknown identifiers are ignored; accepted values are exactly those in the frame, reported once, and the QPACK encoder is told the table capacity and min(100, blocked streams). A frame of distinct valid entries is always accepted; an unparsable one never. Exceptions, proved beside it: not every repeated identifier is rejected, and a client ignores ENABLE_CONNECT_PROTOCOL.", "quantifier": "all settings payloads; all histories of API calls, the control stream's bytes coming in any pieces between calls for other streams", "why_tests_cant": "all payloads", "anchors": ["lib/nghttp3_conn.c: nghttp3_conn_on_settings_entry_received"]}
{"id": "C45", "title": "Decoder-stream output stays bounded", "statement": "However many sections are decoded or cancelled before the decoder stream is flushed, the pending decoder-stream output is bounded by the configured number of concurrent streams.", "quantifier": "all histories", "why_tests_cant": "all histories", "anchors": ["lib/nghttp3_qpack.c: qpack_decoder_dbuf_overflow, nghttp3_qpack_decoder_cancel_stream, nghttp3_qpack_decoder_write_section_ack"]}
{"id": "C46", "title": "Header names are sent in lower case, values and flags unchanged", "statement": "The copy made at submission has the same number of fields, the same values and flags, and names that differ only by ASCII lower-casing (unless the no-copy flag leaves them as they are); later changes by the caller do not matter.", "quantifier": "all header lists", "why_tests_cant": "all header lists", "anchors": ["lib/nghttp3_frame.c: nghttp3_nva_copy", "lib/nghttp3_str.c: nghttp3_downcase"]}
{"id": "C47", "title": "Request streams wait for the QPACK encoder only as long as needed and within the announced limit", "statement": "A request stream whose header section refers to insertions that have not arrived is held: its bytes cause no callbacks. Between two API calls, a stream is held only if the insertions it needs have not all arrived, whichever streams, calls and cuts came before. Never more than settings.qpack_blocked_streams request streams are held at once.", "quantifier": "all histories of API calls on one connection, client or server, any interleaving and cutting of any number of streams, any bytes from the peer", "why_tests_cant": "the queue of held streams is a heap keyed by data inside the streams and changed by reads of other streams; tests drive one or two streams", "anchors": ["lib/nghttp3_conn.c: nghttp3_conn_read_qpack_encoder, nghttp3_conn_on_headers, nghttp3_conn_qpack_blocked_streams_push, nghttp3_conn_qpack_blocked_streams_pop, ricnt_less"]}
{"id": "C48", "title": "The control stream carries SETTINGS once and first, then GOAWAY and PRIORITY_UPDATE in call order", "statement": "What an endpoint offers to the transport on its control stream is, from the first byte on: the stream type 0, one SETTINGS frame with the settings the connection was created with, then one GOAWAY frame per successful call of nghttp3_conn_submit_shutdown_notice or nghttp3_conn_shutdown (with the identifier of C27/C28) and one PRIORITY_UPDATE frame per successful call of nghttp3_conn_set_client_stream_priority, in the order of the calls, each a well-formed RFC 9114 frame, nothing else. There is at most one such stream and it is never ended.", "quantifier": "all histories of API calls on one connection, client or server, any interleaving with requests, reads, writes and acknowledgements", "why_tests_cant": "must hold for every order of calls and every partial write; tests check one settings frame in one write", "anchors": ["lib/nghttp3_conn.c: nghttp3_conn_bind_control_stream, nghttp3_conn_submit_shutdown_notice, nghttp3_conn_shutdown, nghttp3_conn_set_client_stream_priority, nghttp3_conn_writev_stream", "lib/nghttp3_stream.c: nghttp3_stream_write_settings, nghttp3_stream_write_goaway, nghttp3_stream_write_priority_update"]}
{"id": "C49", "title": "No bytes from the peer and no lawful sequence of calls make the library abort", "statement": "Whatever the peer sends, in whatever pieces, and whatever calls the application makes as long as it respects the documented preconditions (identifiers in range, the role of the endpoint, streams bound before they are needed, offsets not beyond what was offered or written, at least one header field, no call that schedules a stream closed while blocked), no call fails an assertion, uses a deleted stream or dereferences a missing one; it returns 0, a byte count or a defined error. Exceptions, proved beside it: a server given a piece of the control stream that ends right behind the element ID of a PRIORITY_UPDATE frame aborts, and so does a client that sets a stream priority before the control stream is bound.", "quantifier": "all histories of API calls on one connection, client or server, any number of streams, any interleaving, any bytes from the peer in any cut; every call that can follow", "why_tests_cant": "the assertions depend on invariants across heap, stream map, id tracker, output queues and the QPACK decoder that must hold after every history", "anchors": ["lib/nghttp3_conn.c: every nghttp3_conn_* function that takes a connection", "lib/nghttp3_stream.c", "lib/nghttp3_tnode.c", "lib/nghttp3_pq.c", "lib/nghttp3_idtr.c", "lib/nghttp3_gaptr.c", "lib/nghttp3_qpack.c"]}
{"id": "C50", "title": "The QPACK decoder reads exactly what RFC 9204 says, from any peer", "statement": "Whatever bytes a peer (not necessarily this library) sends on its encoder stream, in whatever pieces and interleaved with whatever other calls: as long as no call fails, the bytes received are, by RFC 9204 section 4.3, a sequence of instructions that could each be carried out, followed by the beginning of at most one more, and the dynamic table (entries, order, evictions, insert count, capacity) is the one those instructions produce; a call fails only if, whatever followed, the next instruction could not be valid, or the peer sent more than 131072 bytes without a completed section. A field section yields fields exactly when the bytes are a valid RFC 9204 section 4.5 field section for that table (prefix with the right Required Insert Count and Base, all six kinds of field lines, references only to live entries below the Required Insert Count), and then yields exactly its fields with names, values, tokens and never-index flags; it is reported blocked exactly when the Required Insert Count exceeds the insertions received; otherwise it is refused. (Limits of the implementation, part of the specification: integers below 2^62 in at most ten bytes, names of at most 256 and values of at most 65536 encoded bytes.)", "quantifier": "all byte strings on the encoder stream and as field sections, all cuts of the encoder stream, all histories of decoder calls, all table capacities", "why_tests_cant": "the set of encodings a foreign peer may use (post-base references, duplicates, Huffman or not, non-minimal integers, wrap-around of the encoded insert count) times table states is unbounded", "anchors": ["lib/nghttp3_qpack.c: nghttp3_qpack_decoder_read_encoder, nghttp3_qpack_decoder_read_request, nghttp3_qpack_decoder_reconstruct_ricnt, nghttp3_qpack_decoder_rel2abs, nghttp3_qpack_decoder_brel2abs, nghttp3_qpack_decoder_pbrel2abs, nghttp3_qpack_decoder_emit_indexed, nghttp3_qpack_decoder_emit_indexed_name, nghttp3_qpack_decoder_emit_literal"]}
{"id": "C51", "title": "What the application is given for a request stream is what the received bytes mean", "statement": "After any history of API calls, the header, trailer and data callbacks for an open request stream are exactly the meaning, by RFC 9114 and RFC 9204, of the bytes given to nghttp3_conn_read_stream for it together with the bytes received on the peer's encoder stream: the bytes are a sequence of frames, possibly ending inside one; each DATA frame gives its payload bytes in order, each HEADERS frame gives begin, the fields of the field section it encodes against the table the encoder stream builds (references resolved by absolute index, even when the section was held back until its insertions arrived or entries have since been evicted) and end; a frame of an unknown type gives nothing; nothing else is given, nothing is given twice, out of order or altered. The only fields that may be left out are ones with an invalid name or value and Content-Length where none is allowed; a HEADERS frame without payload in place of trailers gives nothing. All bytes received have been used unless the stream waits for insertions, the application shut down reading the stream, or was told by stop_sending that the rest is ignored. A HEADERS frame that has arrived completely is then given completely, its end included (unless it holds no field line).", "quantifier": "all histories of API calls, all byte strings on all streams and all ways they are cut and interleaved, all settings", "why_tests_cant": "the result depends on the interleaving of the request stream with the encoder stream at every byte boundary, and on table evictions between; no finite set of traces covers it", "anchors": ["lib/nghttp3_conn.c: nghttp3_conn_read_stream, nghttp3_conn_read_bidi, nghttp3_conn_on_headers, nghttp3_conn_on_data, conn_process_blocked_stream_data, nghttp3_conn_read_qpack_encoder", "lib/nghttp3_qpack.c: nghttp3_qpack_decoder_read_request, nghttp3_qpack_decoder_read_encoder"]}
{"id": "C52", "title": "A stream is found under its own id, from its creation to its deletion, and no other", "statement": "The hash map in which a connection keeps its streams and the QPACK encoder its outstanding sections behaves as a finite partial function for every sequence of insertions, lookups, removals, clears and traversals: an insertion fails exactly when the key is present (or the allocator failed, and then changes nothing); what was inserted is found under its key, and only there, until it is removed, whatever other keys collide with it, whatever removals move it, and however often the table grows; what was removed is not found again; a traversal visits every entry exactly once (until the callback returns non-zero); the size is the number of entries; no call loops for ever, and the assertion in the growth of the table never fails. This holds while the map has at most 805306368 entries; beyond, the next but one insertion is undefined behaviour (a 32-bit shift by 32).", "quantifier": "all sequences of calls, all 64-bit keys (in particular keys chosen to collide), all data pointers, all allocator failures", "why_tests_cant": "the layout depends on the whole history of insertions and removals and on the hash of every key", "anchors": ["lib/nghttp3_map.c: nghttp3_map_insert, nghttp3_map_find, nghttp3_map_remove, nghttp3_map_each, nghttp3_map_clear, insert, map_resize", "lib/nghttp3_conn.c: nghttp3_conn_find_stream"]}
{"id": "C53", "title": "The ordered index holds exactly what was put into it, in order", "statement": "The ordered index (a B+ tree) that holds the gaps of a range set and the streams a QPACK encoder may block behaves as a sorted sequence of entries with distinct keys for every sequence of calls: an insertion fails exactly when an equal key is present, and otherwise puts the entry at its place and returns an iterator to it; a removal (with or without a hint) removes exactly the entry with the key and returns an iterator to the entry after it; a lower bound is the first entry not ordered before the key, so a key is found if and only if it is there; raising a key within its neighbours replaces it; walking forwards shows every entry once in order, walking backwards the reverse; the length is the number of entries; no assertion fails and no block is read or written outside its 31 slots, whatever blocks split, merge or exchange nodes. Exceptions: update_key's documented condition (new key between the neighbours) is not enough when the key is lowered - the entry can then neither be removed nor be recognised as a duplicate; and a removal from an index that never held an entry (or was cleared) does not assign the iterator it documents.", "quantifier": "all sequences of calls, all keys and data, all strict weak orders on keys, no bound on the number of entries or the height of the tree", "why_tests_cant": "the shape of the tree depends on the whole history; rebalancing cases need dozens of entries in a particular order", "anchors": ["lib/nghttp3_ksl.c: nghttp3_ksl_insert, nghttp3_ksl_remove, nghttp3_ksl_remove_hint, nghttp3_ksl_lower_bound, nghttp3_ksl_lower_bound_search, nghttp3_ksl_update_key, nghttp3_ksl_it_prev, ksl_split_node, ksl_merge_node, ksl_shift_left, ksl_shift_right", "lib/nghttp3_ksl.h: nghttp3_ksl_it_next, nghttp3_ksl_it_end, nghttp3_ksl_search_def"]}
{"id": "C54", "title": "What the QPACK encoder writes is what RFC 9204 prescribes, for any receiver", "statement": "After any history of calls of the QPACK encoder, whatever feedback it has been fed, the bytes it has written for the encoder stream are a sequence of complete RFC 9204 instructions, each of which a receiver that announced the same maximum capacity can carry out; the dynamic table they make holds what the encoder's table holds at the same absolute indices. Every section it has ever written is, for a receiver that has received at least as many insertions as the section requires, a valid field section with exactly the submitted fields, names, values and never-index flags in order, and it can be read in no other way, as long as the receiver's Insert Count is not further from the Required Insert Count than the maximum number of entries (the ambiguity beyond is C12's exception). A receiver that keeps only what fits its dynamic table still holds every entry needed by a section that is neither acknowledged nor cancelled.", "quantifier": "all histories of encoder calls, all fields within the length limits, all prefixes of the encoder stream received", "why_tests_cant": "the output depends on the whole history of insertions, evictions and acknowledgements; tests decode it with nghttp3's own decoder, which could share a misreading of the RFC", "anchors": ["lib/nghttp3_qpack.c: nghttp3_qpack_encoder_encode, nghttp3_qpack_encoder_encode_nv, nghttp3_qpack_encoder_write_field_section_prefix, qpack_encoder_write_indexed_name, qpack_encoder_write_literal, nghttp3_qpack_encoder_process_dtable_update, nghttp3_qpack_encoder_read_decoder"]}
{"id": "C55", "title": "What one application submits on a request stream is what the other one is given", "statement": "Take two connections, each after any history of API calls, where the bytes given to the receiver for an open request stream are a prefix of the bytes the sender offered on it, and the bytes the receiver was given on the encoder stream are a prefix of what the sender's QPACK encoder wrote, however both are cut and interleaved. Then the header, trailer and data callbacks of the receiver for that stream are a prefix of what the submitted messages say: for each submitted header section its begin, its fields in order with names, values and never-index flags, and its end; for each body the bytes the reader gave, in order. The only fields that may be missing are those with an invalid name or value and Content-Length where none is allowed. When the sender has offered the end of the stream and all of it has arrived, everything submitted has been given, unless the stream still waits for the encoder stream or the receiver stopped reading. (The encoder must have been created with the capacity the receiver announced, see C16's exception, and the Required Insert Counts must be within reach of the receiver's Insert Count, see C12's exception.)", "quantifier": "all pairs of histories of API calls of the two endpoints, all submitted messages, all answers of the readers, all ways the transport cuts, delays and interleaves the streams", "why_tests_cant": "a round trip test covers one message, one cutting and one interleaving; the property relates two unbounded histories", "anchors": ["lib/nghttp3_conn.c: nghttp3_conn_submit_request, nghttp3_conn_submit_response, nghttp3_conn_writev_stream, nghttp3_conn_read_stream", "lib/nghttp3_stream.c: nghttp3_stream_write_headers, nghttp3_stream_write_data", "lib/nghttp3_qpack.c: nghttp3_qpack_encoder_encode, nghttp3_qpack_decoder_read_request"]}
{"id": "C56", "title": "Header names and values are freed exactly when nothing refers to them any more", "statement": "The names and values of header fields live in reference-counted buffers (nghttp3_rcbuf). Whatever the peer sends on the encoder stream and the request streams, whatever is encoded, whichever memory allocation fails, whatever the application keeps by nghttp3_rcbuf_incref in its header callbacks, and in whichever order the decoder, the encoder, the stream contexts and the application let go of them: no operation uses NULL or a freed buffer and no count goes below zero; a buffer exists exactly as long as something refers to it; when everything has been deleted nothing is left; and what the application keeps stays there unchanged until the application lets go of it, also after eviction and after the connection has been deleted. Exception: nghttp3_qpack_stream_context_reset called by the application in the middle of a field line leaks the half-read name and value (the library itself calls it only between sections).", "quantifier": "all sequences of instructions, field lines, encodings, table capacity changes, allocation failures, application increments and decrements, and deletions", "why_tests_cant": "leaks, double frees and use after free depend on rare interleavings of allocation failure, eviction and retention; tests with sanitizers see only those they run", "anchors": ["lib/nghttp3_rcbuf.c: nghttp3_rcbuf_new, nghttp3_rcbuf_incref, nghttp3_rcbuf_decref", "lib/nghttp3_qpack.c: nghttp3_qpack_decoder_read_encoder, nghttp3_qpack_decoder_read_request, nghttp3_qpack_read_state_reset, nghttp3_qpack_entry_free, qpack_context_dtable_add", "lib/nghttp3_conn.c: nghttp3_conn_on_headers / conn_read headers loop"]}
{"id": "C57", "title": "Object pools hand out distinct, aligned memory and give every block back once", "statement": "The library takes streams, output queue chunks and stream tree nodes from object pools (nghttp3_objalloc over nghttp3_balloc, with the list of released objects linked through the released memory itself). For every sequence of gets, releases and clears, and whatever the users write into the objects they hold: no assertion fails; an object handed out lies aligned in memory that malloc has given and has no byte in common with any object in use; NULL is returned only if malloc fails; clearing gives every block back to free exactly once.", "quantifier": "all sequences of gets, releases, writes by the users and clears, all object and block sizes that fit, all answers of malloc", "why_tests_cant": "overlap of live objects depends on the order of releases and on what the users write; a test covers single orders", "anchors": ["lib/nghttp3_objalloc.c, nghttp3_objalloc.h: nghttp3_objalloc_init, nghttp3_objalloc_free, nghttp3_objalloc_clear, nghttp3_objalloc_decl", "lib/nghttp3_balloc.c: nghttp3_balloc_get, nghttp3_balloc_clear", "lib/nghttp3_opl.c: nghttp3_opl_push, nghttp3_opl_pop"]}
{"id": "C58", "title": "The encoder stream carries the instructions of all header sections in the order they were encoded", "statement": "For every history of API calls: the header sections of all request streams are given to the QPACK encoder in one order, which only grows, each section once, those of a stream in the order of submission; a HEADERS frame on a stream carries the encoder's answer to the section of the same number on that stream. The endpoint's encoder stream carries its type and then exactly the instructions that came with these sections, in that order; every offer of nghttp3_conn_writev_stream on it is a piece of that from the point the transport has reached. As long as there is no encoder stream no section is encoded. Hence: if a peer has been given a beginning of what was offered on a request stream and on the encoder stream, in any pieces and any order, its callbacks give a beginning of what was submitted, and all of it once everything has arrived and it does not wait for the encoder stream.", "quantifier": "all histories of API calls of two endpoints, all interleavings of streams and of the encoder stream, all cuts by the transport, all encoder histories", "why_tests_cant": "the order of instructions relative to sections depends on blocking, priorities and flow control over many streams; one instruction out of order corrupts the dynamic table for the rest of the connection", "anchors": ["lib/nghttp3_stream.c: nghttp3_stream_fill_outq, nghttp3_stream_write_header_block, nghttp3_stream_ensure_chunk", "lib/nghttp3_conn.c: nghttp3_conn_writev_stream, conn_writev_stream, nghttp3_conn_bind_qpack_streams", "lib/nghttp3_qpack.c: nghttp3_qpack_encoder_encode"]}
{"id": "C59", "title": "stream_close is called exactly once for each request stream, with the code of the application", "statement": "In the call in which a request stream is deleted, and in no other, stream_close is called for it, once, as the last callback for that stream, with the code given in the last nghttp3_conn_close_stream call for it. A request stream the application has not closed is never deleted. One it has closed is deleted in that call, unless it waits for the QPACK encoder; then it stays only until the insertions it waits for have arrived, and is deleted in the read of the encoder stream that delivers them. Closing a stream that is not open returns NGHTTP3_ERR_STREAM_NOT_FOUND and changes nothing. In a call that fails it is called at most once for a stream, only for an open stream that the application closed, with the code of the last nghttp3_conn_close_stream call, and as the last callback for that stream.", "quantifier": "all histories of API calls, all interleavings of streams", "why_tests_cant": "the deletion can be put off and then happens in a call for another stream; all histories", "anchors": ["lib/nghttp3_conn.c: nghttp3_conn_close_stream, conn_delete_stream, nghttp3_conn_read_qpack_encoder, conn_process_blocked_stream_data, conn_call_stream_close"]}
{"id": "C60", "title": "nghttp3_conn_is_stream_writable and nghttp3_conn_get_frame_payload_left tell the truth", "statement": "nghttp3_conn_is_stream_writable is true of a request stream exactly if the stream exists, the last nghttp3_conn_block_stream/unblock_stream call for it (if any) was unblock, nghttp3_conn_shutdown_stream_write and nghttp3_conn_close_stream were not called for it, and its last read_data callback did not answer NGHTTP3_ERR_WOULDBLOCK without a nghttp3_conn_resume_stream since. nghttp3_conn_get_frame_payload_left is, for an open request stream that is still listened to, the number of payload bytes missing from the HTTP/3 frame (RFC 9114 7.1) in which the bytes given for the stream end (apart from bytes held back while it waits for the QPACK encoder), and 0 between frames; for a stream that does not exist it is 0. For the peer's control stream it is the number of bytes missing from the frame the bytes received end in, and 0 between frames and inside a frame header (exception: in a GOAWAY or MAX_PUSH_ID frame whose payload is longer than its identifier it is 0 behind the identifier, as in C26).", "quantifier": "all histories of API calls, all cuts of the input, all interleavings of streams, all answers of read_data", "why_tests_cant": "both answers depend on everything that was called or received before", "anchors": ["lib/nghttp3_conn.c: nghttp3_conn_is_stream_writable, nghttp3_conn_get_frame_payload_left, nghttp3_conn_block_stream, nghttp3_conn_unblock_stream, nghttp3_conn_resume_stream, nghttp3_conn_shutdown_stream_write, nghttp3_conn_read_bidi"]}
{"id": "C61", "title": "nghttp3_conn_shutdown_stream_read silences a stream and tells the peer once", "statement": "After nghttp3_conn_shutdown_stream_read for an existing request stream no callback about the peer's data on that stream (headers, data, end, stop_sending, reset_stream from parsing) is called in any later call, successful or failing, while the stream exists; nghttp3_conn_read_stream for it then always succeeds and counts all bytes as consumed. The first call adds exactly one Stream Cancellation instruction (RFC 9204 4.4.2) for the stream to what the QPACK decoder stream will carry and calls no callback; a further call while the stream exists, or a call for a stream that is not a request stream, changes nothing; a call for a request stream that does not exist adds a Stream Cancellation each time. Exception (a defect): a stream that waits for encoder stream data when its reading is shut down keeps counting toward SETTINGS_QPACK_BLOCKED_STREAMS after the Stream Cancellation was sent, so that a request of a peer which respects the limit is refused with QPACK_DECOMPRESSION_FAILED.", "quantifier": "all histories of API calls, all bytes, all cuts and interleavings", "why_tests_cant": "silence must hold for whatever is called or received afterwards, on any stream, including encoder stream data that unblocks the stream", "anchors": ["lib/nghttp3_conn.c: nghttp3_conn_shutdown_stream_read, nghttp3_conn_read_bidi, conn_process_blocked_stream_data, nghttp3_conn_on_headers", "lib/nghttp3_qpack.c: nghttp3_qpack_decoder_cancel_stream"]}
