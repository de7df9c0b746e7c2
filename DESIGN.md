# Formal model of nghttp3 in Rocq (Coq 8.16.1)

## 1. Approach

The model is a set of total, computable Gallina functions that transcribe the C
functions of `/repo/lib` one by one; each definition carries a comment with the
C file and lines it models and any simplification.  Layout of `rocq/theories`:

* `*Model.v`  - model definitions only (plus generated tables `*Tables.v`),
* `*Spec.v`   - small independent specifications (RFC grammar, abstract sets, queues ...),
* `*Proofs.v` - lemmas and proofs,
* `Props_*.v` - only property theorems (each `exact lemma`), non-vacuity `Example`s
  and `Print Assumptions`.

Conventions: bytes are `Z` with predicate `is_byte` (0..255); C integers are `Z`;
wrap-around is written out (`mod 2^64`) where the C code can reach it and the
property depends on it; errors are the numeric `NGHTTP3_ERR_*` values; a failed
`assert`, `nghttp3_unreachable()` or out-of-bounds access is the distinct outcome
`Abort`.  Pointers into buffers become lists and offsets.  Memory allocation
failure is modelled for the reference counting (C56), the object pools (C57) and the hash
map; elsewhere it never fails.  Application callbacks are recorded as
events in order; their return value is success unless the definition says it is
an argument.

## 2. Trusted base

* Coq 8.16.1's kernel (and `vm_compute`).
* `Print Assumptions` is issued under every property theorem; expected output is
  "Closed under the global context" for all of them (see section 5 for exceptions).
* The transcription: the model was written by reading the C text; no code was
  compiled or run.  `lib/sfparse` is an empty submodule here, so the structured
  field parser is an argument (oracle) of the functions using it, and theorems are
  quantified over it.
* Generated tables (Huffman, static table, tokens, character classes) were
  extracted mechanically from the C sources by scripts under `/verif/tools`.

Not modelled: memory allocation failure outside C56, C57 and the hash map, logging,
aliasing of C objects outside C56 and C57, thread safety (the library is single threaded),
ABI versioning of structs, `nghttp3_mem` (malloc and free wrappers).
By file, the functions without a model of their own: destructors (`*_free`, `*_del`: a model state is dropped, C56 and
C57 excepted) and constructors that only allocate and zero (the initial states of the models); all of `nghttp3_buf.c`
(a buffer is the list between its pointers; `buf_left` and `buf_cap` appear as the sizes in the models that use them),
`nghttp3_debug.c`, `nghttp3_version.c`, `nghttp3_strerror`, `nghttp3_unreachable` (the outcome `Abort`), the `*_print`
functions, `nghttp3_rcbuf_get_buf` / `is_static` / `new2`, `nghttp3_conn_set_stream_user_data` and the user-data pointers
passed to callbacks; one-line predicates written out where they are used (`client_stream_bidi`, `server_stream_uni`,
`tnode_is_scheduled`, `put_uint16be` ...).

## 3. Plan per property

| id | modelled | proof |
|----|----------|-------|
| C01 | conv.c varint readers/writers on byte lists | arithmetic on the four length classes; round trip with arbitrary suffix |
| C02 | `nghttp3_read_varint` with its state | invariant relating partial state to bytes seen; induction over pieces |
| C03 | frame.c writers and length functions | against an independent RFC 9114 frame parser |
| C04 | qpack_put_varint(_len), qpack_read_varint | induction on the value / bytes; resumption lemma |
| C05-C07 | huffman.c with generated tables | finite check of the automaton against the code tree by `vm_compute`, lifted by induction to all strings |
| C08 | qpack_lookup_token, stable, token_stable, lookup_stable | finite sweep over generated tables lifted to all names |
| C09-C11 | dynamic table context, encoder, decoder | invariants by induction over operation histories |
| C12 | encoder_encode and decoder read_request/read_encoder at byte level | simulation between the two tables; round-trip of each representation |
| C13, C14, C17 | encoder reference tracking, blocked streams, decoder stream reader | invariants over all histories |
| C15 | indexing mode decision, encode_nv | case analysis over all paths plus history invariant |
| C16 | section prefix, reconstruct_ricnt | modular arithmetic; refuted for unequal capacities |
| C18, C45 | decoder stream writer | invariant over histories |
| C19-C22 | http.c validators | character tables by finite sweep; history invariants over field sequences |
| C23 | stream.c rx state machine | simulation with the message grammar automaton |
| C24, C25 | conn.c read_bidi | byte-at-a-time equivalence, accounting invariant |
| C26, C27 | conn.c read_control; along histories of API calls: CtlApiSpec, CtlApi, CtlTold | same; refuted where an assertion can fail; the state of the reader is the one read_control reaches on the pieces received (hist_CT); failing calls: CtlDead; the next frame refused or taken: CtlErr (what follows a failing piece is not looked at), CtlNext; in pieces: CtlCut |
| C28-C30, C42, C44 | conn.c uni stream dispatch, GOAWAY, SETTINGS, shutdown | history invariants |
| C31-C34 | stream.c output queue; lifted to every stream of a connection over API histories | refinement to a byte sequence with offsets; every stream of a connection is a lawful history of the one-stream model |
| C35-C37 | pq.c, tnode.c, conn scheduler | heap invariant; virtual time bounds |
| C38 | ringbuf.c | refinement to a list |
| C39 | gaptr.c, idtr.c | refinement to a set |
| C40 | priority handling | state machine over signal sequences, oracle for sfparse |
| C41 | err.c | finite case analysis over all integers |
| C43 | block/unblock/shutdown_write, require_schedule | history invariant; refuted parts |
| C46 | nva_copy, downcase | list induction |
| C47 | conn.c queue of blocked streams, over API histories | heap invariant keyed by required insert counts; every stream of a connection is a history of the one-stream model |
| C48 | conn.c bind/shutdown/priority and the control stream, over API histories | from the lift of C31-C34: the frames submitted to a control stream are determined by the calls |
| C49 | every call of the connection API; KAbort stands for every assertion and for every use of a deleted or missing stream | all invariants of C22-C48 together: each call, from a state reached by a lawful history, does not reach KAbort |
| C50 | decoder of the encoder stream and of field sections (QpackDecModel) against RfcQpackSpec.v, an independent reading of RFC 9204 | trichotomy per instruction and per field line: complete and carried out / a proper beginning / no continuation is valid; induction on the bytes; the history reduces to one run over the concatenation |
| C51 | the whole receive path (ConnModel, BidiModel, QpackDecModel) against RfcStreamSpec.v, an independent reading of RFC 9114 7 on top of RfcQpackSpec.v | relation between the reader's state and (complete frames, current frame, items so far), preserved by every loop turn for the table as it then is, and by every growth of the table (MeanStream, MeanGrow); lifted to receive histories (MeanRx) and to API histories (MeanSeen: the decoder's ghost input record d_seen is what the peer's encoder stream delivered; MeanApi; MeanListen) |
| C52 | nghttp3_map.c (MapModel): table as a function of the bucket index, loops with fuel = table length and Abort when it runs out | the Robin Hood invariant (a bucket not at home is preceded by one at least as displaced minus one; MapProofs), which every step of the insertion loop, of growth and of the backward shift keeps; simulation of the finite partial function of MapSpec by every sequence of calls (MapHist) |
| C53 | nghttp3_ksl.c (KslModel): a block of height h is a list of (key, child), a leaf a list of (key, data); a pointer to a leaf is its number from the left; failed asserts and accesses outside a block are Abort | the invariant `ok` (sizes of the blocks, every inner key at least the last key of its child and smaller than everything to the right; inner keys may be stale), kept by every operation by induction on the height (KslProofs); iterators as places in the sequence and simulation of the sorted sequence of KslSpec by every sequence of calls (KslHist) |
| C54 | the QPACK encoder of C11-C17 against RfcQpackSpec (C50) | the encoder's history invariant gives a run of the decoder between two instructions and the references of each section; `es_run_whole` and `lines_run` turn both into derivations of the specification, over the table of everything ever inserted (IdealSec) or over the table of the receiver; uniqueness from the functionality of the specification (EncRfc) |
| C55 | two copies of ConnModel and an encoder history, joined by byte strings | the sender's wire is a sequence of frames that say what was submitted (C34, C54); the receiver's callbacks are the meaning of a prefix of it (C51); the two readings agree because the RFC specification is a function (E2e: frames_cmp, part_cmp, part_said) |
| C56 | rcbuf.c and every place in qpack.c and conn.c that takes, passes or drops a reference, on a heap of counted cells; allocation failure is a choice at each allocation | a triple per C function over the invariant count = number of holders (RcProofs), induction over operations |
| C57 | objalloc, balloc and opl on a memory of words, the free list linked inside the memory | invariant: free list, live objects and rest of the current block are pairwise apart (PoolProofs) |
| C58 | ConnModel with a ghost record per stream of the encoder's instructions put on it and of those its own sections produced (ConnTx, TxGhost); the order is read off the calls of writev_stream (EncStreamSpec) | invariant over histories (EncStream: hist_EI), then C55 for the other end (EncSent) |
| C59 | ConnModel (close_stream, drop_stream, unblock_loop); CloseSpec: the callbacks and calls in a history | invariant over histories (hist_asked): the code a stream waits with is the last one asked for; a stream flagged as closed is blocked (from the single-stream history of C24/C25) |
| C60 | ConnModel (is_stream_writable, frame_payload_left); GateSpec: the calls in a history, RFC 9114 7.1 framing | invariant over histories for the gates (hist_gates); for the counter, the meaning invariant of C51 (cur_in: what is being parsed ends inside a frame); control stream: CtlLeft (each step takes from the counter what it takes from the input), CtlLeftApi |
| C61 | ConnModel (shutdown_read, read_stream), QpackDecModel (dec_cancel_stream); ShutRdSpec: the calls in the stream's life; RFC 9204 4.4 (QpackHistSpec) | invariants over histories (the flag is set iff asked for, kept while the stream exists) and along the actions of one call (a shut stream, or one not blocked, shows nothing); failing calls: ConnDead (elementary actions, then what the failing step showed) |

## 4. Findings (property violations of the code as read)

Each is a theorem with the suffix `_refuted`, with a concrete history as witness.

* `C09_last_capacity_refuted` - nghttp3_qpack_encoder_set_max_dtable_capacity(2048), (3000), (2048)
  before the next encode: the third call returns early (the current capacity is already 2048) and
  leaves last_max_dtable_capacity_update at 3000, so the encoder uses 3000 (qpack.c 940-957).
* `C12_any_delay_refuted` - the encoder evicts entries whose insertion has not been acknowledged
  (RFC 9204 2.1.1 forbids it), e.g. after the peer cancelled the stream that referred to them.  A later
  section then needs more insertions than Insert Count + MaxEntries of a decoder whose encoder stream
  is late, and that decoder fails with a decompression error instead of waiting.
* `C16_mixed_capacities_refuted` - the Required Insert Count is encoded modulo twice the MaxEntries of
  the capacity the encoder was created with (qpack.c 2407-2448) while the peer decodes modulo twice
  the MaxEntries of the capacity it advertised; nghttp3_conn creates the encoder with its own limit.
* `C19_check_header_name_lowercase_refuted` - the public nghttp3_check_header_name accepts upper-case letters although
  its documentation says they are an error: the table entry for them is -1 and is tested for non-zero
  (http.c 851-871).  The library's own check of received fields (http.c 873-888) is right.

* `C23_truncation_refuted` - a request stream that is blocked on QPACK in the middle of a HEADERS frame and whose
  FIN arrives with no bytes behind the ones already processed: conn_read_bidi's fin handling is skipped while
  blocked, and on unblocking the loop over buffered input (conn.c 1084-1137) has nothing to iterate over, so neither
  end_stream nor the truncation (H3_FRAME_ERROR) is ever reported.

* `C26_trailing_bytes_refuted` - a GOAWAY or MAX_PUSH_ID payload longer than its identifier: the rest of the payload is
  not skipped and not an error, the reader state is reset and the rest is parsed as new frames (conn.c 908, 934).
* `C26_max_push_error_refuted` - a decreasing MAX_PUSH_ID is reported as H3_FRAME_ERROR (conn.c 927), RFC 9114 7.2.7 says
  H3_ID_ERROR.
* `C27_abort_refuted` - a server reading a piece that ends exactly behind the element ID of a PRIORITY_UPDATE frame with a
  value: the case falls through to PRIORITY_UPDATE with p == end and assert(len > 0) fails (conn.c 970-977).
* `C27_leftover_refuted` - an over-long priority value that arrives in pieces leaves its first part in rx.pri_fieldbuf
  (pri_fieldbuflen is not reset on the way to IGN_FRAME, conn.c 988-992) and the next value is appended to it.
* `C44_duplicates_refuted` - repeated SETTINGS identifiers are noticed only for QPACK settings after a non-zero value
  (conn.c 1668-1748).
* `C44_connect_on_client_refuted` - SETTINGS_ENABLE_CONNECT_PROTOCOL is ignored unless the endpoint is a server.
* `C39_connection_exact_refuted` - conn_bidi_idtr_open forgets the first gap when more than 32 exist (conn.c 375-377), so an
  identifier in it counts as used: a PRIORITY_UPDATE for such a stream is dropped.  Documented in conn.c as harmless.
* `C31_empty_section_sent_refuted`, `C31_empty_section_no_abort_refuted` - a HEADERS frame with no fields: stream_write_header_block
  queues the chunk with the frame header and section prefix only when the field lines' buffer is non-empty, so the frame
  is never sent; the orphan bytes in the chunk make assert(chunk->end == tbuf->buf.end) fail when a later buffer is released.
* `C32_unsent_ack_rejected_refuted` - nghttp3_conn_update_ack_offset with an offset beyond the bytes handed to the transport is
  accepted and reports bytes that were never sent as acknowledged.
* `C42_drained_accepts_none_refuted` - after shutdown and is_drained, a request stream whose identifier is below the
  announced GOAWAY identifier is still opened and its request delivered (conn.c read_stream checks only the identifier).
* `C40_update_before_open_refuted` - consequence of the 32 gap limit of C39: a PRIORITY_UPDATE for a stream in a dropped
  gap is ignored and the stream, opened later, has the default priority.
* `C30_shutdown_again_refuted`, `C30_notice_after_shutdown_refuted` - nghttp3_conn_shutdown asserts that the identifier
  does not exceed the one sent before (conn.c:2329), but max_stream_id_bidi grows for streams that are refused because
  they are beyond that identifier (conn.c:411): shutdown, a refused stream, shutdown again aborts.  A notice after a
  shutdown aborts at conn.c:2302.
* `C28_end_with_type_refused_refuted` - FIN in the same read as the last byte of the type of a control or QPACK stream is
  not reported as H3_CLOSED_CRITICAL_STREAM (conn.c:507-513 returns before the check).
* `C28_close_untyped_refuted` - nghttp3_conn_close_stream on a peer unidirectional stream whose type is not yet known
  answers H3_CLOSED_CRITICAL_STREAM although such a stream need not be critical.
* `C43_blocked_until_unblocked_refuted`, `C43_shut_never_offered_refuted` - nghttp3_stream_require_schedule
  (stream.c:806-812) ignores FC_BLOCKED and SHUT_WR when frames are waiting: resuming, reporting written bytes,
  submitting, or a PRIORITY_UPDATE of the peer makes a blocked or write-closed stream be offered again.
* `C43_untidy_refuted` - (peer-triggerable use after free) a stream closed by the application while its header section
  is blocked on the QPACK encoder is kept (conn.c:2446-2460); a PRIORITY_UPDATE, which the peer controls, schedules it
  again; the encoder stream then unblocks and deletes it without unscheduling it; the next
  nghttp3_conn_writev_stream takes the deleted stream from the queue.
* `C35_nothing_offered_only_if_nothing_ready_refuted` - when the data reader of the chosen stream answers
  NGHTTP3_ERR_WOULDBLOCK, nghttp3_conn_writev_stream returns 0 with stream_id -1 although other streams have data.
* `C49_priority_unbound_refuted` - nghttp3_conn_set_client_stream_priority dereferences conn->tx.ctrl without checking that a control
  stream has been bound (conn.c 2568-2607).
* `C49_element_id_refuted` - the defect of `C27_abort_refuted` through nghttp3_conn_read_stream: nine bytes from a client abort a server.

- C52_limit_refuted: nghttp3_map_insert computes `1u << hashbits` and `(1u << hashbits) * 3` in 32 bits. With 805306368 entries one more insertion grows the table to 2^31 buckets; then the product wraps to 2^31, so that the next insertion grows it again and shifts by 32, which is undefined. Out of reach in practice (51 GB of buckets).

- C53_update_key_refuted: nghttp3_ksl_update_key documents that the new key must lie strictly between the neighbours' keys. After the greatest key of a leaf has been removed its parent keeps the old key as a bound; a key of the next leaf lowered below that bound is then looked for in the wrong leaf: nghttp3_ksl_remove answers INVALID_ARGUMENT although the entry is there. nghttp3's own caller (nghttp3_gaptr_push) only keeps or raises the key, which C53_ksl covers.
- C53_remove_iterator_refuted: nghttp3_ksl_remove documents that `*it` becomes the end iterator when the key is not found; when the index has no head block (never filled, or cleared) it returns without assigning `*it`.

* C56: `nghttp3_qpack_stream_context_reset` (public API) sets the read state to zero without dropping the half-read
  name and value; if called in the middle of a field line they leak (C56_reset_midway_refuted).  conn.c calls it only
  between sections.
- **nghttp3_conn_shutdown_stream_read on a blocked stream** (C61_still_counts_refuted): lib/nghttp3_conn.c:2456-2476 sends a Stream Cancellation but leaves the stream in `qpack_blocked_streams`; it still counts when on_headers compares nghttp3_pq_size with SETTINGS_QPACK_BLOCKED_STREAMS. For the peer's encoder the cancelled stream no longer counts (RFC 9204 2.1.2, 2.2.2.2), so its next blocked section, on another stream, is refused as QPACK_DECOMPRESSION_FAILED and the connection dies. C61_own_encoder_refuted: nghttp3's own encoder (one blocked stream allowed) emits exactly these bytes after it is fed the Stream Cancellation, so two nghttp3 endpoints can run into it.

## 5. Assumptions reported

Every property theorem so far: "Closed under the global context" (no axioms).
Build tools report the axioms `Coq.ssr.ssrunder.*` as present in loaded libraries (they are fields of a
module type of the standard library loaded by `lia`/`ZifyBool`); no theorem depends on them.
