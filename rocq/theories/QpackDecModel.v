(* Model of the QPACK decoder, lib/nghttp3_qpack.c:2657-4070. *)
From Verif Require Import Base Tables QpackIntModel HuffModel QpackTabModel Chunk.

Definition MAX_NAMELEN : Z := 256.       (* lib/nghttp3_qpack.h:47 *)
Definition MAX_VALUELEN : Z := 65536.    (* lib/nghttp3_qpack.h:50 *)
Definition MAX_ENCODERLEN : Z := 131072. (* lib/nghttp3_qpack.h:54 *)

(* nghttp3_qpack_read_state, lib/nghttp3_qpack.h:182-195.  The buffers carry their
   allocated size (without the byte reserved for the final NUL). *)
Record rstate := mk_rs { r_huff : Z; r_name : list Z; r_ncap : Z; r_value : list Z; r_vcap : Z;
                         r_left : Z; r_prefix : Z; r_shift : Z; r_absidx : Z;
                         r_never : bool; r_dynamic : bool; r_hufenc : bool }.
(* lib/nghttp3_qpack.c:2668-2681 nghttp3_qpack_read_state_reset (huffman_ctx is left
   alone in C and always re-initialised before use) *)
Definition rs_reset : rstate := mk_rs huff_init [] 0 [] 0 0 0 0 0 false false false.
Definition rs_set_int (r : rstate) (left shift : Z) : rstate :=
  mk_rs (r_huff r) (r_name r) (r_ncap r) (r_value r) (r_vcap r) left (r_prefix r) shift
        (r_absidx r) (r_never r) (r_dynamic r) (r_hufenc r).
Definition rs_set_prefix (r : rstate) (p : Z) : rstate :=
  mk_rs (r_huff r) (r_name r) (r_ncap r) (r_value r) (r_vcap r) (r_left r) p (r_shift r)
        (r_absidx r) (r_never r) (r_dynamic r) (r_hufenc r).
Definition rs_set_op (r : rstate) (p : Z) (never dynamic : bool) : rstate :=
  mk_rs (r_huff r) (r_name r) (r_ncap r) (r_value r) (r_vcap r) (r_left r) p (r_shift r)
        (r_absidx r) never dynamic (r_hufenc r).
Definition rs_set_absidx (r : rstate) (i : Z) : rstate :=
  mk_rs (r_huff r) (r_name r) (r_ncap r) (r_value r) (r_vcap r) (r_left r) (r_prefix r) (r_shift r)
        i (r_never r) (r_dynamic r) (r_hufenc r).
(* lib/nghttp3_qpack.c:2776-2779 qpack_read_state_check_huffman, and the reset of left and
   shift that follows in both callers *)
Definition rs_check_huffman (r : rstate) (b : Z) : rstate :=
  mk_rs (r_huff r) (r_name r) (r_ncap r) (r_value r) (r_vcap r) 0 (r_prefix r) 0
        (r_absidx r) (r_never r) (r_dynamic r) (negb (Z.land b (2 ^ r_prefix r) =? 0)).
(* allocation of the name (value) buffer, e.g. lib/nghttp3_qpack.c:2927-2943 *)
Definition rs_alloc_name (r : rstate) : rstate :=
  mk_rs (if r_hufenc r then huff_init else r_huff r) []
        (if r_hufenc r then r_left r * 2 else r_left r) (r_value r) (r_vcap r)
        (r_left r) (r_prefix r) (r_shift r) (r_absidx r) (r_never r) (r_dynamic r) (r_hufenc r).
Definition rs_alloc_value (r : rstate) : rstate :=
  mk_rs (if r_hufenc r then huff_init else r_huff r) (r_name r) (r_ncap r) []
        (if r_hufenc r then r_left r * 2 else r_left r)
        (r_left r) (r_prefix r) (r_shift r) (r_absidx r) (r_never r) (r_dynamic r) (r_hufenc r).
Definition rs_set_name (r : rstate) (left huff : Z) (name : list Z) : rstate :=
  mk_rs huff name (r_ncap r) (r_value r) (r_vcap r) left (r_prefix r) (r_shift r)
        (r_absidx r) (r_never r) (r_dynamic r) (r_hufenc r).
Definition rs_set_value (r : rstate) (left huff : Z) (value : list Z) : rstate :=
  mk_rs huff (r_name r) (r_ncap r) value (r_vcap r) left (r_prefix r) (r_shift r)
        (r_absidx r) (r_never r) (r_dynamic r) (r_hufenc r).

(* Reading (part of) a string into a buffer of size [cap] already holding [buf]:
   qpack_read_huffman_string / qpack_read_string, lib/nghttp3_qpack.c:2704-2750.
   Writing past the buffer is Abort. *)
Definition read_str (huf : bool) (left fs : Z) (buf : list Z) (cap : Z) (p : list Z)
  : outcome (Z * Z * list Z * list Z) :=
  if huf then
    match read_huffman_string left fs p with
    | Ok (left', fs', out, rest) =>
        if zlen (buf ++ out) >? cap then Abort else Ok (left', fs', buf ++ out, rest)
    | Err e => Err e
    | Abort => Abort
    end
  else
    let n := Z.min (zlen p) left in
    let buf' := buf ++ firstn (Z.to_nat n) p in
    if zlen buf' >? cap then Abort else Ok (left - n, fs, buf', skipn (Z.to_nat n) p).

(* lib/nghttp3_qpack.h: nghttp3_qpack_encoder_stream_state / _opcode *)
Inductive es_state := EsOpcode | EsReadIndex | EsCheckNameHuffman | EsReadNamelen
  | EsReadNameHuffman | EsReadName | EsCheckValueHuffman | EsReadValuelen
  | EsReadValueHuffman | EsReadValue.
Inductive es_opcode := OpInsertIndexed | OpInsert | OpDuplicate | OpSetCap.

(* struct nghttp3_qpack_decoder *)
Record dec := mk_dec { d_ctx : ctx; d_state : es_state; d_op : es_opcode; d_rs : rstate;
                       d_dbuf : list Z; d_written : Z; d_maxconc : Z; d_unint : Z;
                       d_seen : list Z }. (* not in the C struct, and read by nothing in the model: every
                                             byte given to nghttp3_qpack_decoder_read_encoder so far *)
(* lib/nghttp3_qpack.c:2683-2699 nghttp3_qpack_decoder_init *)
Definition dec_init (hard blocked : Z) : dec :=
  mk_dec (ctx_init hard blocked) EsOpcode OpInsertIndexed rs_reset [] 0 0 0 [].
Definition d_set (d : dec) (st : es_state) (r : rstate) : dec :=
  mk_dec (d_ctx d) st (d_op d) r (d_dbuf d) (d_written d) (d_maxconc d) (d_unint d) (d_seen d).
Definition d_set_op (d : dec) (st : es_state) (op : es_opcode) (r : rstate) : dec :=
  mk_dec (d_ctx d) st op r (d_dbuf d) (d_written d) (d_maxconc d) (d_unint d) (d_seen d).
Definition d_set_ctx (d : dec) (c : ctx) : dec :=
  mk_dec c (d_state d) (d_op d) (d_rs d) (d_dbuf d) (d_written d) (d_maxconc d) (d_unint d) (d_seen d).
Definition d_set_unint (d : dec) (u : Z) : dec :=
  mk_dec (d_ctx d) (d_state d) (d_op d) (d_rs d) (d_dbuf d) (d_written d) (d_maxconc d) u (d_seen d).
(* the input is counted, lib/nghttp3_qpack.c:2809-2812 *)
Definition d_got (d : dec) (src : list Z) : dec :=
  mk_dec (d_ctx d) (d_state d) (d_op d) (d_rs d) (d_dbuf d) (d_written d) (d_maxconc d) (d_unint d + zlen src) (d_seen d ++ src).
Definition d_set_dbuf (d : dec) (b : list Z) (w : Z) : dec :=
  mk_dec (d_ctx d) (d_state d) (d_op d) (d_rs d) b w (d_maxconc d) (d_unint d) (d_seen d).
(* "goto fail": ctx.bad is set.  Every later call returns before looking at the reader's
   state, so the model resets it. *)
Definition d_fail (d : dec) : dec :=
  mk_dec (ctx_bad (d_ctx d)) EsOpcode OpInsertIndexed rs_reset (d_dbuf d) (d_written d) (d_maxconc d) (d_unint d) (d_seen d).

(* lib/nghttp3_qpack.c:2761-2774 qpack_decoder_validate_index *)
Definition validate_index (c : ctx) (r : rstate) : bool :=
  if r_dynamic r then
    (r_absidx r <? next_absidx c) && (next_absidx c - r_absidx r - 1 <? zlen (dtable c))
  else r_absidx r <? stable_len.

(* lib/nghttp3_qpack.c:3117-3147 nghttp3_qpack_decoder_set_max_dtable_capacity *)
Definition dec_set_cap (c : ctx) (cap : Z) : outcome ctx :=
  if cap >? hard_max c then Err ERR_INVALID_ARGUMENT
  else match evict_loop (rev (dtable c)) (dtable_size c) 0 cap with
       | Ok (l, size) => Ok (mk_ctx (rev l) size (dtable_sum c) (hard_max c) cap (max_blocked c)
                                    (next_absidx c) (bad c))
       | Err e => Err e
       | Abort => Abort
       end.

(* lib/nghttp3_qpack.c:3889-3907 nghttp3_qpack_decoder_rel2abs *)
Definition rel2abs (c : ctx) (r : rstate) : outcome rstate :=
  if r_dynamic r && (next_absidx c <? r_left r + 1) then Err ERR_QPACK_ENCODER_STREAM_ERROR
  else
    let r' := rs_set_absidx r (if r_dynamic r then next_absidx c - r_left r - 1 else r_left r) in
    if validate_index c r' then Ok r' else Err ERR_QPACK_ENCODER_STREAM_ERROR.

(* insertion guarded by the size check common to lib/nghttp3_qpack.c:3160-3265 *)
Definition dec_add (c : ctx) (name value : list Z) (token : Z) : outcome ctx :=
  if table_space (zlen name) (zlen value) >? max_cap c then Err ERR_QPACK_ENCODER_STREAM_ERROR
  else dtable_add c name value token 0.
(* lib/nghttp3_qpack.c:3149-3209 nghttp3_qpack_decoder_dtable_indexed_add,
   _static_add, _dynamic_add *)
Definition dec_indexed_add (c : ctx) (r : rstate) : outcome ctx :=
  if r_dynamic r then
    match dtable_get c (r_absidx r) with
    | None => Abort
    | Some e => dec_add c (e_name e) (r_value r) (e_token e)
    end
  else
    match stable_get (r_absidx r) with
    | None => Abort
    | Some (n, _, t) => dec_add c n (r_value r) t
    end.
(* lib/nghttp3_qpack.c:3211-3237 nghttp3_qpack_decoder_dtable_duplicate_add *)
Definition dec_duplicate_add (c : ctx) (r : rstate) : outcome ctx :=
  match dtable_get c (r_absidx r) with
  | None => Abort
  | Some e => dec_add c (e_name e) (e_value e) (e_token e)
  end.
(* lib/nghttp3_qpack.c:3239-3268 nghttp3_qpack_decoder_dtable_literal_add *)
Definition dec_literal_add (c : ctx) (r : rstate) : outcome ctx :=
  dec_add c (r_name r) (r_value r) (lookup_token (r_name r)).

Definition es_fail (e : Z) (d : dec) : sres dec unit := SErr e (d_fail d) [].
Definition es_done (d : dec) (c : ctx) (rest : list Z) : sres dec unit :=
  SGo (d_set (d_set_ctx d c) EsOpcode rs_reset) rest false [].

(* One turn of the loop of nghttp3_qpack_decoder_read_encoder,
   lib/nghttp3_qpack.c:2822-3108 *)
Definition es_read_index (d : dec) (p : list Z) : sres dec unit :=
  let r := d_rs d in
  match q_read_varint (r_prefix r) (r_left r) (r_shift r) p with
  | Abort => SAbort
  | Err _ => es_fail ERR_QPACK_ENCODER_STREAM_ERROR d
  | Ok (l, s, rest, false) => SMore (d_set d EsReadIndex (rs_set_int r l s)) []
  | Ok (l, s, rest, true) =>
    let r := rs_set_int r l s in
    match d_op d with
    | OpSetCap =>
      match dec_set_cap (d_ctx d) l with
      | Ok c => es_done d c rest
      | Err _ => es_fail ERR_QPACK_ENCODER_STREAM_ERROR d
      | Abort => SAbort
      end
    | op =>
      match rel2abs (d_ctx d) r with
      | Err e => es_fail e d
      | Abort => SAbort
      | Ok r =>
        match op with
        | OpDuplicate =>
          match dec_duplicate_add (d_ctx d) r with
          | Ok c => es_done d c rest
          | Err e => es_fail e d
          | Abort => SAbort
          end
        | OpInsertIndexed => SGo (d_set d EsCheckValueHuffman (rs_set_prefix r 7)) rest false []
        | _ => SAbort
        end
      end
    end
  end.
Definition es_read_namelen (d : dec) (r : rstate) (p : list Z) : sres dec unit :=
  match q_read_varint (r_prefix r) (r_left r) (r_shift r) p with
  | Abort => SAbort
  | Err _ => es_fail ERR_QPACK_ENCODER_STREAM_ERROR d
  | Ok (l, s, rest, false) => SMore (d_set d EsReadNamelen (rs_set_int r l s)) []
  | Ok (l, s, rest, true) =>
    if l >? MAX_NAMELEN then es_fail ERR_QPACK_HEADER_TOO_LARGE d
    else SGo (d_set d (if r_hufenc r then EsReadNameHuffman else EsReadName)
                    (rs_alloc_name (rs_set_int r l s))) rest false []
  end.
Definition es_read_valuelen (d : dec) (r : rstate) (p : list Z) : sres dec unit :=
  match q_read_varint (r_prefix r) (r_left r) (r_shift r) p with
  | Abort => SAbort
  | Err _ => es_fail ERR_QPACK_ENCODER_STREAM_ERROR d
  | Ok (l, s, rest, false) => SMore (d_set d EsReadValuelen (rs_set_int r l s)) []
  | Ok (l, s, rest, true) =>
    if l >? MAX_VALUELEN then es_fail ERR_QPACK_HEADER_TOO_LARGE d
    else SGo (d_set d (if r_hufenc r then EsReadValueHuffman else EsReadValue)
                    (rs_alloc_value (rs_set_int r l s))) rest true []
  end.
Definition es_read_name (huf : bool) (d : dec) (p : list Z) : sres dec unit :=
  let r := d_rs d in
  match read_str huf (r_left r) (r_huff r) (r_name r) (r_ncap r) p with
  | Abort => SAbort
  | Err _ => es_fail ERR_QPACK_ENCODER_STREAM_ERROR d
  | Ok (lft, fs, name, rest) =>
    let r := rs_set_name r lft fs name in
    if negb (lft =? 0) then SMore (d_set d (d_state d) r) []
    else SGo (d_set d EsCheckValueHuffman (rs_set_prefix r 7)) rest false []
  end.
Definition es_read_value (huf : bool) (d : dec) (p : list Z) : sres dec unit :=
  let r := d_rs d in
  match read_str huf (r_left r) (r_huff r) (r_value r) (r_vcap r) p with
  | Abort => SAbort
  | Err _ => es_fail ERR_QPACK_ENCODER_STREAM_ERROR d
  | Ok (lft, fs, value, rest) =>
    let r := rs_set_value r lft fs value in
    if negb (lft =? 0) then SMore (d_set d (d_state d) r) []
    else match (match d_op d with
                | OpInsertIndexed => dec_indexed_add (d_ctx d) r
                | OpInsert => dec_literal_add (d_ctx d) r
                | _ => Abort
                end) with
         | Ok c => es_done d c rest
         | Err e => es_fail e d
         | Abort => SAbort
         end
  end.
Definition es_step (d : dec) (p : list Z) : sres dec unit :=
  match d_state d with
  | EsOpcode =>
    match p with
    | [] => SAbort
    | b :: _ =>
      let op := Z.land b 224 in
      let r := d_rs d in
      if 128 <=? op then
        SGo (d_set_op d EsReadIndex OpInsertIndexed
               (rs_set_op r 6 (r_never r) (Z.land b 64 =? 0))) p false []
      else if (op =? 64) || (op =? 96) then
        SGo (d_set_op d EsCheckNameHuffman OpInsert (rs_set_op r 5 (r_never r) false)) p false []
      else if op =? 32 then
        SGo (d_set_op d EsReadIndex OpSetCap (rs_set_op r 5 (r_never r) (r_dynamic r))) p false []
      else
        SGo (d_set_op d EsReadIndex OpDuplicate (rs_set_op r 5 (r_never r) true)) p false []
    end
  | EsReadIndex => es_read_index d p
  | EsCheckNameHuffman =>
    match p with
    | [] => SAbort
    | b :: _ => es_read_namelen d (rs_check_huffman (d_rs d) b) p
    end
  | EsReadNamelen => es_read_namelen d (d_rs d) p
  | EsReadNameHuffman => es_read_name true d p
  | EsReadName => es_read_name false d p
  | EsCheckValueHuffman =>
    match p with
    | [] => SAbort
    | b :: _ => es_read_valuelen d (rs_check_huffman (d_rs d) b) p
    end
  | EsReadValuelen => es_read_valuelen d (d_rs d) p
  | EsReadValueHuffman => es_read_value true d p
  | EsReadValue => es_read_value false d p
  end.
Definition es_rank (d : dec) : nat :=
  match d_state d with
  | EsReadValueHuffman | EsReadValue => 6
  | EsOpcode => 5
  | EsCheckNameHuffman => 4
  | EsReadNameHuffman | EsReadName => 3
  | _ => 1
  end.
Definition es_run (d : dec) (p : list Z) : rres dec unit := run es_step 8 es_rank d p false.

(* lib/nghttp3_qpack.c:2793-3115 nghttp3_qpack_decoder_read_encoder: new decoder and
   number of bytes read (the whole input), or an error. *)
Definition read_encoder (d : dec) (src : list Z) : dec * outcome Z :=
  if bad (d_ctx d) then (d, Err ERR_QPACK_FATAL)
  else match src with
  | [] => (d, Ok 0)
  | _ =>
    let d := d_got d src in
    if d_unint d >? MAX_ENCODERLEN then (d, Err ERR_QPACK_ENCODER_STREAM_ERROR)
    else match es_run d src with
         | ROk d' _ => (d', Ok (zlen src))
         | RErr e d' _ => (d', Err e)
         | _ => (d, Abort)
         end
  end.

(* ---------------- field sections ---------------- *)
Inductive rs_state := RsRicnt | RsDbaseSign | RsDbase | RsOpcode | RsReadIndex
  | RsCheckNameHuffman | RsReadNamelen | RsReadNameHuffman | RsReadName
  | RsCheckValueHuffman | RsReadValuelen | RsReadValueHuffman | RsReadValue | RsBlocked.
Inductive rs_opcode := RoIndexed | RoIndexedPb | RoIndexedName | RoIndexedNamePb | RoLiteral.
(* struct nghttp3_qpack_stream_context *)
Record sctx := mk_sctx { s_state : rs_state; s_op : rs_opcode; s_rs : rstate; s_id : Z;
                         s_ricnt : Z; s_sign : bool; s_base : Z }.
(* lib/nghttp3_qpack.c:3276-3289 nghttp3_qpack_stream_context_init *)
Definition sctx_init (id : Z) : sctx :=
  mk_sctx RsRicnt RoIndexed (rs_set_prefix rs_reset 8) id 0 false 0.
Definition s_set (s : sctx) (st : rs_state) (r : rstate) : sctx :=
  mk_sctx st (s_op s) r (s_id s) (s_ricnt s) (s_sign s) (s_base s).
Definition s_set_op (s : sctx) (st : rs_state) (op : rs_opcode) (r : rstate) : sctx :=
  mk_sctx st op r (s_id s) (s_ricnt s) (s_sign s) (s_base s).
Definition s_set_ricnt (s : sctx) (n : Z) : sctx :=
  mk_sctx (s_state s) (s_op s) (s_rs s) (s_id s) n (s_sign s) (s_base s).
Definition s_set_sign (s : sctx) (b : bool) : sctx :=
  mk_sctx (s_state s) (s_op s) (s_rs s) (s_id s) (s_ricnt s) b (s_base s).
Definition s_set_base (s : sctx) (b : Z) : sctx :=
  mk_sctx (s_state s) (s_op s) (s_rs s) (s_id s) (s_ricnt s) (s_sign s) b.

(* lib/nghttp3_qpack.c:3853-3887 nghttp3_qpack_decoder_reconstruct_ricnt *)
Definition reconstruct_ricnt (c : ctx) (encricnt : Z) : outcome Z :=
  if encricnt =? 0 then Ok 0
  else
    let max_ents := hard_max c / 32 in
    let full := 2 * max_ents in
    if encricnt >? full then Err ERR_QPACK_DECOMPRESSION_FAILED
    else if full =? 0 then Abort (* division by zero *)
    else
      let mx := next_absidx c + max_ents in
      let max_wrapped := mx / full * full in
      let ricnt := max_wrapped + encricnt - 1 in
      if (ricnt >? mx) && (ricnt <=? full) then Err ERR_QPACK_DECOMPRESSION_FAILED
      else
        let ricnt := if ricnt >? mx then ricnt - full else ricnt in
        if ricnt =? 0 then Err ERR_QPACK_DECOMPRESSION_FAILED else Ok ricnt.

(* lib/nghttp3_qpack.c:3909-3935 nghttp3_qpack_decoder_brel2abs *)
Definition brel2abs (c : ctx) (s : sctx) (r : rstate) : outcome rstate :=
  if r_dynamic r && (s_base s <? r_left r + 1) then Err ERR_QPACK_DECOMPRESSION_FAILED
  else
    let r' := rs_set_absidx r (if r_dynamic r then s_base s - r_left r - 1 else r_left r) in
    if r_dynamic r && (r_absidx r' >=? s_ricnt s) then Err ERR_QPACK_DECOMPRESSION_FAILED
    else if validate_index c r' then Ok r' else Err ERR_QPACK_DECOMPRESSION_FAILED.
(* lib/nghttp3_qpack.c:3937-3955 nghttp3_qpack_decoder_pbrel2abs *)
Definition pbrel2abs (c : ctx) (s : sctx) (r : rstate) : outcome rstate :=
  if negb (r_dynamic r) then Abort
  else
    let r' := rs_set_absidx r (r_left r + s_base s) in
    if r_absidx r' >=? s_ricnt s then Err ERR_QPACK_DECOMPRESSION_FAILED
    else if validate_index c r' then Ok r' else Err ERR_QPACK_DECOMPRESSION_FAILED.

(* lib/nghttp3_qpack.c:3957-3996 nghttp3_qpack_decoder_emit_indexed *)
Definition emit_indexed (c : ctx) (r : rstate) : outcome qnv :=
  if r_dynamic r then
    match dtable_get c (r_absidx r) with
    | None => Abort
    | Some e => Ok (mk_qnv (e_name e) (e_value e) (e_token e) 0)
    end
  else match stable_get (r_absidx r) with
       | None => Abort
       | Some (n, v, t) => Ok (mk_qnv n v t 0)
       end.
Definition never_flag (r : rstate) : Z := if r_never r then FLAG_NEVER_INDEX else 0.
(* lib/nghttp3_qpack.c:3998-4059 nghttp3_qpack_decoder_emit_indexed_name *)
Definition emit_indexed_name (c : ctx) (r : rstate) : outcome qnv :=
  if r_dynamic r then
    if negb (validate_index c r) then Err ERR_QPACK_DECOMPRESSION_FAILED
    else match dtable_get c (r_absidx r) with
         | None => Abort
         | Some e => Ok (mk_qnv (e_name e) (r_value r) (e_token e) (never_flag r))
         end
  else match stable_get (r_absidx r) with
       | None => Abort
       | Some (n, _, t) => Ok (mk_qnv n (r_value r) t (never_flag r))
       end.
(* lib/nghttp3_qpack.c:4061-4078 nghttp3_qpack_decoder_emit_literal *)
Definition emit_literal (r : rstate) : qnv :=
  mk_qnv (r_name r) (r_value r) (lookup_token (r_name r)) (never_flag r).

(* One turn of the loop of nghttp3_qpack_decoder_read_request,
   lib/nghttp3_qpack.c:3318-3714.  "return p - src" with the EMIT flag is SGo with the
   emitted field as event: the caller calls again with the rest of the input (the loop of
   nghttp3_conn.c:1551-1655; [read_request] below is the single call).  The BLOCKED
   flag is SStop.  The decoder's table is not changed by these steps. *)
(* after a failure the decoder is bad and the stream context is not looked at again: the
   model resets it *)
Definition rs_fail (e : Z) (s : sctx) : sres sctx qnv := SErr e (sctx_init (s_id s)) [].
Definition rs_emit (s : sctx) (v : qnv) (rest : list Z) : sres sctx qnv :=
  SGo (s_set s RsOpcode rs_reset) rest false [v].
Definition rs_read_ricnt (c : ctx) (s : sctx) (p : list Z) : sres sctx qnv :=
  let r := s_rs s in
  match q_read_varint (r_prefix r) (r_left r) (r_shift r) p with
  | Abort => SAbort
  | Err _ => rs_fail ERR_QPACK_DECOMPRESSION_FAILED s
  | Ok (l, sh, rest, false) => SMore (s_set s RsRicnt (rs_set_int r l sh)) []
  | Ok (l, sh, rest, true) =>
    match reconstruct_ricnt c l with
    | Ok n => SGo (s_set (s_set_ricnt s n) RsDbaseSign (rs_set_int r l sh)) rest false []
    | Err e => rs_fail e s
    | Abort => SAbort
    end
  end.
Definition rs_read_dbase (c : ctx) (s : sctx) (r : rstate) (p : list Z) : sres sctx qnv :=
  match q_read_varint (r_prefix r) (r_left r) (r_shift r) p with
  | Abort => SAbort
  | Err _ => rs_fail ERR_QPACK_DECOMPRESSION_FAILED s
  | Ok (l, sh, rest, false) => SMore (s_set s RsDbase (rs_set_int r l sh)) []
  | Ok (l, sh, rest, true) =>
    if s_sign s && (s_ricnt s <=? l) then rs_fail ERR_QPACK_DECOMPRESSION_FAILED s
    else
      let s := s_set_base s (if s_sign s then s_ricnt s - l - 1 else s_ricnt s + l) in
      if s_ricnt s >? next_absidx c then SStop (s_set s RsBlocked (rs_set_int r l sh)) rest []
      else SGo (s_set s RsOpcode (rs_set_int r 0 0)) rest false []
  end.
Definition rs_read_index (c : ctx) (s : sctx) (p : list Z) : sres sctx qnv :=
  let r := s_rs s in
  match q_read_varint (r_prefix r) (r_left r) (r_shift r) p with
  | Abort => SAbort
  | Err _ => rs_fail ERR_QPACK_DECOMPRESSION_FAILED s
  | Ok (l, sh, rest, false) => SMore (s_set s RsReadIndex (rs_set_int r l sh)) []
  | Ok (l, sh, rest, true) =>
    let r := rs_set_int r l sh in
    match (match s_op s with
           | RoIndexed | RoIndexedName => brel2abs c s r
           | RoIndexedPb | RoIndexedNamePb => pbrel2abs c s r
           | RoLiteral => Abort
           end) with
    | Abort => SAbort
    | Err e => rs_fail e s
    | Ok r =>
      match s_op s with
      | RoIndexed | RoIndexedPb =>
        match emit_indexed c r with
        | Ok v => rs_emit s v rest
        | Err e => rs_fail e s
        | Abort => SAbort
        end
      | _ => SGo (s_set s RsCheckValueHuffman (rs_set_prefix r 7)) rest false []
      end
    end
  end.
Definition rs_read_namelen (s : sctx) (r : rstate) (p : list Z) : sres sctx qnv :=
  match q_read_varint (r_prefix r) (r_left r) (r_shift r) p with
  | Abort => SAbort
  | Err _ => rs_fail ERR_QPACK_DECOMPRESSION_FAILED s
  | Ok (l, sh, rest, false) => SMore (s_set s RsReadNamelen (rs_set_int r l sh)) []
  | Ok (l, sh, rest, true) =>
    if l >? MAX_NAMELEN then rs_fail ERR_QPACK_HEADER_TOO_LARGE s
    else SGo (s_set s (if r_hufenc r then RsReadNameHuffman else RsReadName)
                    (rs_alloc_name (rs_set_int r l sh))) rest false []
  end.
Definition rs_read_valuelen (s : sctx) (r : rstate) (p : list Z) : sres sctx qnv :=
  match q_read_varint (r_prefix r) (r_left r) (r_shift r) p with
  | Abort => SAbort
  | Err _ => rs_fail ERR_QPACK_DECOMPRESSION_FAILED s
  | Ok (l, sh, rest, false) => SMore (s_set s RsReadValuelen (rs_set_int r l sh)) []
  | Ok (l, sh, rest, true) =>
    if l >? MAX_VALUELEN then rs_fail ERR_QPACK_HEADER_TOO_LARGE s
    else SGo (s_set s (if r_hufenc r then RsReadValueHuffman else RsReadValue)
                    (rs_alloc_value (rs_set_int r l sh))) rest true []
  end.
Definition rs_read_name (huf : bool) (s : sctx) (p : list Z) : sres sctx qnv :=
  let r := s_rs s in
  match read_str huf (r_left r) (r_huff r) (r_name r) (r_ncap r) p with
  | Abort => SAbort
  | Err _ => rs_fail ERR_QPACK_DECOMPRESSION_FAILED s
  | Ok (lft, fs, name, rest) =>
    let r := rs_set_name r lft fs name in
    if negb (lft =? 0) then SMore (s_set s (s_state s) r) []
    else SGo (s_set s RsCheckValueHuffman (rs_set_prefix r 7)) rest false []
  end.
Definition rs_read_value (c : ctx) (huf : bool) (s : sctx) (p : list Z) : sres sctx qnv :=
  let r := s_rs s in
  match read_str huf (r_left r) (r_huff r) (r_value r) (r_vcap r) p with
  | Abort => SAbort
  | Err _ => rs_fail ERR_QPACK_DECOMPRESSION_FAILED s
  | Ok (lft, fs, value, rest) =>
    let r := rs_set_value r lft fs value in
    if negb (lft =? 0) then SMore (s_set s (s_state s) r) []
    else match (match s_op s with
                | RoIndexedName | RoIndexedNamePb => emit_indexed_name c r
                | RoLiteral => Ok (emit_literal r)
                | _ => Abort
                end) with
         | Ok v => rs_emit s v rest
         | Err e => rs_fail e s
         | Abort => SAbort
         end
  end.
Definition rs_opcode_step (s : sctx) (b : Z) (p : list Z) : sres sctx qnv :=
  let r := s_rs s in
  if negb (r_left r =? 0) || negb (r_shift r =? 0) then SAbort
  else
    let op := Z.land b 240 in
    if 128 <=? op then
      SGo (s_set_op s RsReadIndex RoIndexed (rs_set_op r 6 (r_never r) (Z.land b 64 =? 0))) p false []
    else if 64 <=? op then
      SGo (s_set_op s RsReadIndex RoIndexedName
             (rs_set_op r 4 (negb (Z.land b 32 =? 0)) (Z.land b 16 =? 0))) p false []
    else if (op =? 32) || (op =? 48) then
      SGo (s_set_op s RsCheckNameHuffman RoLiteral
             (rs_set_op r 3 (negb (Z.land b 16 =? 0)) false)) p false []
    else if op =? 16 then
      SGo (s_set_op s RsReadIndex RoIndexedPb (rs_set_op r 4 (r_never r) true)) p false []
    else
      SGo (s_set_op s RsReadIndex RoIndexedNamePb
             (rs_set_op r 3 (negb (Z.land b 8 =? 0)) true)) p false [].
Definition rs_step (c : ctx) (s : sctx) (p : list Z) : sres sctx qnv :=
  match s_state s with
  | RsRicnt => rs_read_ricnt c s p
  | RsDbaseSign =>
    match p with
    | [] => SAbort
    | b :: _ =>
      let s := if negb (Z.land b 128 =? 0) then s_set_sign s true else s in
      rs_read_dbase c s (rs_set_int (rs_set_prefix (s_rs s) 7) 0 0) p
    end
  | RsDbase => rs_read_dbase c s (s_rs s) p
  | RsOpcode => match p with [] => SAbort | b :: _ => rs_opcode_step s b p end
  | RsReadIndex => rs_read_index c s p
  | RsCheckNameHuffman =>
    match p with
    | [] => SAbort
    | b :: _ => rs_read_namelen s (rs_check_huffman (s_rs s) b) p
    end
  | RsReadNamelen => rs_read_namelen s (s_rs s) p
  | RsReadNameHuffman => rs_read_name true s p
  | RsReadName => rs_read_name false s p
  | RsCheckValueHuffman =>
    match p with
    | [] => SAbort
    | b :: _ => rs_read_valuelen s (rs_check_huffman (s_rs s) b) p
    end
  | RsReadValuelen => rs_read_valuelen s (s_rs s) p
  | RsReadValueHuffman => rs_read_value c true s p
  | RsReadValue => rs_read_value c false s p
  | RsBlocked =>
    if s_ricnt s >? next_absidx c then SStop s p []
    else SGo (s_set s RsOpcode rs_reset) p false []
  end.
Definition rs_rank (s : sctx) : nat :=
  match s_state s with
  | RsReadValueHuffman | RsReadValue | RsBlocked => 6
  | RsOpcode => 5
  | RsCheckNameHuffman => 4
  | RsReadNameHuffman | RsReadName => 3
  | _ => 1
  end.
(* Repeated calls until the input is consumed, without fin. *)
Definition rs_run (c : ctx) (s : sctx) (p : list Z) : rres sctx qnv :=
  run (rs_step c) 8 rs_rank s p false.

(* ---------------- decoder stream output ---------------- *)
(* lib/nghttp3_qpack.c:3749-3753 qpack_decoder_dbuf_overflow *)
Definition dbuf_overflow (d : dec) : bool := zlen (d_dbuf d) >? Z.max (d_maxconc d) 100 * 2 * 10.
(* lib/nghttp3_qpack.c:3755-3781 nghttp3_qpack_decoder_write_section_ack *)
Definition write_section_ack (d : dec) (s : sctx) : outcome dec :=
  if dbuf_overflow d then Err ERR_QPACK_FATAL
  else Ok (d_set_dbuf d (d_dbuf d ++ q_put_varint 128 (s_id s) 7)
                      (if d_written d <? s_ricnt s then s_ricnt s else d_written d)).
(* lib/nghttp3_qpack.c:3783-3793 nghttp3_qpack_decoder_get_decoder_streamlen *)
Definition get_decoder_streamlen (d : dec) : Z :=
  zlen (d_dbuf d) + (if d_written d <? next_absidx (d_ctx d)
                     then q_put_varint_len (next_absidx (d_ctx d) - d_written d) 6 else 0).
(* lib/nghttp3_qpack.c:3795-3825 nghttp3_qpack_decoder_write_decoder; [left] is the room in
   the caller's buffer *)
Definition write_decoder (d : dec) (left : Z) : outcome (dec * list Z) :=
  if left <? get_decoder_streamlen d then Abort
  else if d_written d <? next_absidx (d_ctx d) then
    Ok (d_set_dbuf d [] (next_absidx (d_ctx d)),
        d_dbuf d ++ q_put_varint 0 (next_absidx (d_ctx d) - d_written d) 6)
  else Ok (d_set_dbuf d [] (d_written d), d_dbuf d).
(* lib/nghttp3_qpack.c:3827-3851 nghttp3_qpack_decoder_cancel_stream *)
Definition dec_cancel_stream (d : dec) (id : Z) : outcome dec :=
  if (id <? 0) || (id >? max_varint) then Abort
  else if dbuf_overflow d then Err ERR_QPACK_FATAL
  else Ok (d_set_dbuf d (d_dbuf d ++ q_put_varint 64 id 6) (d_written d)).
(* lib/nghttp3_qpack.c:3270-3274 nghttp3_qpack_decoder_set_max_concurrent_streams *)
Definition dec_set_max_concurrent (d : dec) (n : Z) : dec :=
  mk_dec (d_ctx d) (d_state d) (d_op d) (d_rs d) (d_dbuf d) (d_written d)
         (Z.max (d_maxconc d) n) (d_unint d) (d_seen d).

(* lib/nghttp3_qpack.c:3716-3740: after the loop ("almost_ok"), when fin is set *)
Definition read_request_fin (d : dec) (s : sctx) : outcome dec :=
  match s_state s with
  | RsOpcode =>
    match (if s_ricnt s =? 0 then Ok d else write_section_ack d s) with
    | Ok d => Ok (d_set_unint d 0)
    | Err e => Err e
    | Abort => Abort
    end
  | _ => Err ERR_QPACK_DECOMPRESSION_FAILED
  end.

(* A single call of nghttp3_qpack_decoder_read_request, lib/nghttp3_qpack.c:3301-3747. *)
Inductive rq_res :=
| RqEmit (s : sctx) (v : qnv) (rest : list Z)  (* flag EMIT, rest not yet read *)
| RqBlocked (s : sctx) (rest : list Z)         (* flag BLOCKED *)
| RqNone (s : sctx)                            (* input consumed, no flag *)
| RqFinal (d : dec) (s : sctx)                 (* flag FINAL *)
| RqErr (e : Z) (d : dec) (s : sctx)
| RqAbort.
Definition rq_end (d : dec) (s : sctx) (fin : bool) : rq_res :=
  if fin then match read_request_fin d s with
              | Ok d' => RqFinal d' s
              | Err e => RqErr e (d_fail d) s
              | Abort => RqAbort
              end
  else RqNone s.
Fixpoint rq_loop (fuel : nat) (d : dec) (s : sctx) (p : list Z) (busy fin : bool) : rq_res :=
  match p, busy with
  | [], false => rq_end d s fin
  | _, _ =>
    match fuel with
    | O => RqAbort
    | S f =>
      match rs_step (d_ctx d) s p with
      | SGo s' rest b [] => rq_loop f d s' rest b fin
      | SGo s' rest b (v :: _) => RqEmit s' v rest
      | SMore s' _ => rq_end d s' fin
      | SStop s' rest _ => RqBlocked s' rest
      | SErr e s' _ => RqErr e (d_fail d) s'
      | SAbort => RqAbort
      end
    end
  end.
Definition read_request (d : dec) (s : sctx) (p : list Z) (fin : bool) : rq_res :=
  if bad (d_ctx d) then RqErr ERR_QPACK_FATAL d s
  else rq_loop (S (8 * length p + rs_rank s)) d s p false fin.
