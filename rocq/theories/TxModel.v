(* Model of the sending side of a stream, lib/nghttp3_stream.c:238-957: the frame queue, the output queue,
   the memory chunks, what is offered to the transport, what was written and what was acknowledged.
   Ring buffers are lists (C38).  A buffer is its type, its memory and the offsets begin, pos, last in it;
   the memory of a shared buffer is a chunk, named by an identity: two live chunks have different [end]
   pointers.  The environment: [te_enc k]: what the QPACK encoder returns at its k-th call (prefix,
   representations, encoder stream bytes); [te_rd k]: what the read_data callback returns at its k-th call.
   Bytes for the encoder stream are returned to the caller, which adds them to that stream.  Not modelled:
   memory exhaustion; the contents of a stream after an error return *)
From Verif Require Import Base ConvModel.
Open Scope Z_scope.

Definition MIN_CHUNK_SIZE := 256.      (* lib/nghttp3_stream.h:42 *)
Definition MIN_UNSENT_BYTES := 4096.   (* lib/nghttp3_stream.h:46 *)
Definition MAX_COPY_THRES := 128.      (* lib/nghttp3_stream.c:42 *)

Inductive btype := BPrivate | BShared | BAlien.   (* lib/nghttp3_buf.h:58-68 *)
Record tbuf := mk_tb { b_type : btype; b_mem : Z; b_data : list Z; b_begin : Z; b_pos : Z; b_last : Z }.
Record chunk := mk_ck { ck_id : Z; ck_cap : Z; ck_data : list Z }.   (* last - begin = zlen ck_data *)
Record settings := mk_set { s_mfss : Z; s_cap : Z; s_blk : Z; s_dgram : bool; s_conn : bool }.
(* frames waiting in frq *)
Inductive frame := FSettings (s : settings) | FHeaders (nva : list nv) | FData | FGoaway (id : Z) | FPrio (id : Z) (data : list Z).
Inductive rd_answer := RdErr (e : Z) | RdData (vecs : list (list Z)) (eof no_end : bool).
Record txenv := mk_te { te_enc : nat -> list nv -> outcome (list Z * list Z * list Z); te_rd : nat -> rd_answer }.
Record txs := mk_tx { t_frq : list frame; t_chunks : list chunk; t_nck : Z; t_outq : list tbuf; t_idx : nat;
  t_unsent : Z; t_off : Z; t_ackb : Z; t_acko : Z; t_rdblk : bool; t_end : bool; t_nenc : nat; t_nrd : nat }.
(* lib/nghttp3_stream.c:46-89 nghttp3_stream_new *)
Definition tx_init : txs := mk_tx [] [] 0 [] 0 0 0 0 0 false false 0 0.

Definition set_frq s v := mk_tx v (t_chunks s) (t_nck s) (t_outq s) (t_idx s) (t_unsent s) (t_off s) (t_ackb s) (t_acko s) (t_rdblk s) (t_end s) (t_nenc s) (t_nrd s).
Definition set_chunks s v := mk_tx (t_frq s) v (t_nck s) (t_outq s) (t_idx s) (t_unsent s) (t_off s) (t_ackb s) (t_acko s) (t_rdblk s) (t_end s) (t_nenc s) (t_nrd s).
Definition set_nck s v := mk_tx (t_frq s) (t_chunks s) v (t_outq s) (t_idx s) (t_unsent s) (t_off s) (t_ackb s) (t_acko s) (t_rdblk s) (t_end s) (t_nenc s) (t_nrd s).
Definition set_outq s v i := mk_tx (t_frq s) (t_chunks s) (t_nck s) v i (t_unsent s) (t_off s) (t_ackb s) (t_acko s) (t_rdblk s) (t_end s) (t_nenc s) (t_nrd s).
Definition set_sizes s u o := mk_tx (t_frq s) (t_chunks s) (t_nck s) (t_outq s) (t_idx s) u o (t_ackb s) (t_acko s) (t_rdblk s) (t_end s) (t_nenc s) (t_nrd s).
Definition set_ack s b o := mk_tx (t_frq s) (t_chunks s) (t_nck s) (t_outq s) (t_idx s) (t_unsent s) (t_off s) b o (t_rdblk s) (t_end s) (t_nenc s) (t_nrd s).
Definition set_rdblk s v := mk_tx (t_frq s) (t_chunks s) (t_nck s) (t_outq s) (t_idx s) (t_unsent s) (t_off s) (t_ackb s) (t_acko s) v (t_end s) (t_nenc s) (t_nrd s).
Definition set_end s v := mk_tx (t_frq s) (t_chunks s) (t_nck s) (t_outq s) (t_idx s) (t_unsent s) (t_off s) (t_ackb s) (t_acko s) (t_rdblk s) v (t_nenc s) (t_nrd s).
Definition set_nenc s v := mk_tx (t_frq s) (t_chunks s) (t_nck s) (t_outq s) (t_idx s) (t_unsent s) (t_off s) (t_ackb s) (t_acko s) (t_rdblk s) (t_end s) v (t_nrd s).
Definition set_nrd s v := mk_tx (t_frq s) (t_chunks s) (t_nck s) (t_outq s) (t_idx s) (t_unsent s) (t_off s) (t_ackb s) (t_acko s) (t_rdblk s) (t_end s) (t_nenc s) v.

Definition obind {A B} (o : outcome A) (f : A -> outcome B) : outcome B := match o with Ok a => f a | Err e => Err e | Abort => Abort end.
Notation "'let!' x := o 'in' e" := (obind o (fun x => e)) (at level 200, x pattern, right associativity).
(* a writer that reached nghttp3_unreachable *)
Definition must {A} (o : option A) : outcome A := match o with Some a => Ok a | None => Abort end.

(* lib/nghttp3_buf.h:76 nghttp3_buf_len *)
Definition b_len (t : tbuf) : Z := b_last t - b_pos t.
(* lib/nghttp3_buf.c, nghttp3_typed_buf_init of a buffer holding [l] *)
Definition tb_of (ty : btype) (l : list Z) : tbuf := mk_tb ty 0 l 0 0 (zlen l).
(* the memory a buffer points to *)
Definition find_chunk (cs : list chunk) (id : Z) : option chunk := find (fun c => ck_id c =? id) cs.
Definition b_memory (cs : list chunk) (t : tbuf) : option (list Z) :=
  match b_type t with BShared => option_map ck_data (find_chunk cs (b_mem t)) | _ => Some (b_data t) end.
Definition sub (l : list Z) (a b : Z) : list Z := firstn (Z.to_nat (b - a)) (skipn (Z.to_nat a) l).

(* lib/nghttp3_stream.c:702-747 nghttp3_stream_outq_add *)
Definition same_block (dest t : tbuf) : bool :=
  match b_type dest, b_type t with BShared, BShared => (b_mem dest =? b_mem t) && (b_last dest =? b_pos t) | _, _ => false end.
Definition outq_add (s : txs) (t : tbuf) : outcome txs :=
  if max_varint - t_off s <? b_len t then Err ERR_STREAM_DATA_OVERFLOW
  else
    let s := set_sizes s (t_unsent s + b_len t) (t_off s + b_len t) in
    let len := length (t_outq s) in
    match rev (t_outq s) with
    | dest :: front =>
      if same_block dest t then
        let idx := if Nat.eqb len (t_idx s) then (t_idx s - 1)%nat else t_idx s in
        Ok (set_outq s (rev (mk_tb (b_type dest) (b_mem dest) (b_data dest) (b_begin dest) (b_pos dest) (b_last t) :: front)) idx)
      else Ok (set_outq s (t_outq s ++ [t]) (t_idx s))
    | [] => Ok (set_outq s (t_outq s ++ [t]) (t_idx s))
    end.
(* lib/nghttp3_stream.c:764-765: the size of a new chunk; [fuel]: doublings *)
Fixpoint chunk_size (fuel : nat) (n need : Z) : Z :=
  match fuel with O => n | S f => if n <? need then chunk_size f (n * 2) need else n end.
(* lib/nghttp3_stream.c:749-789 nghttp3_stream_ensure_chunk *)
Definition ensure_chunk (s : txs) (need : Z) : txs :=
  match rev (t_chunks s) with
  | c :: _ =>
    if need <=? ck_cap c - zlen (ck_data c) then s
    else set_nck (set_chunks s (t_chunks s ++ [mk_ck (t_nck s) (chunk_size 64 MIN_CHUNK_SIZE need) []])) (t_nck s + 1)
  | [] => set_nck (set_chunks s (t_chunks s ++ [mk_ck (t_nck s) (chunk_size 64 MIN_CHUNK_SIZE need) []])) (t_nck s + 1)
  end.
(* lib/nghttp3_stream.c:791-798 nghttp3_stream_get_chunk, then a write of [l] at chunk->last; writing past the
   end of the chunk is an overflow *)
Definition chunk_write (s : txs) (l : list Z) : outcome (txs * Z * Z * Z) :=
  match rev (t_chunks s) with
  | [] => Abort
  | c :: front =>
    if ck_cap c - zlen (ck_data c) <? zlen l then Abort
    else Ok (set_chunks s (rev (mk_ck (ck_id c) (ck_cap c) (ck_data c ++ l) :: front)), ck_id c, zlen (ck_data c), zlen (ck_data c) + zlen l)
  end.
(* nghttp3_typed_buf_shared_init, the write, and nghttp3_stream_outq_add *)
Definition shared_add (s : txs) (l : list Z) : outcome txs :=
  let! (s, id, a, b) := chunk_write s l in outq_add s (mk_tb BShared id [] a a b).
(* lib/nghttp3_stream.c:310-327 nghttp3_stream_write_stream_type; also :668-700
   nghttp3_stream_write_qpack_decoder_stream and :537-551, the encoder stream part of
   nghttp3_stream_write_header_block, with the bytes given *)
Definition write_raw (s : txs) (l : list Z) : outcome txs := shared_add (ensure_chunk s (zlen l)) l.
(* lib/nghttp3_stream.c:525-553: bytes for the encoder stream *)
Definition write_ebuf (s : txs) (e : list Z) : outcome txs :=
  if MAX_COPY_THRES <? zlen e then outq_add s (tb_of BPrivate e)
  else if negb (zlen e =? 0) then write_raw s e
  else Ok s.
(* lib/nghttp3_stream.c:329-390 nghttp3_stream_write_settings *)
Definition settings_iv (x : settings) : list (Z * Z) :=
  [(6, s_mfss x); (1, s_cap x); (7, s_blk x)] ++ (if s_dgram x then [(51, 1)] else []) ++ (if s_conn x then [(8, 1)] else []).
Definition write_settings (s : txs) (x : settings) : outcome txs :=
  let! (n, len) := must (frame_write_settings_len (settings_iv x)) in
  let s := ensure_chunk s len in
  let! l := must (frame_write_settings n (settings_iv x)) in shared_add s l.
(* lib/nghttp3_stream.c:392-413 nghttp3_stream_write_goaway *)
Definition write_goaway (s : txs) (id : Z) : outcome txs :=
  let! (n, len) := must (frame_write_goaway_len id) in
  let s := ensure_chunk s len in
  let! l := must (frame_write_goaway n id) in shared_add s l.
(* lib/nghttp3_stream.c:415-437 nghttp3_stream_write_priority_update *)
Definition write_prio (s : txs) (id : Z) (data : list Z) : outcome txs :=
  let! (n, len) := must (frame_write_priority_update_len FRAME_PRIORITY_UPDATE id data) in
  let s := ensure_chunk s len in
  let! l := must (frame_write_priority_update FRAME_PRIORITY_UPDATE n id data) in shared_add s l.
(* lib/nghttp3_stream.c:439-560 nghttp3_stream_write_headers, nghttp3_stream_write_header_block; the second
   result: the bytes for the encoder stream (:525-553) *)
Definition write_headers (E : txenv) (s : txs) (nva : list nv) : outcome (txs * list Z) :=
  let! (p, r, e) := te_enc E (t_nenc s) nva in
  let s := set_nenc s (S (t_nenc s)) in
  let hlen := zlen p + zlen r in
  let! len := must (frame_write_hd_len FRAME_HEADERS hlen) in
  let len := len + zlen p in
  let len := if zlen r <=? MAX_COPY_THRES then len + zlen r else len in
  let s := ensure_chunk s len in
  let! hd := must (frame_write_hd FRAME_HEADERS hlen) in
  let! (s, id, a, b) := chunk_write s (hd ++ p) in
  if MAX_COPY_THRES <? zlen r then
    let! s := outq_add s (mk_tb BShared id [] a a b) in
    let! s := outq_add s (tb_of BPrivate r) in
    Ok (s, e)
  else if negb (zlen r =? 0) then
    let! (s, _, _, b) := chunk_write s r in
    let! s := outq_add s (mk_tb BShared id [] a a b) in
    Ok (s, e)
  else Ok (s, e).
(* lib/nghttp3_vec.c:40-55 nghttp3_vec_len_varint *)
Fixpoint vec_len_varint (res : Z) (vecs : list (list Z)) : option Z :=
  match vecs with [] => Some res | v :: vs => if max_varint - res <? zlen v then None else vec_len_varint (res + zlen v) vs end.
(* lib/nghttp3_stream.c:874-879 nghttp3_stream_outq_write_done *)
Definition write_done (s : txs) : bool := Nat.eqb (length (t_outq s)) 0 || Nat.leb (length (t_outq s)) (t_idx s).
(* lib/nghttp3_stream.c:649-663 *)
Fixpoint add_aliens (s : txs) (vecs : list (list Z)) : outcome txs :=
  match vecs with
  | [] => Ok s
  | v :: vs => if zlen v =? 0 then add_aliens s vs else let! s := outq_add s (tb_of BAlien v) in add_aliens s vs
  end.
(* lib/nghttp3_stream.c:562-666 nghttp3_stream_write_data; the second result: data_eof *)
Definition write_data (E : txenv) (s : txs) : outcome (txs * bool) :=
  if t_rdblk s then Abort
  else
    let a := te_rd E (t_nrd s) in
    let s := set_nrd s (S (t_nrd s)) in
    match a with
    | RdErr e => if e =? ERR_WOULDBLOCK then Ok (set_rdblk s true, false) else Err ERR_CALLBACK_FAILURE
    | RdData vecs eof no_end =>
      match vec_len_varint 0 vecs with
      | None => Err ERR_STREAM_DATA_OVERFLOW
      | Some datalen =>
        if (datalen =? 0) && negb eof then Abort
        else
          let s := if eof && negb no_end then set_end s true else s in
          if eof && (datalen =? 0) then
            if negb no_end && write_done s then let! s := outq_add s (tb_of BPrivate []) in Ok (s, true)
            else Ok (s, true)
          else
            let! len := must (frame_write_hd_len FRAME_DATA datalen) in
            let s := ensure_chunk s len in
            let! hd := must (frame_write_hd FRAME_DATA datalen) in
            let! s := shared_add s hd in
            let! s := add_aliens s vecs in
            Ok (s, eof)
      end
    end.
(* lib/nghttp3_stream.c:252-308 nghttp3_stream_fill_outq: the result, and the bytes for the encoder stream *)
Fixpoint fill_loop (E : txenv) (frq : list frame) (s : txs) : outcome (txs * list (list Z)) :=
  match frq with
  | [] => Ok (s, [])
  | fr :: frq' =>
    if MIN_UNSENT_BYTES <=? t_unsent s then Ok (s, [])
    else
      match fr with
      | FSettings x => let! s := write_settings s x in fill_loop E frq' (set_frq s frq')
      | FHeaders nva =>
        let! (s, e) := write_headers E s nva in
        let! (s, es) := fill_loop E frq' (set_frq s frq') in
        Ok (s, e :: es)
      | FData =>
        let! (s, eof) := write_data E s in
        if t_rdblk s then Ok (s, [])
        else if negb eof then Ok (s, [])
        else fill_loop E frq' (set_frq s frq')
      | FGoaway id => let! s := write_goaway s id in fill_loop E frq' (set_frq s frq')
      | FPrio id data => let! s := write_prio s id data in fill_loop E frq' (set_frq s frq')
      end
  end.
Definition fill_outq (E : txenv) (s : txs) : outcome (txs * list (list Z)) := fill_loop E (t_frq s) s.
(* lib/nghttp3_stream.c:814-845 nghttp3_stream_writev: the vectors and fin *)
Fixpoint writev_loop (cs : list chunk) (q : list tbuf) (veccnt : nat) : outcome (list (list Z) * list tbuf) :=
  match q with
  | [] => Ok ([], [])
  | t :: q' =>
    match veccnt with
    | O => Ok ([], q)
    | S n =>
      if b_len t =? 0 then writev_loop cs q' veccnt
      else
        match b_memory cs t with
        | None => Abort    (* the memory was released *)
        | Some m => let! (vs, q2) := writev_loop cs q' n in Ok (sub m (b_pos t) (b_last t) :: vs, q2)
        end
    end
  end.
Definition writev (s : txs) (veccnt : nat) : outcome (list (list Z) * bool) :=
  if Nat.eqb veccnt 0 then Abort
  else
    let! (vs, more) := writev_loop (t_chunks s) (skipn (t_idx s) (t_outq s)) veccnt in
    Ok (vs, match t_frq s, more with [], [] => t_end s | _, _ => false end).
(* lib/nghttp3_stream.c:847-872 nghttp3_stream_add_outq_offset; [i]: the index of the first entry of [q] *)
Fixpoint offset_loop (q : list tbuf) (i : nat) (n : Z) : list tbuf * nat * Z :=
  match q with
  | [] => ([], i, n)
  | t :: q' =>
    if n <? b_len t then (mk_tb (b_type t) (b_mem t) (b_data t) (b_begin t) (b_pos t + n) (b_last t) :: q', i, n)
    else
      let '(q2, j, m) := offset_loop q' (S i) (n - b_len t) in
      (mk_tb (b_type t) (b_mem t) (b_data t) (b_begin t) (b_last t) (b_last t) :: q2, j, m)
  end.
Definition add_outq_offset (s : txs) (n : Z) : outcome txs :=
  let s := set_sizes s (t_unsent s - n) (t_off s) in
  let '(q, i, m) := offset_loop (skipn (t_idx s) (t_outq s)) (t_idx s) n in
  if Nat.ltb i (length (t_outq s)) || (m =? 0) then Ok (set_outq s (firstn (t_idx s) (t_outq s) ++ q) i) else Abort.
(* lib/nghttp3_stream.c:881-914 stream_pop_outq_entry; the chunks left *)
Definition pop_chunk (cs : list chunk) (t : tbuf) : outcome (list chunk) :=
  match b_type t with
  | BShared =>
    match cs with
    | [] => Abort
    | c :: cs' => if negb (ck_id c =? b_mem t) then Abort else Ok (if zlen (ck_data c) =? b_last t then cs' else cs)
    end
  | _ => Ok cs
  end.
(* lib/nghttp3_stream.c:916-957 nghttp3_stream_update_ack_offset; the second result: the lengths passed to the
   acked_data callback, which succeeds.  Recursion over the output queue *)
Fixpoint ack_loop (q : list tbuf) (s : txs) (offset : Z) : outcome (txs * list Z) :=
  match q with
  | [] => Ok (set_ack s (t_ackb s) offset, [])
  | t :: q' =>
    let buflen := b_last t - b_begin t in
    let call := match b_type t with
                | BAlien => if t_acko s <? offset then [Z.min offset (t_ackb s + buflen) - t_acko s] else []
                | _ => [] end in
    if negb (Nat.eqb (t_idx s) 0) && (t_ackb s + buflen <=? offset) then
      let! cs := pop_chunk (t_chunks s) t in
      let s := set_outq (set_chunks s cs) q' (t_idx s - 1) in
      let s := set_ack s (t_ackb s + buflen) (t_ackb s + buflen) in
      let! (s, calls) := ack_loop q' s offset in
      Ok (s, call ++ calls)
    else Ok (set_ack s (t_ackb s) offset, call)
  end.
Definition update_ack (s : txs) (offset : Z) : outcome (txs * list Z) := ack_loop (t_outq s) s offset.

(* The calls of the API that reach one stream, lib/nghttp3_conn.c; scheduling is modelled elsewhere *)
(* lib/nghttp3_conn.c:2120-2150 conn_submit_headers_data and its callers :2191-2290, and the other users of
   nghttp3_stream_frq_add; [fin]: sets WRITE_END_STREAM *)
Definition tx_submit (s : txs) (frs : list frame) (fin : bool) : txs := set_frq (if fin then set_end s true else s) (t_frq s ++ frs).
(* lib/nghttp3_conn.c:1948-1964 conn_writev_stream, first part *)
Definition tx_fill (E : txenv) (s : txs) : outcome (txs * list (list Z)) := if t_rdblk s then Ok (s, []) else fill_outq E s.
(* lib/nghttp3_conn.c:1948-1984 conn_writev_stream on this stream, when the encoder stream has nothing to offer *)
Definition tx_write (E : txenv) (s : txs) (veccnt : nat) : outcome (txs * list (list Z) * list (list Z) * bool) :=
  let! (s, es) := tx_fill E s in
  let! (vs, fin) := writev s veccnt in
  Ok (s, es, vs, fin).
(* lib/nghttp3_conn.c:2066-2076 nghttp3_conn_add_write_offset on the stream *)
Definition tx_written (s : txs) (n : Z) : outcome txs := add_outq_offset s n.
(* lib/nghttp3_conn.c:2105-2118 nghttp3_conn_update_ack_offset *)
Definition tx_update_ack (s : txs) (offset : Z) : outcome (txs * list Z) :=
  if offset <? t_acko s then Err ERR_INVALID_ARGUMENT else update_ack s offset.
(* lib/nghttp3_conn.c:2094-2103 nghttp3_conn_add_ack_offset *)
Definition tx_add_ack (s : txs) (n : Z) : outcome (txs * list Z) := update_ack s (t_acko s + n).
(* lib/nghttp3_conn.c:2414-2429 nghttp3_conn_resume_stream *)
Definition tx_resume (s : txs) : txs := set_rdblk s false.
