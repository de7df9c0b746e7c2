(* Model of lib/nghttp3_conv.c (QUIC variable-length integers), the incremental
   reader of lib/nghttp3_stream.c, lib/nghttp3_frame.c writers and lib/nghttp3_err.c. *)
From Verif Require Import Base Tables.

(* lib/nghttp3_conv.c:70-72 nghttp3_get_varintlen.  [b] is the first byte. *)
Definition get_varintlen (b : Z) : nat := Z.to_nat (Z.shiftl 1 (Z.shiftr b 6)).

(* lib/nghttp3_conv.c:34-68 nghttp3_get_varint: the two top bits of the first
   byte select 1, 2, 4 or 8 bytes, which are masked with 0x3f on the first byte
   and read big-endian.  Reading past the end of the buffer is Abort (None here,
   because the C function has no other way to fail). Returns value and the rest. *)
Definition get_varint (p : list Z) : option (Z * list Z) :=
  match p with
  | [] => None
  | b :: _ =>
    match take_exact (get_varintlen b) p with
    | Some (h :: t, rest) => Some (be_val (Z.land h 63 :: t), rest)
    | _ => None
    end
  end.

(* *p |= m on the first byte of a just-written buffer. *)
Definition or_first (m : Z) (l : list Z) : list Z :=
  match l with [] => [] | b :: t => Z.lor b m :: t end.

(* lib/nghttp3_conv.c:89-107 nghttp3_put_varint; None is the assertion failure
   n < 2^62.  The argument is int64_t; negative values take the first branch and
   are truncated to a byte. *)
Definition put_varint (n : Z) : option (list Z) :=
  if n <? 64 then Some [n mod 256]
  else if n <? 16384 then Some (or_first 64 (be_bytes 2 n))
  else if n <? 1073741824 then Some (or_first 128 (be_bytes 4 n))
  else if n <? 4611686018427387904 then Some (or_first 192 (be_bytes 8 n))
  else None.

(* lib/nghttp3_conv.c:109-121 nghttp3_put_varintlen *)
Definition put_varintlen (n : Z) : option Z :=
  if n <? 64 then Some 1
  else if n <? 16384 then Some 2
  else if n <? 1073741824 then Some 4
  else if n <? 4611686018427387904 then Some 8
  else None.

(* lib/nghttp3_stream.h nghttp3_varint_read_state.  [rv_acc]: while bytes are
   missing, the C field holds the network-order memory image of the partially
   filled 8-byte integer; the model keeps the number this image denotes
   (missing bytes are zero). *)
Record rvint := mkrv { rv_acc : Z; rv_left : Z }.
(* lib/nghttp3_stream.c:173-175 nghttp3_varint_read_state_reset *)
Definition rv_reset : rvint := mkrv 0 0.

(* lib/nghttp3_stream.c:181-223 nghttp3_read_varint.
   Returns the new state and the number of bytes consumed. *)
Definition read_varint (rv : rvint) (p : list Z) (fin : bool) : outcome (rvint * Z) :=
  match p with
  | [] => Abort                                   (* assert(begin != end) *)
  | b :: _ =>
    if rv_left rv =? 0 then
      if negb (rv_acc rv =? 0) then Abort else    (* assert(rvint->acc == 0) *)
      let vlen := Z.of_nat (get_varintlen b) in
      let len := Z.min vlen (zlen p) in
      if vlen <=? len then
        match get_varint p with
        | Some (v, _) => Ok (mkrv v (rv_left rv), vlen)
        | None => Abort
        end
      else if fin then Err ERR_INVALID_ARGUMENT
      else
        let got := firstn (Z.to_nat len) p in
        let got := match got with [] => [] | h :: t => Z.land h 63 :: t end in
        Ok (mkrv (be_val got * 256 ^ (vlen - len)) (vlen - len), len)
    else
      let len := Z.min (rv_left rv) (zlen p) in
      let got := firstn (Z.to_nat len) p in
      let left := rv_left rv - len in
      let acc := rv_acc rv + be_val got * 256 ^ left in
      if left =? 0 then Ok (mkrv acc left, len)
      else if fin then Err ERR_INVALID_ARGUMENT
      else Ok (mkrv acc left, len)
  end.

(* Driver (the callers' loop in lib/nghttp3_conn.c, e.g. conn_read_type :484-539): feed the pieces one after another until the integer is
   complete ([rv_left] = 0); [fin] accompanies the last piece.  Result: the value
   and the bytes not consumed, or None while more input is needed. *)
Fixpoint feed_varint (rv : rvint) (ps : list (list Z)) (fin : bool)
  : outcome (option (Z * list Z)) :=
  match ps with
  | [] => Ok None
  | p :: ps' =>
    let last := match ps' with [] => true | _ => false end in
    match read_varint rv p (fin && last) with
    | Ok (rv', n) =>
      if rv_left rv' =? 0 then Ok (Some (rv_acc rv', skipn (Z.to_nat n) p ++ concat ps'))
      else feed_varint rv' ps' fin
    | Err e => Err e
    | Abort => Abort
    end
  end.

(* ---- lib/nghttp3_frame.h frame types ---- *)
Definition FRAME_DATA := 0.            (* 0x00 *)
Definition FRAME_HEADERS := 1.         (* 0x01 *)
Definition FRAME_CANCEL_PUSH := 3.
Definition FRAME_SETTINGS := 4.
Definition FRAME_PUSH_PROMISE := 5.
Definition FRAME_GOAWAY := 7.
Definition FRAME_MAX_PUSH_ID := 13.    (* 0x0d *)
Definition FRAME_PRIORITY_UPDATE := 984832.         (* 0x0f0700 *)
Definition FRAME_PRIORITY_UPDATE_PUSH_ID := 984833. (* 0x0f0701 *)

Definition bind {A B} (o : option A) (f : A -> option B) : option B :=
  match o with Some a => f a | None => None end.
Notation "'do' x <- o ; e" := (bind o (fun x => e)) (at level 200, x name, right associativity).

(* lib/nghttp3_frame.c:34-38 nghttp3_frame_write_hd *)
Definition frame_write_hd (ty len : Z) : option (list Z) :=
  do a <- put_varint ty; do b <- put_varint len; Some (a ++ b).

(* lib/nghttp3_frame.c:40-42 nghttp3_frame_write_hd_len *)
Definition frame_write_hd_len (ty len : Z) : option Z :=
  do a <- put_varintlen ty; do b <- put_varintlen len; Some (a + b).

(* lib/nghttp3_frame.c:49-52: one entry of the SETTINGS payload loop *)
Fixpoint write_settings_entries (iv : list (Z * Z)) : option (list Z) :=
  match iv with
  | [] => Some []
  | (id, v) :: t =>
    do a <- put_varint id; do b <- put_varint v; do c <- write_settings_entries t;
    Some (a ++ b ++ c)
  end.

(* lib/nghttp3_frame.c:44-55 nghttp3_frame_write_settings; [len] is fr->hd.length *)
Definition frame_write_settings (len : Z) (iv : list (Z * Z)) : option (list Z) :=
  do h <- frame_write_hd FRAME_SETTINGS len;
  do p <- write_settings_entries iv; Some (h ++ p).

Fixpoint settings_payloadlen (iv : list (Z * Z)) : option Z :=
  match iv with
  | [] => Some 0
  | (id, v) :: t =>
    do a <- put_varintlen id; do b <- put_varintlen v; do c <- settings_payloadlen t;
    Some (a + b + c)
  end.

(* lib/nghttp3_frame.c:57-72 nghttp3_frame_write_settings_len: (payloadlen, total) *)
Definition frame_write_settings_len (iv : list (Z * Z)) : option (Z * Z) :=
  do n <- settings_payloadlen iv;
  do a <- put_varintlen FRAME_SETTINGS; do b <- put_varintlen n;
  Some (n, a + b + n).

(* lib/nghttp3_frame.c:74-80 nghttp3_frame_write_goaway *)
Definition frame_write_goaway (len id : Z) : option (list Z) :=
  do h <- frame_write_hd FRAME_GOAWAY len; do p <- put_varint id; Some (h ++ p).

(* lib/nghttp3_frame.c:82-90 nghttp3_frame_write_goaway_len *)
Definition frame_write_goaway_len (id : Z) : option (Z * Z) :=
  do n <- put_varintlen id;
  do a <- put_varintlen FRAME_GOAWAY; do b <- put_varintlen n;
  Some (n, a + b + n).

(* lib/nghttp3_frame.c:92-102 nghttp3_frame_write_priority_update; [ty] is fr->hd.type *)
Definition frame_write_priority_update (ty len id : Z) (data : list Z) : option (list Z) :=
  do h <- frame_write_hd ty len; do p <- put_varint id; Some (h ++ p ++ data).

(* lib/nghttp3_frame.c:104-112 nghttp3_frame_write_priority_update_len *)
Definition frame_write_priority_update_len (ty id : Z) (data : list Z) : option (Z * Z) :=
  do i <- put_varintlen id;
  let n := i + zlen data in
  do a <- put_varintlen ty; do b <- put_varintlen n;
  Some (n, a + b + n).

(* ---- lib/nghttp3_str.c:105-110 nghttp3_downcase, with the literal DOWNCASE_TBL ---- *)
Definition downcase_byte (b : Z) : Z := nth (Z.to_nat b) downcase_tbl 0.
Definition downcase (l : list Z) : list Z := map downcase_byte l.

(* nghttp3_nv (nghttp3.h): name, value, flags. *)
Record nv := mknv { nv_name : list Z; nv_value : list Z; nv_flags : Z }.
(* nghttp3.h:695-732 NGHTTP3_NV_FLAG_* *)
Definition NV_FLAG_NEVER_INDEX := 1.
Definition NV_FLAG_NO_COPY_NAME := 2.
Definition NV_FLAG_NO_COPY_VALUE := 4.
Definition NV_FLAG_TRY_INDEX := 8.

(* lib/nghttp3_frame.c:114-180 nghttp3_nva_copy.  Copying memory is the identity on
   values; only the lower-casing of copied names is visible. *)
Definition nv_copy (x : nv) : nv :=
  if negb (Z.land (nv_flags x) NV_FLAG_NO_COPY_NAME =? 0) then x
  else mknv (downcase (nv_name x)) (nv_value x) (nv_flags x).
Definition nva_copy (l : list nv) : list nv := map nv_copy l.

(* ---- lib/nghttp3_err.c:88-124 nghttp3_err_infer_quic_app_error_code ---- *)
Definition err_infer (e : Z) : Z :=
  if e =? 0 then 256
  else if e =? ERR_QPACK_DECOMPRESSION_FAILED then 512
  else if e =? ERR_QPACK_ENCODER_STREAM_ERROR then 513
  else if e =? ERR_QPACK_DECODER_STREAM_ERROR then 514
  else if e =? ERR_H3_FRAME_UNEXPECTED then 261
  else if e =? ERR_H3_FRAME_ERROR then 262
  else if e =? ERR_H3_MISSING_SETTINGS then 266
  else if (e =? ERR_H3_INTERNAL_ERROR) || (e =? ERR_NOMEM) || (e =? ERR_CALLBACK_FAILURE)
          || (e =? ERR_QPACK_FATAL) || (e =? ERR_QPACK_HEADER_TOO_LARGE)
          || (e =? ERR_STREAM_DATA_OVERFLOW) then 258
  else if e =? ERR_H3_CLOSED_CRITICAL_STREAM then 260
  else if e =? ERR_H3_GENERAL_PROTOCOL_ERROR then 257
  else if e =? ERR_H3_ID_ERROR then 264
  else if e =? ERR_H3_SETTINGS_ERROR then 265
  else if e =? ERR_H3_STREAM_CREATION_ERROR then 259
  else if (e =? ERR_MALFORMED_HTTP_HEADER) || (e =? ERR_MALFORMED_HTTP_MESSAGING) then 270
  else 257.

(* lib/nghttp3_err.c:126 nghttp3_err_is_fatal *)
Definition err_is_fatal (e : Z) : bool := e <? ERR_FATAL.
