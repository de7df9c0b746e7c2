(* A request stream over time: pieces arriving from the transport, the stream being blocked on
   the QPACK encoder stream and resumed, reading being shut down.  lib/nghttp3_conn.c:1202-1234
   (entry checks of nghttp3_conn_read_bidi), :1082-1137, :1139-1170, :468-482, :2456-2476;
   lib/nghttp3_stream.c:959-1016. *)
From Verif Require Import Base BaseLemmas ConvModel RdVarint QpackTabModel QpackDecModel QpackHistModel HttpModel Chunk BidiModel.
Open Scope Z_scope.

(* a buffer of stream->inq: the unread bytes and the room after them; lib/nghttp3_stream.c:959-1003 *)
Definition ibuf : Type := (list Z * Z)%type.
Definition INBUF : nat := Z.to_nat 16384.
Fixpoint in_chunks (fuel : nat) (d : list Z) : list ibuf :=
  match fuel, d with
  | S f, _ :: _ => let w := firstn INBUF d in (w, 16384 - zlen w) :: in_chunks f (skipn INBUF d)
  | _, _ => []
  end.
(* nghttp3_stream_buffer_data *)
Fixpoint buffer_data (q : list ibuf) (d : list Z) : list ibuf :=
  match q with
  | [] => in_chunks (length d) d
  | [(w, room)] =>
    let n := Z.to_nat (Z.min (zlen d) room) in
    (w ++ firstn n d, room - Z.of_nat n) :: in_chunks (length d) (skipn n d)
  | b :: q' => b :: buffer_data q' d
  end.
Definition inbytes (q : list ibuf) : list Z := concat (map fst q).
(* nghttp3_stream_get_buffered_datalen, :1005-1017 *)
Definition buffered_len (q : list ibuf) : Z := zlen (inbytes q).

Record rx := mk_rx { x_id : Z;        (* stream identifier *)
                     x_st : bst; x_inq : list ibuf;
                     x_shut : bool;   (* FLAG_SHUT_RD *)
                     x_eof : bool;    (* FLAG_READ_EOF *)
                     x_closed : bool; (* FLAG_CLOSED *)
                     x_ret : Z;       (* total returned by nghttp3_conn_read_stream *)
                     x_def : Z }.     (* total reported through deferred_consume *)
Definition rx_init (id : Z) (h : http) (d : dec) : rx := mk_rx id (bst_init id h d) [] false false false 0 0.

(* the decoder is shared by the connection: these replace it, or the blocked flag *)
Definition st_dec (s : bst) (d : dec) : bst :=
  mk_bst (b_rd s) (b_rv s) (b_ty s) (b_left s) (b_ph s) (b_http s) (b_sctx s) d (b_blk s) (b_err s) (b_cons s).
Definition st_blk (s : bst) (b : bool) : bst :=
  mk_bst (b_rd s) (b_rv s) (b_ty s) (b_left s) (b_ph s) (b_http s) (b_sctx s) (b_dec s) b (b_err s) (b_cons s).

Inductive cres :=
| COk (x : rx) (nproc ncons : Z) (evs : list bev)
| CErr (e : Z) (evs : list bev)
| CAbort.
(* nghttp3_conn_read_bidi *)
Definition read_bidi (pre : bool) (E : benv) (x : rx) (src : list Z) (fin : bool) : cres :=
  let s := x_st x in
  if x_shut x then COk x (zlen src) (zlen src) []                 (* :1215-1219 *)
  else if b_blk s then                                             (* :1221-1233 *)
    COk (mk_rx (x_id x) s (if zlen src =? 0 then x_inq x else buffer_data (x_inq x) src) (x_shut x) (x_eof x) (x_closed x) (x_ret x) (x_def x)) 0 0 []
  else
    match b_read pre E s src fin with
    | ROk s' evs => COk (mk_rx (x_id x) s' (x_inq x) (x_shut x) (x_eof x) (x_closed x) (x_ret x) (x_def x)) (zlen src) (b_cons s' - b_cons s) evs
    | RStop s' rest evs =>                                         (* :1384-1393 *)
      let q := if negb (zlen rest =? 0) && (buffered_len (x_inq x) =? 0) then buffer_data (x_inq x) rest else x_inq x in
      COk (mk_rx (x_id x) s' q (x_shut x) (x_eof x) (x_closed x) (x_ret x) (x_def x)) (zlen src - zlen rest) (b_cons s' - b_cons s) evs
    | RErr e _ evs => CErr e evs
    | RAbort => CAbort
    end.

Inductive xres :=
| XOk (x : rx) (evs : list bev)
| XGone (x : rx) (evs : list bev)   (* the stream object has been deleted *)
| XErr (e : Z) (evs : list bev)
| XAbort.
Definition x_evs (ev : list bev) (r : xres) : xres :=
  match r with XOk x e => XOk x (ev ++ e) | XGone x e => XGone x (ev ++ e) | XErr e evs => XErr e (ev ++ evs) | XAbort => XAbort end.
Definition x_add (x : rx) (q : list ibuf) (ret def : Z) : rx :=
  mk_rx (x_id x) (x_st x) q (x_shut x) (x_eof x) (x_closed x) (x_ret x + ret) (x_def x + def).

(* nghttp3_conn_read_stream on an existing request stream, :468-482 *)
Definition recv (pre : bool) (E : benv) (x : rx) (src : list Z) (fin : bool) : xres :=
  if (zlen src =? 0) && negb fin then XOk x []
  else
    let x := mk_rx (x_id x) (x_st x) (x_inq x) (x_shut x) (x_eof x || fin) (x_closed x) (x_ret x) (x_def x) in
    match read_bidi pre E x src fin with
    | COk x' _ n evs => XOk (x_add x' (x_inq x') n 0) evs
    | CErr e evs => XErr e evs
    | CAbort => XAbort
    end.

(* conn_process_blocked_stream_data, :1093-1125: one buffer after another until the queue is
   empty or the stream is blocked again *)
Fixpoint process_blocked (pre : bool) (fuel : nat) (E : benv) (x : rx) : xres :=
  match fuel with
  | O => XAbort
  | S f =>
    match x_inq x with
    | [] => XOk x []
    | (buf, room) :: q =>
      match read_bidi pre E x buf ((match q with [] => true | _ => false end) && x_eof x) with
      | COk x' nproc ncons evs =>
        match x_inq x' with
        | [] => XAbort                          (* the queue is not touched by read_bidi here *)
        | (buf', room') :: q' =>
          let left_ := skipn (Z.to_nat nproc) buf' in
          let q2 := if zlen left_ =? 0 then q' else (left_, room') :: q' in
          let x2 := x_add x' q2 0 ncons in
          if b_blk (x_st x2) then XOk x2 evs else x_evs evs (process_blocked pre f E x2)
        end
      | CErr e evs => XErr e evs
      | CAbort => XAbort
      end
    end
  end.

(* conn_delete_stream, :1050-1082: what is still buffered is reported as consumed *)
Definition x_delete (x : rx) (evs : list bev) : xres := XGone (x_add x [] 0 (buffered_len (x_inq x))) evs.
(* the whole of conn_process_blocked_stream_data, :1084-1137 *)
Definition resume (pre : bool) (E : benv) (x : rx) : xres :=
  match process_blocked pre (S (length (x_inq x))) E x with
  | XOk x' evs => if negb (b_blk (x_st x')) && x_closed x' then x_delete x' evs else XOk x' evs
  | r => r
  end.

(* what happens to the stream *)
Inductive rop :=
| RRecv (src : list Z) (fin : bool)   (* the transport delivers the next bytes *)
| ROther (E : benv) (d : dec)         (* something else happened on the connection: its settings
                                         and flags are now E and its QPACK decoder is now d; a
                                         blocked stream whose Required Insert Count is reached is
                                         resumed, :1148-1167 *)
| RShut                               (* nghttp3_conn_shutdown_stream_read, :2456-2477 *)
| RClose.                             (* nghttp3_conn_close_stream, :2431-2454 *)
Definition x_set_st (x : rx) (s : bst) : rx := mk_rx (x_id x) s (x_inq x) (x_shut x) (x_eof x) (x_closed x) (x_ret x) (x_def x).
(* the stream is in the queue of blocked streams exactly when it is flagged as blocked *)
Definition x_step (pre : bool) (E : benv) (x : rx) (o : rop) : benv * xres :=
  match o with
  | RRecv src fin => (E, recv pre E x src fin)
  | ROther E' d =>
    let s := st_dec (x_st x) d in
    if b_blk s && (s_ricnt (b_sctx s) <=? next_absidx (d_ctx d)) then
      (E', resume pre E' (x_set_st x (st_blk s false)))
    else (E', XOk (x_set_st x s) [])
  | RShut =>
    (E, if x_shut x then XOk x []
        else match dec_cancel_stream (b_dec (x_st x)) (x_id x) with
             | Ok d => XOk (mk_rx (x_id x) (st_dec (x_st x) d) (x_inq x) true (x_eof x) (x_closed x) (x_ret x) (x_def x)) []
             | Err e => XErr e []
             | Abort => XAbort
             end)
  | RClose =>
    (E, if b_blk (x_st x) then XOk (mk_rx (x_id x) (x_st x) (x_inq x) (x_shut x) (x_eof x) true (x_ret x) (x_def x)) []
        else x_delete x [])
  end.
(* a history; it ends at the first error and when the stream is deleted *)
Fixpoint x_run (pre : bool) (E : benv) (x : rx) (ops : list rop) : xres :=
  match ops with
  | [] => XOk x []
  | o :: ops' =>
    match x_step pre E x o with
    | (E', XOk x' evs) => x_evs evs (x_run pre E' x' ops')
    | (_, r) => r
    end
  end.
