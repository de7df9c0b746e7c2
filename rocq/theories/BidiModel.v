(* Model of reading a request stream: lib/nghttp3_conn.c:1202-1543 (nghttp3_conn_read_bidi,
   nghttp3_conn_on_data), :1551-1666 (conn_decode_headers, nghttp3_conn_on_headers),
   :1084-1137 (conn_process_blocked_stream_data) and lib/nghttp3_stream.c:1019-1197.
   Simplifications: callbacks always succeed and memory is never exhausted; a recv_data call
   with n bytes is recorded as n byte events (C gives one call per piece, so the grouping
   depends on the cut); the fin argument of end_headers / end_trailers is not recorded; after
   an error return the model does not say what is left in the stream object, because the
   documented contract is that the connection must then be closed. *)
From Verif Require Import Base BaseLemmas ConvModel RdVarint QpackTabModel QpackDecModel QpackHistModel HttpModel Chunk.
Open Scope Z_scope.

(* what the application and the transport observe *)
Inductive bev :=
| BvBeginHeaders | BvHeader (f : qnv) | BvEndHeaders
| BvBeginTrailers | BvTrailer (f : qnv) | BvEndTrailers
| BvData (b : Z)
| BvEndStream
| BvStopSending (code : Z) | BvResetStream (code : Z)
| BvPriority (p : pri)       (* not a callback: the priority given to conn_update_stream_priority *)
| BvFrame (ty len : Z).      (* not a callback: a frame header was taken off the wire *)

(* lib/nghttp3_stream.h nghttp3_stream_http_state; REQ_x and RESP_x are x with b_req true and
   false: no transition of transit_rx_http_state changes between the two families *)
Inductive hphase := HpInitial | HpHeadersBegin | HpHeadersEnd | HpDataBegin | HpDataEnd
  | HpTrailersBegin | HpTrailersEnd | HpEnd.
(* nghttp3_stream_http_event *)
Inductive hevent := HeDataBegin | HeDataEnd | HeHeadersBegin | HeHeadersEnd | HeMsgEnd.

(* lib/nghttp3_stream.c:1019-1186 nghttp3_stream_transit_rx_http_state *)
Definition transit (req : bool) (ph : hphase) (h : http) (ev : hevent) : outcome hphase :=
  let msg_end := if on_remote_end_stream h then Ok HpEnd else Err ERR_MALFORMED_HTTP_MESSAGING in
  let connect := if req then h_connect h else h_connect h && (Z.quot (h_code h) 100 =? 2) in
  match ph with
  | HpInitial =>                                       (* :1026-1033, :1103-1108 *)
    match ev with HeHeadersBegin => Ok HpHeadersBegin | _ => Err ERR_H3_FRAME_UNEXPECTED end
  | HpHeadersBegin => match ev with HeHeadersEnd => Ok HpHeadersEnd | _ => Abort end
  | HpHeadersEnd =>                                    (* :1038-1061, :1113-1142 *)
    match ev with
    | HeHeadersBegin =>
      if negb req && (h_code h =? -1) then Ok HpHeadersBegin
      else if connect then Err ERR_H3_FRAME_UNEXPECTED else Ok HpTrailersBegin
    | HeDataBegin => if negb req && h_final h then Err ERR_H3_FRAME_UNEXPECTED else Ok HpDataBegin
    | HeMsgEnd => msg_end
    | _ => Abort
    end
  | HpDataBegin => match ev with HeDataEnd => Ok HpDataEnd | _ => Abort end
  | HpDataEnd =>                                       (* :1066-1087, :1147-1168 *)
    match ev with
    | HeDataBegin => Ok HpDataBegin
    | HeHeadersBegin => if connect then Err ERR_H3_FRAME_UNEXPECTED else Ok HpTrailersBegin
    | HeMsgEnd => msg_end
    | _ => Abort
    end
  | HpTrailersBegin => match ev with HeHeadersEnd => Ok HpTrailersEnd | _ => Abort end
  | HpTrailersEnd => match ev with HeMsgEnd => msg_end | _ => Err ERR_H3_FRAME_UNEXPECTED end
  | HpEnd => Err ERR_H3_FRAME_UNEXPECTED
  end.
(* lib/nghttp3_stream.c:1188-1196 nghttp3_stream_empty_headers_allowed *)
Definition empty_headers_allowed (ph : hphase) : bool :=
  match ph with HpTrailersBegin => true | _ => false end.

(* nghttp3_req_stream_state; FRAME_TYPE .. IGN_REST *)
Inductive rdst := FType | FLen | FData | FHeaders | FIgnFrame | FIgnRest.

(* what read_bidi uses of the stream, and the decoder (conn->qdec).  [b_cons] is the running
   total of nconsumed over all calls (C: a local starting at 0 in each call). *)
Record bst := mk_bst { b_rd : rdst; b_rv : rvint; b_ty : Z; b_left : Z;
                       b_ph : hphase; b_http : http; b_sctx : sctx; b_dec : dec;
                       b_blk : bool;      (* FLAG_QPACK_DECODE_BLOCKED *)
                       b_err : bool;      (* FLAG_HTTP_ERROR *)
                       b_cons : Z }.
(* what it uses of the connection, constant during the call *)
Record benv := mk_benv { e_req : bool;    (* the peer sends requests: conn->server *)
                         e_ext : bool;    (* server && enable_connect_protocol, :1614-1615 *)
                         e_sf : sfparser;
                         e_nopri : bool;  (* PRIORITY_UPDATE_RECVED or SERVER_PRIORITY_SET, :1424-1426 *)
                         e_full : bool }. (* qpack_blocked_streams <= pq_size(qpack_blocked_streams), :1604 *)
(* state of a stream when the first byte arrives: nghttp3_stream_new and :433-434 / submit_request *)
Definition bst_init (id : Z) (h : http) (d : dec) : bst :=
  mk_bst FType rv_reset 0 0 HpInitial h (sctx_init id) d false false 0.
(* placeholder for the state after an error *)
Definition bst_dead : bst := bst_init 0 http_init (dec_init 0 0).
Definition b_fail (e : Z) (evs : list bev) : sres bst bev := SErr e bst_dead evs.

(* nghttp3_stream_read_state_reset, lib/nghttp3_stream.c:177-179 *)
Definition b_reset (s : bst) (ph : hphase) (h : http) (c : Z) : bst :=
  mk_bst FType rv_reset 0 0 ph h (b_sctx s) (b_dec s) (b_blk s) (b_err s) (b_cons s + c).
Definition b_setrd (s : bst) (r : rdst) (rv : rvint) (ty lft : Z) (ph : hphase) (c : Z) : bst :=
  mk_bst r rv ty lft ph (b_http s) (b_sctx s) (b_dec s) (b_blk s) (b_err s) (b_cons s + c).

(* the frames refused on a request stream, :1325-1336 *)
Definition refused (ty : Z) : bool :=
  (ty =? FRAME_PUSH_PROMISE) || (ty =? FRAME_CANCEL_PUSH) || (ty =? FRAME_SETTINGS)
  || (ty =? FRAME_GOAWAY) || (ty =? FRAME_MAX_PUSH_ID) || (ty =? FRAME_PRIORITY_UPDATE)
  || (ty =? FRAME_PRIORITY_UPDATE_PUSH_ID) || (ty =? 2) || (ty =? 6) || (ty =? 8) || (ty =? 9).

Definition H3_MESSAGE_ERROR : Z := 270.    (* nghttp3.h: 0x010e *)

(* the frame header is complete, :1271-1345 *)
Definition frame_start (E : benv) (s : bst) (len : Z) (rest : list Z) (c : Z) : sres bst bev :=
  let ty := b_ty s in
  let fr := [BvFrame ty len] in
  if ty =? FRAME_DATA then
    match transit (e_req E) (b_ph s) (b_http s) HeDataBegin with
    | Ok ph =>
      if len =? 0 then
        match transit (e_req E) ph (b_http s) HeDataEnd with
        | Ok ph' => SGo (b_reset s ph' (b_http s) c) rest false fr
        | _ => SAbort                               (* assert(0 == rv) *)
        end
      else SGo (b_setrd s FData rv_reset ty len ph c) rest false fr
    | Err e => b_fail e []
    | Abort => SAbort
    end
  else if ty =? FRAME_HEADERS then
    match transit (e_req E) (b_ph s) (b_http s) HeHeadersBegin with
    | Ok ph =>
      if len =? 0 then
        if empty_headers_allowed ph then
          match transit (e_req E) ph (b_http s) HeHeadersEnd with
          | Ok ph' => SGo (b_reset s ph' (b_http s) c) rest false fr
          | _ => SAbort
          end
        else b_fail ERR_MALFORMED_HTTP_MESSAGING []
      else
        match ph with
        | HpHeadersBegin => SGo (b_setrd s FHeaders rv_reset ty len ph c) rest false (fr ++ [BvBeginHeaders])
        | HpTrailersBegin => SGo (b_setrd s FHeaders rv_reset ty len ph c) rest false (fr ++ [BvBeginTrailers])
        | _ => SAbort                               (* nghttp3_unreachable *)
        end
    | Err e => b_fail e []
    | Abort => SAbort
    end
  else if refused ty then b_fail ERR_H3_FRAME_UNEXPECTED []
  else SGo (b_setrd s FIgnFrame rv_reset ty len (b_ph s) c) rest true fr.

(* DATA payload, :1347-1366 with nghttp3_conn_on_data :1522-1543.  [pre] = false is the code;
   [pre] = true is a variant used only in proofs, which on the failure of
   nghttp3_http_on_data_chunk first delivers the bytes that still fit in the declared length *)
Definition fits (h : http) : nat := if h_final h then 0%nat else Z.to_nat (h_clen h - h_recv h).
Definition data_step (pre : bool) (E : benv) (s : bst) (p : list Z) : sres bst bev :=
  let n := Z.min (b_left s) (zlen p) in
  let chunk := firstn (Z.to_nat n) p in
  let rest := skipn (Z.to_nat n) p in
  let (h, ok) := on_data_chunk (b_http s) n in
  if ok then
    let lft := b_left s - n in
    if lft =? 0 then
      match transit (e_req E) (b_ph s) h HeDataEnd with
      | Ok ph => SGo (b_reset s ph h 0) rest false (map BvData chunk)
      | _ => SAbort
      end
    else SMore (mk_bst FData (b_rv s) (b_ty s) lft (b_ph s) h (b_sctx s) (b_dec s) (b_blk s) (b_err s) (b_cons s)) (map BvData chunk)
  else b_fail ERR_MALFORMED_HTTP_MESSAGING
         (if pre then map BvData (firstn (fits (b_http s)) chunk) else []).

(* http_header_error, :1457-1476, and the turn of the loop that follows in state IGN_REST
   (busy = 1): everything in [p] is consumed, :1489-1492.  The section context and the
   bytes left in the frame are never looked at again. *)
Definition malformed (s : bst) (h : http) (p : list Z) (evs : list bev) : sres bst bev :=
  SMore (mk_bst FIgnRest rv_reset 0 0 (b_ph s) h (sctx_init 0) (b_dec s) false true (b_cons s + zlen p))
        (evs ++ [BvStopSending H3_MESSAGE_ERROR; BvResetStream H3_MESSAGE_ERROR]).

(* the end of a HEADERS frame, :1397-1455 *)
Definition headers_end (E : benv) (s : bst) (h : http) (sc : sctx) (d : dec) (p rest : list Z) (c : Z) (evs : list bev) : sres bst bev :=
  let trailers := match b_ph s with HpTrailersBegin => true | _ => false end in
  match (match b_ph s with
         | HpHeadersBegin => Ok (if e_req E then on_request_headers h else on_response_headers h)
         | HpTrailersBegin => Ok (h, true)
         | _ => Abort end) with
  | Ok (h', ok) =>
    if ok then
      let pr := if negb trailers && e_req E && h_prio h' && negb (e_nopri E) then [BvPriority (h_pri h')] else [] in
      match transit (e_req E) (b_ph s) h' HeHeadersEnd with
      | Ok ph => SGo (mk_bst FType rv_reset 0 0 ph h' sc d (b_blk s) (b_err s) (b_cons s + c)) rest false
                     (evs ++ pr ++ [if trailers then BvEndTrailers else BvEndHeaders])
      | _ => SAbort
      end
    else malformed (mk_bst (b_rd s) (b_rv s) (b_ty s) (b_left s) (b_ph s) h sc d (b_blk s) (b_err s) (b_cons s)) h' p evs
  | _ => SAbort
  end.

(* HEADERS payload, :1367-1395 with nghttp3_conn_on_headers and conn_decode_headers, :1551-1666 *)
Definition headers_step (E : benv) (s : bst) (p : list Z) : sres bst bev :=
  let n := Z.min (b_left s) (zlen p) in
  let chunk := firstn (Z.to_nat n) p in
  let rest := skipn (Z.to_nat n) p in
  let trailers := match b_ph s with HpTrailersBegin => true | _ => false end in
  let (vs, r) := decode_section (b_dec s) (b_sctx s) chunk (n =? b_left s) in
  let '(h, out, ok) := on_headers (e_sf E) (b_http s) vs (e_req E) trailers (e_ext E) in
  let evs := map (if trailers then BvTrailer else BvHeader) out in
  if negb ok then malformed s h p evs
  else
    match r with
    | RqNone sc =>
      let lft := b_left s - n in
      if lft =? 0 then headers_end E s h sc (b_dec s) p rest n evs
      else SMore (mk_bst FHeaders (b_rv s) (b_ty s) lft (b_ph s) h sc (b_dec s) (b_blk s) (b_err s) (b_cons s + n)) evs
    | RqFinal d sc => headers_end E s h (sctx_init (s_id sc)) d p rest n evs
    | RqBlocked sc rest0 =>
      if e_full E then b_fail ERR_QPACK_DECOMPRESSION_FAILED evs
      else
        let c := n - zlen rest0 in
        SStop (mk_bst FHeaders (b_rv s) (b_ty s) (b_left s - c) (b_ph s) h sc (b_dec s) true (b_err s) (b_cons s + c))
              (rest0 ++ rest) evs
    | RqErr e _ _ => b_fail e evs
    | RqEmit _ _ _ | RqAbort => SAbort
    end.

(* one turn of the loop of nghttp3_conn_read_bidi, :1236-1494.  FRAME_TYPE falls through to
   FRAME_LENGTH in C when input is left: here that is the next turn. *)
Definition bstep (pre : bool) (fin : bool) (E : benv) (s : bst) (p : list Z) : sres bst bev :=
  match b_rd s with
  | FType =>
    match rd_varint (b_rv s) p fin with
    | VDone v rest => SGo (b_setrd s FLen rv_reset v (b_left s) (b_ph s) (zlen p - zlen rest)) rest false []
    | VMore rv => SMore (b_setrd s FType rv (b_ty s) (b_left s) (b_ph s) (zlen p)) []
    | VErr => b_fail ERR_H3_GENERAL_PROTOCOL_ERROR []
    | VAbort => SAbort
    end
  | FLen =>
    match rd_varint (b_rv s) p fin with
    | VDone v rest => frame_start E s v rest (zlen p - zlen rest)
    | VMore rv => SMore (b_setrd s FLen rv (b_ty s) (b_left s) (b_ph s) (zlen p)) []
    | VErr => b_fail ERR_H3_FRAME_ERROR []
    | VAbort => SAbort
    end
  | FData => data_step pre E s p
  | FHeaders => headers_step E s p
  | FIgnFrame =>
    let n := Z.min (b_left s) (zlen p) in
    if b_left s - n =? 0 then SGo (b_reset s (b_ph s) (b_http s) n) (skipn (Z.to_nat n) p) false []
    else SMore (b_setrd s FIgnFrame (b_rv s) (b_ty s) (b_left s - n) (b_ph s) n) []
  | FIgnRest => SMore (b_setrd s FIgnRest (b_rv s) (b_ty s) (b_left s) (b_ph s) (zlen p)) []
  end.
Definition b_rank (s : bst) : nat := match b_rd s with FIgnFrame | FHeaders => 1%nat | _ => 0%nat end.
Definition b_run (pre fin : bool) (E : benv) : bst -> list Z -> bool -> rres bst bev := run (bstep pre fin E) 2 b_rank.

(* almost_done, :1497-1519 *)
Definition b_finish (E : benv) (s : bst) (evs : list bev) : rres bst bev :=
  match b_rd s with
  | FType =>
    if negb (rv_left (b_rv s) =? 0) then RErr ERR_H3_GENERAL_PROTOCOL_ERROR bst_dead evs
    else match transit (e_req E) (b_ph s) (b_http s) HeMsgEnd with
         | Ok ph => ROk (b_setrd s FType (b_rv s) (b_ty s) (b_left s) ph 0) (evs ++ [BvEndStream])
         | Err e => RErr e bst_dead evs
         | Abort => RAbort
         end
  | FIgnRest => ROk s evs
  | _ => RErr ERR_H3_FRAME_ERROR bst_dead evs
  end.
(* the call on a stream that is neither shut nor blocked; RStop carries the unread input *)
Definition b_read (pre : bool) (E : benv) (s : bst) (src : list Z) (fin : bool) : rres bst bev :=
  match b_run pre fin E s src false with
  | ROk s' evs => if fin then b_finish E s' evs else ROk s' evs
  | r => r
  end.
