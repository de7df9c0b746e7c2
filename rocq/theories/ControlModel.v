(* Model of reading the peer's control stream: lib/nghttp3_conn.c:624-1049
   (nghttp3_conn_read_control) and :1668-1748 (nghttp3_conn_on_settings_entry_received).
   Simplifications: callbacks always succeed; after an error return nothing is said about the
   state (the connection must be closed); nghttp3_conn_on_priority_update is split: its only
   error (:1757-1759) is decided here, its effect on the stream is the event CvPriority, which
   the connection model applies (ConnModel.v). *)
From Verif Require Import Base BaseLemmas ConvModel RdVarint HttpModel Chunk.
Open Scope Z_scope.

(* lib/nghttp3_stream.c:1200-1214 *)
Definition stream_uni (id : Z) : bool := negb (Z.land id 2 =? 0).
Definition client_bidi (id : Z) : bool := Z.land id 3 =? 0.
Definition client_uni (id : Z) : bool := Z.land id 3 =? 2.
Definition server_uni (id : Z) : bool := Z.land id 3 =? 3.
(* lib/nghttp3_conv.c nghttp3_ord_stream_id: (stream_id >> 2) + 1 *)
Definition ord_stream_id (id : Z) : Z := Z.shiftr id 2 + 1.

(* the fields of nghttp3_settings a SETTINGS frame can set, lib/includes/nghttp3/nghttp3.h *)
Record rset := mk_rset { rs_field : Z; rs_cap : Z; rs_blocked : Z; rs_connect : Z; rs_datagram : Z }.
(* nghttp3_settings_default, lib/nghttp3_conn.c:2644-2654 *)
Definition rset_init : rset := mk_rset max_varint 0 0 0 0.

Inductive cev :=
| CvFrame (ty len : Z)          (* not a callback: a frame header was taken off the wire *)
| CvEncCap (v : Z)              (* nghttp3_qpack_encoder_set_max_dtable_capacity(qenc, v) *)
| CvEncBlocked (v : Z)          (* nghttp3_qpack_encoder_set_max_blocked_streams(qenc, v) *)
| CvSettings (r : rset)         (* recv_settings callback *)
| CvShutdown (id : Z)           (* shutdown callback *)
| CvElem (id n : Z)             (* not a callback: the element ID of a PRIORITY_UPDATE frame was read, n bytes follow *)
| CvPriority (id : Z) (p : pri). (* nghttp3_conn_on_priority_update *)

(* lib/nghttp3_frame.h:70-79 *)
Definition SETTINGS_CAP := 1.
Definition SETTINGS_FIELD := 6.
Definition SETTINGS_BLOCKED := 7.
Definition SETTINGS_CONNECT := 8.
Definition SETTINGS_DATAGRAM := 51.

(* lib/nghttp3_conn.c:1668-1748 nghttp3_conn_on_settings_entry_received *)
Definition settings_entry (server : bool) (r : rset) (id v : Z) : outcome (rset * list cev) :=
  if id =? SETTINGS_FIELD then Ok (mk_rset v (rs_cap r) (rs_blocked r) (rs_connect r) (rs_datagram r), [])
  else if id =? SETTINGS_CAP then
    if negb (rs_cap r =? 0) then Err ERR_H3_SETTINGS_ERROR
    else if v =? 0 then Ok (r, [])
    else Ok (mk_rset (rs_field r) v (rs_blocked r) (rs_connect r) (rs_datagram r), [CvEncCap v])
  else if id =? SETTINGS_BLOCKED then
    if negb (rs_blocked r =? 0) then Err ERR_H3_SETTINGS_ERROR
    else if v =? 0 then Ok (r, [])
    else Ok (mk_rset (rs_field r) (rs_cap r) v (rs_connect r) (rs_datagram r), [CvEncBlocked (Z.min 100 v)])
  else if id =? SETTINGS_CONNECT then
    if negb server then Ok (r, [])
    else if v =? 0 then
      if negb (rs_connect r =? 0) then Err ERR_H3_SETTINGS_ERROR
      else Ok (mk_rset (rs_field r) (rs_cap r) (rs_blocked r) v (rs_datagram r), [])
    else if v =? 1 then Ok (mk_rset (rs_field r) (rs_cap r) (rs_blocked r) v (rs_datagram r), [])
    else Err ERR_H3_SETTINGS_ERROR
  else if id =? SETTINGS_DATAGRAM then
    if (v =? 0) || (v =? 1) then Ok (mk_rset (rs_field r) (rs_cap r) (rs_blocked r) (rs_connect r) v, [])
    else Err ERR_H3_SETTINGS_ERROR
  else if (id =? 2) || (id =? 3) || (id =? 4) || (id =? 5) then Err ERR_H3_SETTINGS_ERROR
  else Ok (r, []).

(* nghttp3_ctrl_stream_state, lib/nghttp3_stream.h:61-72; SETTINGS_ID is merged with SETTINGS *)
Inductive crd := CType | CLen | CSetId | CSetVal | CGoaway | CMaxPush | CElemId | CPrio | CIgn.

Record cst := mk_cst {
  c_rd : crd; c_rv : rvint; c_ty : Z; c_left : Z;   (* rstate *)
  c_id : Z;               (* fr.settings.iv[0].id or fr.priority_update.pri_elem_id *)
  c_seen : bool;          (* CONN_FLAG_SETTINGS_RECVED *)
  c_set : rset;           (* conn->remote.settings *)
  c_goaway : Z;           (* conn->rx.goaway_id *)
  c_closing : bool;       (* CONN_FLAG_GOAWAY_RECVED *)
  c_pushes : Z;           (* conn->local.uni.max_pushes *)
  c_buf : list Z }.       (* conn->rx.pri_fieldbuf[0..pri_fieldbuflen) *)
(* conn_new, lib/nghttp3_conn.c:232-300, and conn_read_type :511-513 *)
Definition cst_init : cst := mk_cst CType rv_reset 0 0 0 false rset_init (max_varint + 1) false 0 [].
(* what it uses of the connection *)
Record cenv := mk_cenv { ce_server : bool; ce_max : Z (* remote.bidi.max_client_streams *); ce_sf : sfparser }.

Definition c_fail (e : Z) (evs : list cev) : sres cst cev := SErr e cst_init evs.
(* nghttp3_stream_read_state_reset *)
Definition c_reset (s : cst) : cst :=
  mk_cst CType rv_reset 0 0 0 (c_seen s) (c_set s) (c_goaway s) (c_closing s) (c_pushes s) (c_buf s).
Definition c_go (s : cst) (r : crd) (rv : rvint) (lft id : Z) : cst :=
  mk_cst r rv (c_ty s) lft id (c_seen s) (c_set s) (c_goaway s) (c_closing s) (c_pushes s) (c_buf s).
Definition c_with_set (s : cst) (r : rset) : cst :=
  mk_cst (c_rd s) (c_rv s) (c_ty s) (c_left s) (c_id s) (c_seen s) r (c_goaway s) (c_closing s) (c_pushes s) (c_buf s).
Definition c_with_buf (s : cst) (b : list Z) : cst :=
  mk_cst (c_rd s) (c_rv s) (c_ty s) (c_left s) (c_id s) (c_seen s) (c_set s) (c_goaway s) (c_closing s) (c_pushes s) b.

(* reading an integer inside a frame: len = min(left, end - p), nghttp3_read_varint(p, p + len,
   frame_fin(len)); with the remaining frame length *)
Inductive fvres := FvMore (rv : rvint) (lft : Z) | FvDone (v lft : Z) (rest : list Z) | FvErr | FvAbort.
Definition fr_varint (rv : rvint) (lft : Z) (p : list Z) : fvres :=
  let len := Z.min lft (zlen p) in
  if len <=? 0 then FvAbort                         (* assert(len > 0) *)
  else
    match rd_varint rv (firstn (Z.to_nat len) p) (lft <=? len) with
    | VMore rv' => FvMore rv' (lft - len)
    | VDone v r => let n := len - zlen r in FvDone v (lft - n) (skipn (Z.to_nat n) p)
    | VErr => FvErr
    | VAbort => FvAbort
    end.

(* the frame types refused on a control stream, :731-739 *)
Definition c_refused (ty : Z) : bool :=
  (ty =? FRAME_CANCEL_PUSH) || (ty =? FRAME_DATA) || (ty =? FRAME_HEADERS) || (ty =? FRAME_PUSH_PROMISE)
  || (ty =? 2) || (ty =? 6) || (ty =? 8) || (ty =? 9).
(* the frame header is complete, :681-747 *)
Definition c_frame_start (E : cenv) (s : cst) (len : Z) (rest : list Z) : sres cst cev :=
  let ty := c_ty s in
  let fr := [CvFrame ty len] in
  if negb (c_seen s) && negb (ty =? FRAME_SETTINGS) then c_fail ERR_H3_MISSING_SETTINGS []
  else if c_seen s && (ty =? FRAME_SETTINGS) then c_fail ERR_H3_FRAME_UNEXPECTED []
  else
    let s := mk_cst (c_rd s) rv_reset ty len (c_id s) true (c_set s) (c_goaway s) (c_closing s) (c_pushes s) (c_buf s) in
    let go r := SGo (c_go s r rv_reset len (c_id s)) rest false fr in
    if ty =? FRAME_SETTINGS then
      if len =? 0 then SGo (c_reset s) rest false (fr ++ [CvSettings (c_set s)]) else go CSetId
    else if ty =? FRAME_GOAWAY then if len =? 0 then c_fail ERR_H3_FRAME_ERROR [] else go CGoaway
    else if ty =? FRAME_MAX_PUSH_ID then
      if negb (ce_server E) then c_fail ERR_H3_FRAME_UNEXPECTED []
      else if len =? 0 then c_fail ERR_H3_FRAME_ERROR [] else go CMaxPush
    else if ty =? FRAME_PRIORITY_UPDATE then
      if negb (ce_server E) then c_fail ERR_H3_FRAME_UNEXPECTED []
      else if len =? 0 then c_fail ERR_H3_FRAME_ERROR [] else go CElemId
    else if ty =? FRAME_PRIORITY_UPDATE_PUSH_ID then c_fail ERR_H3_ID_ERROR []
    else if c_refused ty then c_fail ERR_H3_FRAME_UNEXPECTED []
    else SGo (c_go s CIgn rv_reset len (c_id s)) rest true fr.

(* conn_on_priority_update_stream, :1750-1760 *)
Definition prio_allowed (E : cenv) (id : Z) : bool := client_bidi id && (ord_stream_id id <=? ce_max E).

(* IGN_FRAME, :1030-1042 *)
Definition c_ign (s : cst) (p : list Z) : sres cst cev :=
  let len := Z.min (c_left s) (zlen p) in
  if c_left s - len =? 0 then SGo (c_reset s) (skipn (Z.to_nat len) p) false []
  else SMore (c_go s CIgn rv_reset (c_left s - len) (c_id s)) [].

(* PRIORITY_UPDATE, :973-1029.  [fx] = false is the code; [fx] = true is a variant used only in
   proofs: an over-long value empties the buffer and is skipped in the same turn *)
Definition pri_bufsize : Z := 8.                    (* sizeof(conn->rx.pri_fieldbuf) *)
Definition c_prio (fx : bool) (E : cenv) (s : cst) (p : list Z) : sres cst cev :=
  let len := Z.min (c_left s) (zlen p) in
  let take := firstn (Z.to_nat len) p in
  let rest := skipn (Z.to_nat len) p in
  let toolong :=
    if fx then c_ign (c_with_buf s []) p
    else SGo (c_go s CIgn (c_rv s) (c_left s) (c_id s)) p true [] in
  let done value :=
    match parse_priority (ce_sf E) (mk_pri DEFAULT_URGENCY 0) value with
    | None => c_fail ERR_H3_GENERAL_PROTOCOL_ERROR []
    | Some pr =>
      if negb (ce_server E) then SAbort            (* assert(conn->server), :1808 *)
      else if prio_allowed E (c_id s) then SGo (c_reset (c_with_buf s [])) rest false [CvPriority (c_id s) pr]
      else c_fail ERR_H3_ID_ERROR []
    end in
  if len <=? 0 then SAbort                          (* assert(len > 0) *)
  else if (zlen (c_buf s) =? 0) && (c_left s =? len) then
    if pri_bufsize <? len then toolong else done take
  else if pri_bufsize <? len + zlen (c_buf s) then toolong
  else if c_left s =? len then done (c_buf s ++ take)
  else SMore (c_with_buf (c_go s CPrio rv_reset (c_left s - len) (c_id s)) (c_buf s ++ take)) [].

(* one turn of the loop of nghttp3_conn_read_control.  The inner loop of case SETTINGS
   (:749-815) is unrolled over turns: one turn per identifier, one per value *)
Definition c_step (fx : bool) (E : cenv) (s : cst) (p : list Z) : sres cst cev :=
  match c_rd s with
  | CType =>                                        (* :647-666 *)
    match rd_varint (c_rv s) p false with
    | VDone v rest => SGo (mk_cst CLen rv_reset v (c_left s) (c_id s) (c_seen s) (c_set s) (c_goaway s) (c_closing s) (c_pushes s) (c_buf s)) rest false []
    | VMore rv => SMore (c_go s CType rv (c_left s) (c_id s)) []
    | VErr => c_fail ERR_H3_GENERAL_PROTOCOL_ERROR []
    | VAbort => SAbort
    end
  | CLen =>                                         (* :667-748 *)
    match rd_varint (c_rv s) p false with
    | VDone v rest => c_frame_start E s v rest
    | VMore rv => SMore (c_go s CLen rv (c_left s) (c_id s)) []
    | VErr => c_fail ERR_H3_FRAME_ERROR []
    | VAbort => SAbort
    end
  | CSetId =>                                       (* :762-783, :816-842 *)
    match fr_varint (c_rv s) (c_left s) p with
    | FvDone v lft rest =>
      if lft =? 0 then c_fail ERR_H3_FRAME_ERROR []
      else SGo (c_go s CSetVal rv_reset lft v) rest false []
    | FvMore rv lft => SMore (c_go s CSetId rv lft (c_id s)) []
    | FvErr => c_fail ERR_H3_FRAME_ERROR []
    | FvAbort => SAbort
    end
  | CSetVal =>                                      (* :785-814, :843-876 *)
    match fr_varint (c_rv s) (c_left s) p with
    | FvDone v lft rest =>
      match settings_entry (ce_server E) (c_set s) (c_id s) v with
      | Ok (r, evs) =>
        if lft =? 0 then SGo (c_reset (c_with_set s r)) rest false (evs ++ [CvSettings r])
        else SGo (c_go (c_with_set s r) CSetId rv_reset lft (c_id s)) rest false evs
      | Err e => c_fail e []
      | Abort => SAbort
      end
    | FvMore rv lft => SMore (c_go s CSetVal rv lft (c_id s)) []
    | FvErr => c_fail ERR_H3_FRAME_ERROR []
    | FvAbort => SAbort
    end
  | CGoaway =>                                      (* :877-912 *)
    match fr_varint (c_rv s) (c_left s) p with
    | FvDone v lft rest =>
      if negb (ce_server E) && negb (client_bidi v) then c_fail ERR_H3_ID_ERROR []
      else if c_goaway s <? v then c_fail ERR_H3_ID_ERROR []
      else SGo (c_reset (mk_cst CGoaway rv_reset (c_ty s) lft (c_id s) (c_seen s) (c_set s) v true (c_pushes s) (c_buf s))) rest false [CvShutdown v]
    | FvMore rv lft => SMore (c_go s CGoaway rv lft (c_id s)) []
    | FvErr => c_fail ERR_H3_FRAME_ERROR []
    | FvAbort => SAbort
    end
  | CMaxPush =>                                     (* :913-937 *)
    match fr_varint (c_rv s) (c_left s) p with
    | FvDone v lft rest =>
      if v + 1 <? c_pushes s then c_fail ERR_H3_FRAME_ERROR []
      else SGo (c_reset (mk_cst CMaxPush rv_reset (c_ty s) lft (c_id s) (c_seen s) (c_set s) (c_goaway s) (c_closing s) (v + 1) (c_buf s))) rest false []
    | FvMore rv lft => SMore (c_go s CMaxPush rv lft (c_id s)) []
    | FvErr => c_fail ERR_H3_FRAME_ERROR []
    | FvAbort => SAbort
    end
  | CElemId =>                                      (* :938-972; then falls through to PRIORITY_UPDATE even if p == end *)
    match fr_varint (c_rv s) (c_left s) p with
    | FvDone v lft rest =>
      if lft =? 0 then
        if negb (ce_server E) then SAbort
        else if prio_allowed E v then SGo (c_reset s) rest false [CvElem v lft; CvPriority v (mk_pri DEFAULT_URGENCY 0)]
        else c_fail ERR_H3_ID_ERROR []
      else if negb fx && (zlen rest =? 0) then SAbort       (* assert(len > 0), :977 *)
      else SGo (c_go s CPrio rv_reset lft v) rest false [CvElem v lft]
    | FvMore rv lft => SMore (c_go s CElemId rv lft (c_id s)) []
    | FvErr => c_fail ERR_H3_FRAME_ERROR []
    | FvAbort => SAbort
    end
  | CPrio => c_prio fx E s p
  | CIgn => c_ign s p
  end.

Definition c_rank (s : cst) : nat := match c_rd s with CPrio => 2 | CIgn => 1 | _ => 0 end.
(* nghttp3_conn_read_control on a non-empty piece *)
Definition read_control (fx : bool) (E : cenv) (s : cst) (src : list Z) : rres cst cev :=
  run (c_step fx E) 3 c_rank s src false.
(* calls one after another *)
Definition read_pieces (E : cenv) (s : cst) (ps : list (list Z)) : rres cst cev :=
  feed (c_step false E) 3 c_rank s ps.
