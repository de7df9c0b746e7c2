(* Model of the connection: lib/nghttp3_conn.c.  Each call of the API is a step from one connection state to the
   next, with the value returned and the callbacks made.  It composes the models of the parts: BidiModel/BidiHist
   (request streams), ControlModel (control stream), QpackDecModel (decoder), TxModel (sending side), SchedModel
   (scheduler), GapModel (identifiers), PqModel (queue of blocked streams).
   Simplifications: memory is never exhausted, callbacks succeed and make no API calls; the QPACK encoder and the
   data readers are oracles (te_enc, te_rd), and so is what the encoder makes of the peer's decoder stream
   (ke_dec); the map of streams is an association list; the QPACK decoder, shared by all streams in C, is copied
   into a stream's state for the time of a call; a priority found while reading is applied to the scheduler when
   the read returns (nothing in between looks at it); deferred_consume calls made in one call of the API for one
   stream are added up; unscheduled_nwrite of unidirectional streams, which is never read, is not kept.
   After an error from reading or writing the connection must be closed, so nothing is said about its state.
   The streams in qpack_blocked_streams are those with the blocked flag (proved in ConnWf.v) *)
From Verif Require Import Base BaseLemmas Chunk ConvModel RdVarint QpackTabModel QpackDecModel HttpModel BidiModel BidiHist ControlModel GapModel PqModel TxModel SchedModel.
Open Scope Z_scope.

(* the type of a unidirectional stream: UNone until TYPE_IDENTIFIED is set, with the reader of the type.  In C
   stream->type is 0 = CONTROL before that *)
Inductive utype := UNone (rv : rvint) | UCtl | UEnc | UDec | UUnk.
Record stream := mk_str { st_x : rx; st_t : txs; st_u : utype;
  st_fc : bool;    (* FC_BLOCKED *)
  st_swr : bool;   (* SHUT_WR *)
  st_pu : bool;    (* PRIORITY_UPDATE_RECVED *)
  st_sp : bool;    (* SERVER_PRIORITY_SET *)
  st_code : Z }.   (* error_code *)
Definition ss_x s v := mk_str v (st_t s) (st_u s) (st_fc s) (st_swr s) (st_pu s) (st_sp s) (st_code s).
Definition ss_t s v := mk_str (st_x s) v (st_u s) (st_fc s) (st_swr s) (st_pu s) (st_sp s) (st_code s).
Definition ss_u s v := mk_str (st_x s) (st_t s) v (st_fc s) (st_swr s) (st_pu s) (st_sp s) (st_code s).
Definition ss_fc s v := mk_str (st_x s) (st_t s) (st_u s) v (st_swr s) (st_pu s) (st_sp s) (st_code s).
Definition ss_swr s v := mk_str (st_x s) (st_t s) (st_u s) (st_fc s) v (st_pu s) (st_sp s) (st_code s).
Definition ss_pu s v := mk_str (st_x s) (st_t s) (st_u s) (st_fc s) (st_swr s) v (st_sp s) (st_code s).
Definition ss_sp s v := mk_str (st_x s) (st_t s) (st_u s) (st_fc s) (st_swr s) (st_pu s) v (st_code s).
Definition ss_code s v := mk_str (st_x s) (st_t s) (st_u s) (st_fc s) (st_swr s) (st_pu s) (st_sp s) v.

(* what does not change: the role, the local settings, the oracles *)
Record kenv := mk_ke { ke_server : bool; ke_set : settings; ke_sf : sfparser; ke_tx : Z -> txenv; ke_dec : nat -> list Z -> outcome Z }.
Record conn := mk_conn {
  k_str : list (Z * stream);     (* conn->streams *)
  k_dec : dec;                   (* conn->qdec *)
  k_blk : pq;                    (* qpack_blocked_streams *)
  k_sch : sch;                   (* the nodes of all streams, conn->sched *)
  k_idtr : gaptr;                (* remote.bidi.idtr *)
  k_ctl : cst;                   (* the peer's control stream, remote.settings, rx.goaway_id, GOAWAY_RECVED *)
  k_copen : bool; k_eopen : bool; k_dopen : bool;   (* CONTROL_OPENED, QPACK_ENCODER_OPENED, QPACK_DECODER_OPENED *)
  k_goaway : Z;                  (* tx.goaway_id *)
  k_queued : bool;               (* GOAWAY_QUEUED *)
  k_shut : bool;                 (* SHUTDOWN_COMMENCED *)
  k_maxid : Z;                   (* rx.max_stream_id_bidi *)
  k_num : Z;                     (* remote.bidi.num_streams *)
  k_maxcl : Z;                   (* remote.bidi.max_client_streams *)
  k_tctl : option Z; k_tenc : option Z; k_tdec : option Z;   (* tx.ctrl, tx.qenc, tx.qdec *)
  k_ndec : nat }.                (* calls of ke_dec so far *)
Definition kk_str c v := mk_conn v (k_dec c) (k_blk c) (k_sch c) (k_idtr c) (k_ctl c) (k_copen c) (k_eopen c) (k_dopen c) (k_goaway c) (k_queued c) (k_shut c) (k_maxid c) (k_num c) (k_maxcl c) (k_tctl c) (k_tenc c) (k_tdec c) (k_ndec c).
Definition kk_dec c v := mk_conn (k_str c) v (k_blk c) (k_sch c) (k_idtr c) (k_ctl c) (k_copen c) (k_eopen c) (k_dopen c) (k_goaway c) (k_queued c) (k_shut c) (k_maxid c) (k_num c) (k_maxcl c) (k_tctl c) (k_tenc c) (k_tdec c) (k_ndec c).
Definition kk_blk c v := mk_conn (k_str c) (k_dec c) v (k_sch c) (k_idtr c) (k_ctl c) (k_copen c) (k_eopen c) (k_dopen c) (k_goaway c) (k_queued c) (k_shut c) (k_maxid c) (k_num c) (k_maxcl c) (k_tctl c) (k_tenc c) (k_tdec c) (k_ndec c).
Definition kk_sch c v := mk_conn (k_str c) (k_dec c) (k_blk c) v (k_idtr c) (k_ctl c) (k_copen c) (k_eopen c) (k_dopen c) (k_goaway c) (k_queued c) (k_shut c) (k_maxid c) (k_num c) (k_maxcl c) (k_tctl c) (k_tenc c) (k_tdec c) (k_ndec c).
Definition kk_idtr c v := mk_conn (k_str c) (k_dec c) (k_blk c) (k_sch c) v (k_ctl c) (k_copen c) (k_eopen c) (k_dopen c) (k_goaway c) (k_queued c) (k_shut c) (k_maxid c) (k_num c) (k_maxcl c) (k_tctl c) (k_tenc c) (k_tdec c) (k_ndec c).
Definition kk_ctl c v := mk_conn (k_str c) (k_dec c) (k_blk c) (k_sch c) (k_idtr c) v (k_copen c) (k_eopen c) (k_dopen c) (k_goaway c) (k_queued c) (k_shut c) (k_maxid c) (k_num c) (k_maxcl c) (k_tctl c) (k_tenc c) (k_tdec c) (k_ndec c).
Definition kk_open c a b d := mk_conn (k_str c) (k_dec c) (k_blk c) (k_sch c) (k_idtr c) (k_ctl c) a b d (k_goaway c) (k_queued c) (k_shut c) (k_maxid c) (k_num c) (k_maxcl c) (k_tctl c) (k_tenc c) (k_tdec c) (k_ndec c).
Definition kk_goaway c g q s := mk_conn (k_str c) (k_dec c) (k_blk c) (k_sch c) (k_idtr c) (k_ctl c) (k_copen c) (k_eopen c) (k_dopen c) g q s (k_maxid c) (k_num c) (k_maxcl c) (k_tctl c) (k_tenc c) (k_tdec c) (k_ndec c).
Definition kk_maxid c v := mk_conn (k_str c) (k_dec c) (k_blk c) (k_sch c) (k_idtr c) (k_ctl c) (k_copen c) (k_eopen c) (k_dopen c) (k_goaway c) (k_queued c) (k_shut c) v (k_num c) (k_maxcl c) (k_tctl c) (k_tenc c) (k_tdec c) (k_ndec c).
Definition kk_num c v := mk_conn (k_str c) (k_dec c) (k_blk c) (k_sch c) (k_idtr c) (k_ctl c) (k_copen c) (k_eopen c) (k_dopen c) (k_goaway c) (k_queued c) (k_shut c) (k_maxid c) v (k_maxcl c) (k_tctl c) (k_tenc c) (k_tdec c) (k_ndec c).
Definition kk_maxcl c v := mk_conn (k_str c) (k_dec c) (k_blk c) (k_sch c) (k_idtr c) (k_ctl c) (k_copen c) (k_eopen c) (k_dopen c) (k_goaway c) (k_queued c) (k_shut c) (k_maxid c) (k_num c) v (k_tctl c) (k_tenc c) (k_tdec c) (k_ndec c).
Definition kk_tx c a b d := mk_conn (k_str c) (k_dec c) (k_blk c) (k_sch c) (k_idtr c) (k_ctl c) (k_copen c) (k_eopen c) (k_dopen c) (k_goaway c) (k_queued c) (k_shut c) (k_maxid c) (k_num c) (k_maxcl c) a b d (k_ndec c).
Definition kk_ndec c v := mk_conn (k_str c) (k_dec c) (k_blk c) (k_sch c) (k_idtr c) (k_ctl c) (k_copen c) (k_eopen c) (k_dopen c) (k_goaway c) (k_queued c) (k_shut c) (k_maxid c) (k_num c) (k_maxcl c) (k_tctl c) (k_tenc c) (k_tdec c) v.
(* lib/nghttp3_conn.c:232-292 conn_new *)
Definition conn_init (K : kenv) : conn :=
  mk_conn [] (dec_init (s_cap (ke_set K)) (TxModel.s_blk (ke_set K))) (pq_init (fun _ => O)) sch_init gaptr_init cst_init
    false false false (max_varint + 1) false false (-4) 0 0 None None None O.

(* what the application and the transport see *)
Inductive kev :=
| KStream (id : Z) (e : bev)
| KControl (e : cev)
| KDeferred (id n : Z)                                        (* deferred_consume, total *)
| KClosed (id code : Z)                                       (* stream_close *)
| KStop (id code : Z)                                         (* stop_sending *)
| KReset (id code : Z)                                        (* reset_stream *)
| KOffer (id : Z) (vecs : list (list Z)) (fin : bool)         (* what writev_stream offers *)
| KAcked (id n : Z).                                          (* acked_stream_data *)
Inductive kres := KOk (c : conn) (rv : Z) (evs : list kev) | KDead (e : Z) (evs : list kev) | KAbort.
Definition k_lift (o : outcome conn) : kres := match o with Ok c => KOk c 0 [] | Err e => KDead e [] | Abort => KAbort end.
Definition k_evs (l : list kev) (r : kres) : kres :=
  match r with KOk c rv evs => KOk c rv (l ++ evs) | KDead e evs => KDead e (l ++ evs) | KAbort => KAbort end.

(* the map of streams *)
Fixpoint find_s (l : list (Z * stream)) (id : Z) : option stream :=
  match l with [] => None | (i, s) :: l' => if i =? id then Some s else find_s l' id end.
Fixpoint set_s (l : list (Z * stream)) (id : Z) (s : stream) : list (Z * stream) :=
  match l with [] => [] | (i, t) :: l' => if i =? id then (i, s) :: l' else (i, t) :: set_s l' id s end.
Definition del_s (l : list (Z * stream)) (id : Z) : list (Z * stream) := filter (fun p => negb (fst p =? id)) l.
(* lib/nghttp3_conn.c:1860-1864 nghttp3_conn_find_stream *)
Definition find_stream (c : conn) (id : Z) : option stream := find_s (k_str c) id.
Definition put (c : conn) (id : Z) (s : stream) : conn := kk_str c (set_s (k_str c) id s).
Definition is_server_bidi (K : kenv) (id : Z) : bool := ke_server K && client_bidi id.
(* lib/nghttp3_conn.c:1821-1858 nghttp3_conn_create_stream; nghttp3_map_insert fails if the key is in use *)
Definition new_stream (id : Z) (x : rx) : stream := mk_str x tx_init (UNone rv_reset) false false false false 0.
Definition create_stream (K : kenv) (c : conn) (id : Z) (s : stream) : outcome conn :=
  match find_stream c id with
  | Some _ => Err ERR_INVALID_ARGUMENT
  | None =>
    let c := kk_sch (kk_str c ((id, s) :: k_str c)) (sc_create (k_sch c) id) in
    Ok (if is_server_bidi K id then kk_num c (k_num c + 1) else c)
  end.
(* lib/nghttp3_stream.c:800-804 nghttp3_stream_is_blocked *)
Definition is_blocked (s : stream) : bool := st_fc s || st_swr s || t_rdblk (st_t s).
(* lib/nghttp3_stream.c:806-812 nghttp3_stream_require_schedule *)
Definition require (s : stream) : bool :=
  (negb (write_done (st_t s)) && negb (st_fc s) && negb (st_swr s)) ||
  (negb (Nat.eqb (length (t_frq (st_t s))) 0) && negb (t_rdblk (st_t s))).
(* apply an operation of the scheduler *)
Definition sched_do (c : conn) (o : outcome sch) : outcome conn :=
  match o with Ok s => Ok (kk_sch c s) | Err e => Err e | Abort => Abort end.
(* lib/nghttp3_conn.c:1180-1200 conn_update_stream_priority *)
Definition update_priority (c : conn) (id : Z) (s : stream) (p : pri) : outcome conn :=
  if negb (client_bidi id) then Abort else sched_do c (sc_priority (k_sch c) id p (require s)).
(* lib/nghttp3_conn.c:209-218 ricnt_less *)
Definition ricnt (c : conn) (id : Z) : Z := match find_stream c id with Some s => s_ricnt (b_sctx (x_st (st_x s))) | None => 0 end.
Definition ricnt_less (c : conn) (x y : Z) : bool := ricnt c x <? ricnt c y.
(* :1614-1615, :1424-1426, :1604 *)
Definition benv_of (K : kenv) (c : conn) (s : stream) : benv :=
  mk_benv (ke_server K) (ke_server K && s_conn (ke_set K)) (ke_sf K) (st_pu s || st_sp s) (TxModel.s_blk (ke_set K) <=? Z.of_nat (pq_size (k_blk c))).
(* the priority found in the header section, :1424-1433 *)
Definition prios (evs : list bev) : list pri := concat (map (fun e => match e with BvPriority p => [p] | _ => [] end) evs).
Fixpoint apply_prios (c : conn) (id : Z) (s : stream) (l : list pri) : outcome conn :=
  match l with [] => Ok c | p :: l' => let! c := update_priority c id s p in apply_prios c id s l' end.
(* what reading leaves: the stream, the decoder, the queue of blocked streams (:1608-1612) and the priority *)
Definition after_read (c : conn) (id : Z) (s : stream) (x : rx) (evs : list bev) : outcome conn :=
  let s' := ss_x s x in
  let c := kk_dec (put c id s') (b_dec (x_st x)) in
  let c := if b_blk (x_st x) && negb (b_blk (x_st (st_x s))) then kk_blk c (pq_push (ricnt_less c) (k_blk c) id) else c in
  apply_prios c id s' (prios evs).
(* the state a stream's reader starts from *)
Definition rx_now (c : conn) (s : stream) : rx := x_set_st (st_x s) (st_dec (x_st (st_x s)) (k_dec c)).
(* nghttp3_conn_read_bidi called by nghttp3_conn_read_stream, :474-482 *)
Definition read_request_stream (K : kenv) (c : conn) (id : Z) (s : stream) (src : list Z) (fin : bool) : kres :=
  let x := rx_now c s in
  match recv false (benv_of K c s) x src fin with
  | XOk x' evs =>
    match after_read c id s x' evs with
    | Ok c => KOk c (x_ret x' - x_ret x) (map (KStream id) evs)
    | Err e => KDead e (map (KStream id) evs)
    | Abort => KAbort
    end
  | XErr e evs => KDead e (map (KStream id) evs)
  | XGone _ _ | XAbort => KAbort
  end.
Definition deferred (id n : Z) : list kev := if n =? 0 then [] else [KDeferred id n].
(* lib/nghttp3_conn.c:1050-1082 conn_delete_stream, after the buffered bytes are reported *)
Definition drop_stream (K : kenv) (c : conn) (id : Z) (s : stream) (evs : list kev) : kres :=
  let c' := kk_str c (del_s (k_str c) id) in
  let close := if client_bidi id then [KClosed id (st_code s)] else [] in
  if is_server_bidi K id then
    if k_num c <=? 0 then KAbort else KOk (kk_num c' (k_num c - 1)) 0 (evs ++ close)
  else KOk c' 0 (evs ++ close).
Definition delete_stream (K : kenv) (c : conn) (id : Z) (s : stream) : kres :=
  drop_stream K c id s (deferred id (buffered_len (x_inq (st_x s)))).
(* lib/nghttp3_conn.c:1139-1170 nghttp3_conn_read_qpack_encoder, the loop; fuel: each turn takes a stream out *)
Fixpoint unblock_loop (K : kenv) (fuel : nat) (c : conn) : kres :=
  match fuel with
  | O => KAbort
  | S f =>
    if pq_empty (k_blk c) then KOk c 0 []
    else
      match pq_top (k_blk c) with
      | Ok id =>
        match find_stream c id with
        | None => KAbort          (* the entry belongs to a deleted stream *)
        | Some s =>
          if next_absidx (d_ctx (k_dec c)) <? ricnt c id then KOk c 0 []
          else
            match pq_pop (ricnt_less c) (k_blk c) with
            | Ok q =>
              let c := kk_blk c q in
              let x := x_set_st (rx_now c s) (st_blk (x_st (rx_now c s)) false) in
              let s := ss_x s x in
              match resume false (benv_of K c s) x with
              | XOk x' evs =>
                match after_read c id s x' evs with
                | Ok c => k_evs (map (KStream id) evs ++ deferred id (x_def x' - x_def x)) (unblock_loop K f c)
                | Err e => KDead e (map (KStream id) evs)
                | Abort => KAbort
                end
              | XGone x' evs =>
                match after_read c id s x' evs with
                | Ok c =>
                  match drop_stream K c id s (map (KStream id) evs ++ deferred id (x_def x' - x_def x)) with
                  | KOk c _ evs => k_evs evs (unblock_loop K f c)
                  | r => r
                  end
                | Err e => KDead e (map (KStream id) evs)
                | Abort => KAbort
                end
              | XErr e evs => KDead e (map (KStream id) evs)
              | XAbort => KAbort
              end
            | _ => KAbort
            end
        end
      | _ => KAbort
      end
  end.
Definition read_qpack_encoder (K : kenv) (c : conn) (src : list Z) : kres :=
  let (d, o) := read_encoder (k_dec c) src in
  match o with
  | Ok n =>
    match unblock_loop K (S (pq_size (k_blk c))) (kk_dec c d) with
    | KOk c _ evs => KOk c n evs
    | r => r
    end
  | Err e => KDead e []
  | Abort => KAbort
  end.
(* lib/nghttp3_conn.c:1750-1803 conn_on_priority_update_stream after its check of the identifier *)
Definition on_priority_update (K : kenv) (c : conn) (id : Z) (p : pri) : outcome conn :=
  match find_stream c id with
  | None =>
    if k_queued c && (k_goaway c <=? id) then Ok c
    else
      let! (rv, g) := conn_bidi_idtr_open (k_idtr c) id in
      if negb (rv =? 0) then if rv =? ERR_STREAM_IN_USE then Ok c else Abort
      else
        let c := kk_maxid (kk_idtr c g) (Z.max (k_maxid c) id) in
        let! c := create_stream K c id (ss_pu (new_stream id (rx_init id http_init (k_dec c))) true) in
        Ok (kk_sch c (sc_create_pri (k_sch c) id p))
  | Some s =>
    if st_sp s then Ok c
    else let c := put c id (ss_pu s true) in update_priority c id (ss_pu s true) p
  end.
Fixpoint apply_updates (K : kenv) (c : conn) (evs : list cev) : outcome conn :=
  match evs with
  | [] => Ok c
  | CvPriority id p :: l => let! c := on_priority_update K c id p in apply_updates K c l
  | _ :: l => apply_updates K c l
  end.
(* lib/nghttp3_conn.c:624-1048, called from :588-592 *)
Definition read_control_stream (K : kenv) (c : conn) (src : list Z) : kres :=
  match read_control false (mk_cenv (ke_server K) (k_maxcl c) (ke_sf K)) (k_ctl c) src with
  | ROk s evs =>
    match apply_updates K (kk_ctl c s) evs with
    | Ok c => KOk c (zlen src) (map KControl evs)
    | Err e => KDead e (map KControl evs)
    | Abort => KAbort
    end
  | RErr e _ evs => KDead e (map KControl evs)
  | RStop _ _ _ | RAbort => KAbort
  end.
Definition H3_STREAM_CREATION_ERROR : Z := 259.   (* nghttp3.h: 0x0103 *)
Definition H3_REQUEST_REJECTED : Z := 267.        (* nghttp3.h: 0x010b *)
(* lib/nghttp3_conn.c:484-539 conn_read_type; the second result: the input left, or None if the type is incomplete *)
Definition identify (c : conn) (v : Z) : outcome (conn * utype) :=
  if v =? 0 then if k_copen c then Err ERR_H3_STREAM_CREATION_ERROR else Ok (kk_open c true (k_eopen c) (k_dopen c), UCtl)
  else if v =? 1 then Err ERR_H3_STREAM_CREATION_ERROR
  else if v =? 2 then if k_eopen c then Err ERR_H3_STREAM_CREATION_ERROR else Ok (kk_open c (k_copen c) true (k_dopen c), UEnc)
  else if v =? 3 then if k_dopen c then Err ERR_H3_STREAM_CREATION_ERROR else Ok (kk_open c (k_copen c) (k_eopen c) true, UDec)
  else Ok (c, UUnk).
Definition read_type (c : conn) (id : Z) (s : stream) (rv : rvint) (src : list Z) (fin : bool) : outcome (conn * stream * option (list Z)) :=
  match rd_varint rv src fin with
  | VErr => Err ERR_H3_GENERAL_PROTOCOL_ERROR
  | VAbort => Abort
  | VMore rv => let s := ss_u s (UNone rv) in Ok (put c id s, s, None)
  | VDone v rest => let! (c, u) := identify c v in let s := ss_u s u in Ok (put c id s, s, Some rest)
  end.
(* lib/nghttp3_conn.c:583-620, a stream whose type is known *)
Definition read_uni_typed (K : kenv) (c : conn) (id : Z) (s : stream) (src : list Z) (fin : bool) : kres :=
  match st_u s with
  | UNone _ => KAbort
  | UCtl => if fin then KDead ERR_H3_CLOSED_CRITICAL_STREAM [] else read_control_stream K c src
  | UEnc => if fin then KDead ERR_H3_CLOSED_CRITICAL_STREAM [] else read_qpack_encoder K c src
  | UDec =>
    if fin then KDead ERR_H3_CLOSED_CRITICAL_STREAM []
    else match ke_dec K (k_ndec c) src with Ok n => KOk (kk_ndec c (S (k_ndec c))) n [] | Err e => KDead e [] | Abort => KAbort end
  | UUnk => KOk c (zlen src) (if fin then [] else [KStop id H3_STREAM_CREATION_ERROR])
  end.
(* lib/nghttp3_conn.c:543-622 nghttp3_conn_read_uni *)
Definition read_uni (K : kenv) (c : conn) (id : Z) (s : stream) (src : list Z) (fin : bool) : kres :=
  match st_u s with
  | UNone rv =>
    if (zlen src =? 0) && fin then
      if negb (rv_left rv =? 0) then KDead ERR_H3_GENERAL_PROTOCOL_ERROR [] else delete_stream K c id s
    else
      match read_type c id s rv src fin with
      | Err e => KDead e []
      | Abort => KAbort
      | Ok (c, _, None) => KOk c (zlen src) []
      | Ok (c, s, Some rest) =>
        let nread := zlen src - zlen rest in
        if zlen rest =? 0 then KOk c nread []
        else match read_uni_typed K c id s rest fin with KOk c n evs => KOk c (nread + n) evs | r => r end
      end
  | _ => read_uni_typed K c id s src fin
  end.
(* lib/nghttp3_conn.c:382-482 nghttp3_conn_read_stream *)
Definition read_existing (K : kenv) (c : conn) (id : Z) (s : stream) (src : list Z) (fin : bool) : kres :=
  if (zlen src =? 0) && negb fin then KOk c 0 []
  else if stream_uni id then read_uni K c id s src fin
  else read_request_stream K c id s src fin.
Definition rd_ign (x : rx) : rx :=
  let s := x_st x in x_set_st x (mk_bst FIgnRest (b_rv s) (b_ty s) (b_left s) (b_ph s) (b_http s) (b_sctx s) (b_dec s) (b_blk s) (b_err s) (b_cons s)).
Definition read_stream (K : kenv) (c : conn) (id : Z) (src : list Z) (fin : bool) : kres :=
  if (id <? 0) || (max_varint <? id) then KAbort
  else
    match find_stream c id with
    | Some s =>
      if client_bidi id || (if ke_server K then client_uni id else server_uni id) then read_existing K c id s src fin else KAbort
    | None =>
      let fresh := new_stream id (rx_init id http_init (k_dec c)) in
      if is_server_bidi K id then
        match conn_bidi_idtr_open (k_idtr c) id with
        | Ok (_, g) =>
          let c := kk_maxid (kk_idtr c g) (Z.max (k_maxid c) id) in
          let rejected := k_queued c && (k_goaway c <=? id) in
          let s := if rejected then ss_x fresh (rd_ign (st_x fresh)) else fresh in
          match create_stream K c id s with
          | Ok c => k_evs (if rejected then [KStop id H3_REQUEST_REJECTED; KReset id H3_REQUEST_REJECTED] else []) (read_existing K c id s src fin)
          | Err e => KDead e []
          | Abort => KAbort
          end
        | Err e => KDead e []
        | Abort => KAbort
        end
      else if if ke_server K then client_uni id else server_uni id then
        if (zlen src =? 0) && fin then KOk c 0 []
        else
          match create_stream K c id fresh with
          | Ok c => read_existing K c id fresh src fin
          | Err e => KDead e []
          | Abort => KAbort
          end
      else KDead ERR_H3_STREAM_CREATION_ERROR []
    end.

(* lib/nghttp3_conn.c:1866-1946 nghttp3_conn_bind_control_stream, nghttp3_conn_bind_qpack_streams *)
Definition local_uni (K : kenv) (id : Z) : bool := if ke_server K then server_uni id else client_uni id.
Definition open_uni (K : kenv) (c : conn) (id : Z) (u : utype) (ty : Z) (frs : list frame) : outcome conn :=
  let s := ss_u (new_stream id (rx_init id http_init (k_dec c))) u in
  let! c := create_stream K c id s in
  let! t := write_raw (st_t s) [ty] in
  Ok (put c id (ss_t s (tx_submit t frs false))).
Definition id_ok (id : Z) : bool := (0 <=? id) && (id <=? max_varint).
Definition bind_control (K : kenv) (c : conn) (id : Z) : kres :=
  if negb (id_ok id && local_uni K id) then KAbort
  else match k_tctl c with
       | Some _ => KOk c ERR_INVALID_STATE []
       | None => k_lift (let! c := open_uni K c id UCtl 0 [FSettings (ke_set K)] in Ok (kk_tx c (Some id) (k_tenc c) (k_tdec c)))
       end.
Definition bind_qpack (K : kenv) (c : conn) (eid did : Z) : kres :=
  if negb (id_ok eid && id_ok did && local_uni K eid && local_uni K did) then KAbort
  else match k_tenc c, k_tdec c with
       | None, None =>
         k_lift (let! c := open_uni K c eid UEnc 2 [] in
                 let c := kk_tx c (k_tctl c) (Some eid) (k_tdec c) in
                 let! c := open_uni K c did UDec 3 [] in
                 Ok (kk_tx c (k_tctl c) (k_tenc c) (Some did)))
       | _, _ => KOk c ERR_INVALID_STATE []
       end.

(* bytes the encoder produced go to the encoder stream, lib/nghttp3_stream.c:525-553 *)
Fixpoint add_ebufs (c : conn) (es : list (list Z)) : outcome conn :=
  match es with
  | [] => Ok c
  | e :: es' =>
    match k_tenc c with
    | None => Abort
    | Some q =>
      match find_stream c q with
      | None => Abort
      | Some s => let! t := write_ebuf (st_t s) e in add_ebufs (put c q (ss_t s t)) es'
      end
    end
  end.
(* lib/nghttp3_conn.c:1948-1984 conn_writev_stream: what is offered, if anything *)
Definition conn_writev (K : kenv) (c : conn) (id : Z) (veccnt : nat) : outcome (conn * option (Z * list (list Z) * bool)) :=
  match find_stream c id with
  | None => Abort                (* a pointer to a deleted stream *)
  | Some s =>
    let! (t, es) := tx_fill (ke_tx K id) (st_t s) in
    let! c := add_ebufs (put c id (ss_t s t)) es in
    let! early :=
      match (if stream_uni id then None else k_tenc c) with
      | None => Ok None
      | Some q =>
        match find_stream c q with
        | None => Abort
        | Some sq =>
          if is_blocked sq then Ok None
          else let! (vs, fin) := writev (st_t sq) veccnt in Ok (if Nat.eqb (length vs) 0 then None else Some (q, vs, fin))
        end
      end in
    match early with
    | Some o => Ok (c, Some o)
    | None =>
      match find_stream c id with
      | None => Abort
      | Some s =>
        let! (vs, fin) := writev (st_t s) veccnt in
        Ok (c, if Nat.eqb (length vs) 0 && negb fin then None else Some (id, vs, fin))
      end
    end
  end.
(* one of the three critical streams, :1998-2027; None: nothing to offer, go on *)
Definition try_uni (K : kenv) (c : conn) (which : option Z) (veccnt : nat) : outcome (conn * option (Z * list (list Z) * bool)) :=
  match which with
  | None => Ok (c, None)
  | Some id =>
    match find_stream c id with
    | None => Abort
    | Some s => if is_blocked s then Ok (c, None) else
                  let! (c, o) := conn_writev K c id veccnt in
                  Ok (c, match o with Some (_, vs, _) => if Nat.eqb (length vs) 0 then None else o | None => None end)
    end
  end.
(* lib/nghttp3_stream.c:668-700 nghttp3_stream_write_qpack_decoder_stream *)
Definition flush_decoder (c : conn) : outcome conn :=
  match k_tdec c with
  | None => Ok c
  | Some id =>
    match find_stream c id with
    | None => Abort
    | Some s =>
      if is_blocked s then Ok c
      else if get_decoder_streamlen (k_dec c) =? 0 then Ok c
      else
        let! (d, l) := write_decoder (k_dec c) (get_decoder_streamlen (k_dec c)) in
        let! t := write_raw (st_t s) l in
        Ok (put (kk_dec c d) id (ss_t s t))
    end
  end.
(* lib/nghttp3_conn.c:1986-2045 nghttp3_conn_writev_stream *)
Definition writev_stream (K : kenv) (c : conn) (veccnt : nat) : outcome (conn * option (Z * list (list Z) * bool)) :=
  if Nat.eqb veccnt 0 then Ok (c, None)
  else
    let! (c, o) := try_uni K c (k_tctl c) veccnt in
    match o with Some _ => Ok (c, o) | None =>
    let! c := flush_decoder c in
    let! (c, o) := try_uni K c (k_tdec c) veccnt in
    match o with Some _ => Ok (c, o) | None =>
    let! (c, o) := try_uni K c (k_tenc c) veccnt in
    match o with Some _ => Ok (c, o) | None =>
    let! nxt := get_next_tx (k_sch c) in
    match nxt with
    | None => Ok (c, None)
    | Some id =>
      let! (c, o) := conn_writev K c id veccnt in
      match find_stream c id with
      | None => Abort
      | Some s => let! c := sched_do c (if client_bidi id then sc_offered (k_sch c) id (require s) else Ok (k_sch c)) in Ok (c, o)
      end
    end end end end.
Definition writev_call (K : kenv) (c : conn) (veccnt : nat) : kres :=
  match writev_stream K c veccnt with
  | Ok (c, Some (id, vs, fin)) => KOk c (zlen vs) [KOffer id vs fin]
  | Ok (c, None) => KOk c 0 []
  | Err e => KDead e []
  | Abort => KAbort
  end.
(* lib/nghttp3_conn.c:2066-2092 nghttp3_conn_add_write_offset *)
Definition add_write_offset (c : conn) (id n : Z) : kres :=
  match find_stream c id with
  | None => KOk c 0 []
  | Some s =>
    k_lift (let! t := tx_written (st_t s) n in
            let s := ss_t s t in
            let c := put c id s in
            if client_bidi id then sched_do c (sc_written (k_sch c) id n (require s)) else Ok c)
  end.
(* lib/nghttp3_conn.c:2094-2118 nghttp3_conn_add_ack_offset, nghttp3_conn_update_ack_offset *)
Definition ack_call (c : conn) (id : Z) (f : txs -> outcome (txs * list Z)) : kres :=
  match find_stream c id with
  | None => KOk c 0 []
  | Some s =>
    match f (st_t s) with
    | Ok (t, calls) => KOk (put c id (ss_t s t)) 0 (map (KAcked id) calls)
    | Err e => KOk c e []
    | Abort => KAbort
    end
  end.
(* lib/nghttp3_conn.c:2120-2157 conn_submit_headers_data; the fields are copied, C46 *)
Definition submit_headers (c : conn) (id : Z) (s : stream) (nva : list ConvModel.nv) (dr fin : bool) : kres :=
  let s := ss_t s (tx_submit (st_t s) (TxModel.FHeaders (nva_copy nva) :: (if dr then [TxModel.FData] else [])) fin) in
  let c := put c id s in
  k_lift (sched_do c (sc_submit (k_sch c) id (require s))).
Definition has_enc (c : conn) : bool := match k_tenc c with Some _ => true | None => false end.
(* nghttp3_nv is transcribed twice, for lib/nghttp3_conv.c and for lib/nghttp3_qpack.c *)
Definition same_nv (x : ConvModel.nv) : QpackTabModel.nv := QpackTabModel.mk_nv (ConvModel.nv_name x) (ConvModel.nv_value x) (ConvModel.nv_flags x).
(* lib/nghttp3_conn.c:2191-2231 nghttp3_conn_submit_request *)
Definition submit_request (K : kenv) (c : conn) (id : Z) (nva : list ConvModel.nv) (dr : bool) : kres :=
  if ke_server K || negb (has_enc c && id_ok id && client_bidi id) then KAbort
  else if c_closing (k_ctl c) then KOk c ERR_CONN_CLOSING []
  else match find_stream c id with
       | Some _ => KOk c ERR_STREAM_IN_USE []
       | None =>
         let s := new_stream id (rx_init id (record_request_method http_init (map same_nv nva)) (k_dec c)) in
         match create_stream K c id s with
         | Ok c => submit_headers c id s nva dr (negb dr)
         | Err e => KDead e []
         | Abort => KAbort
         end
       end.
(* lib/nghttp3_conn.c:2233-2290 nghttp3_conn_submit_info, nghttp3_conn_submit_response, nghttp3_conn_submit_trailers *)
Definition submit_info (K : kenv) (c : conn) (id : Z) (nva : list ConvModel.nv) : kres :=
  if negb (ke_server K && has_enc c) then KAbort
  else match find_stream c id with None => KOk c ERR_STREAM_NOT_FOUND [] | Some s => submit_headers c id s nva false false end.
Definition submit_response (K : kenv) (c : conn) (id : Z) (nva : list ConvModel.nv) (dr : bool) : kres :=
  if negb (ke_server K && has_enc c) then KAbort
  else match find_stream c id with None => KOk c ERR_STREAM_NOT_FOUND [] | Some s => submit_headers c id s nva dr (negb dr) end.
Definition submit_trailers (c : conn) (id : Z) (nva : list ConvModel.nv) : kres :=
  if negb (has_enc c) then KAbort
  else match find_stream c id with
       | None => KOk c ERR_STREAM_NOT_FOUND []
       | Some s => if t_end (st_t s) then KOk c ERR_INVALID_STATE [] else submit_headers c id s nva false true
       end.
(* lib/nghttp3_conn.c:2292-2341 nghttp3_conn_submit_shutdown_notice, nghttp3_conn_shutdown *)
Definition NOTICE_STREAM_ID : Z := 2 ^ 62 - 4.
Definition NOTICE_PUSH_ID : Z := 2 ^ 62 - 1.
Definition queue_goaway (c : conn) (gid : Z) (commence : bool) : kres :=
  match k_tctl c with
  | None => KAbort
  | Some t =>
    match find_stream c t with
    | None => KAbort
    | Some s =>
      if k_goaway c <? gid then KAbort
      else KOk (kk_goaway (put c t (ss_t s (tx_submit (st_t s) [FGoaway gid] false))) gid true (k_shut c || commence)) 0 []
    end
  end.
Definition submit_shutdown_notice (K : kenv) (c : conn) : kres := queue_goaway c (if ke_server K then NOTICE_STREAM_ID else NOTICE_PUSH_ID) false.
Definition shutdown (K : kenv) (c : conn) : kres := queue_goaway c (if ke_server K then Z.min (2 ^ 62 - 4) (k_maxid c + 4) else 0) true.
(* lib/nghttp3_conn.c:2354-2382 nghttp3_conn_block_stream, nghttp3_conn_shutdown_stream_write *)
Definition block_with (c : conn) (id : Z) (f : stream -> stream) : kres :=
  match find_stream c id with
  | None => KOk c 0 []
  | Some s =>
    let c := put c id (f s) in
    k_lift (if client_bidi id then sched_do c (sc_block (k_sch c) id) else Ok c)
  end.
(* lib/nghttp3_conn.c:2384-2429 nghttp3_conn_unblock_stream, nghttp3_conn_resume_stream *)
Definition wake_with (c : conn) (id : Z) (f : stream -> stream) : kres :=
  match find_stream c id with
  | None => KOk c 0 []
  | Some s =>
    let c := put c id (f s) in
    k_lift (if client_bidi id then sched_do c (sc_wake (k_sch c) id (require (f s))) else Ok c)
  end.
(* lib/nghttp3_conn.c:2431-2454 nghttp3_conn_close_stream *)
Definition x_close (x : rx) : rx := mk_rx (x_id x) (x_st x) (x_inq x) (x_shut x) (x_eof x) true (x_ret x) (x_def x).
Definition close_stream (K : kenv) (c : conn) (id code : Z) : kres :=
  match find_stream c id with
  | None => KOk c ERR_STREAM_NOT_FOUND []
  | Some s =>
    if stream_uni id && match st_u s with UUnk => false | _ => true end then KDead ERR_H3_CLOSED_CRITICAL_STREAM []
    else
      let s := ss_code s code in
      match sched_do (put c id s) (sc_close (k_sch c) id) with
      | Ok c => if b_blk (x_st (st_x s)) then KOk (put c id (ss_x s (x_close (st_x s)))) 0 [] else delete_stream K c id s
      | Err e => KDead e []
      | Abort => KAbort
      end
  end.
(* lib/nghttp3_conn.c:2456-2476 nghttp3_conn_shutdown_stream_read *)
Definition x_shut_rd (x : rx) : rx := mk_rx (x_id x) (x_st x) (x_inq x) true (x_eof x) (x_closed x) (x_ret x) (x_def x).
Definition shutdown_read (c : conn) (id : Z) : kres :=
  if negb (id_ok id) then KAbort
  else if negb (client_bidi id) then KOk c 0 []
  else
    let go c := match dec_cancel_stream (k_dec c) id with Ok d => KOk (kk_dec c d) 0 [] | Err e => KDead e [] | Abort => KAbort end in
    match find_stream c id with
    | None => go c
    | Some s => if x_shut (st_x s) then KOk c 0 [] else go (put c id (ss_x s (x_shut_rd (st_x s))))
    end.
(* lib/nghttp3_conn.c:2493-2505 *)
Definition set_max_client (K : kenv) (c : conn) (n : Z) : kres := if ke_server K && (k_maxcl c <=? n) then KOk (kk_maxcl c n) 0 [] else KAbort.
Definition set_max_concurrent (c : conn) (n : Z) : kres := KOk (kk_dec c (dec_set_max_concurrent (k_dec c) n)) 0 [].
(* lib/nghttp3_conn.c:2568-2607 nghttp3_conn_set_client_stream_priority *)
Definition set_client_priority (K : kenv) (c : conn) (id : Z) (data : list Z) : kres :=
  if ke_server K || negb (id_ok id) then KAbort
  else if negb (client_bidi id) then KOk c ERR_INVALID_ARGUMENT []
  else match find_stream c id with
       | None => KOk c ERR_STREAM_NOT_FOUND []
       | Some _ =>
         match k_tctl c with
         | None => KAbort
         | Some t => match find_stream c t with
                     | None => KAbort
                     | Some s => KOk (put c t (ss_t s (tx_submit (st_t s) [FPrio id data] false))) 0 []
                     end
         end
       end.
(* lib/nghttp3_conn.c:2609-2635 nghttp3_conn_set_server_stream_priority *)
Definition set_server_priority (K : kenv) (c : conn) (id : Z) (p : pri) : kres :=
  if negb (ke_server K && urg_ok (p_urg p) && ((p_inc p =? 0) || (p_inc p =? 1)) && id_ok id) then KAbort
  else if negb (client_bidi id) then KOk c ERR_INVALID_ARGUMENT []
  else match find_stream c id with
       | None => KOk c ERR_STREAM_NOT_FOUND []
       | Some s => let s := ss_sp s true in k_lift (update_priority (put c id s) id s p)
       end.
(* queries *)
(* lib/nghttp3_conn.c:2637-2644 nghttp3_conn_is_drained *)
Definition is_drained (c : conn) : bool :=
  k_shut c && (k_num c =? 0) &&
  match k_tctl c with
  | None => false
  | Some t => match find_stream c t with Some s => write_done (st_t s) && Nat.eqb (length (t_frq (st_t s))) 0 | None => false end
  end.
(* lib/nghttp3_conn.c:2547-2566 nghttp3_conn_get_stream_priority *)
Definition get_priority (c : conn) (id : Z) : outcome pri :=
  if negb (client_bidi id) then Err ERR_INVALID_ARGUMENT
  else match find_stream c id with None => Err ERR_STREAM_NOT_FOUND | Some _ => Ok (n_pri (sc_n (k_sch c) id)) end.
(* lib/nghttp3_conn.c:2400-2412 nghttp3_conn_is_stream_writable *)
Definition is_stream_writable (c : conn) (id : Z) : bool :=
  match find_stream c id with None => false | Some s => negb (st_fc s || t_rdblk (st_t s) || st_swr s || x_closed (st_x s)) end.
(* lib/nghttp3_conn.c:2518-2543 nghttp3_conn_get_frame_payload_left; simplified: after a malformed message (FIgnRest, conn.c:1459-1463)
   the code keeps rstate.left as it was, the model's [malformed] sets it to 0; C60_left excludes that case *)
Definition frame_payload_left (K : kenv) (c : conn) (id : Z) : Z :=
  if client_bidi id then match find_stream c id with Some s => b_left (x_st (st_x s)) | None => 0 end
  else if (if ke_server K then client_uni id else server_uni id) then
    match find_stream c id with
    | Some s => match st_u s with UCtl => c_left (k_ctl c) | UNone _ => 0 | _ => 0 end
    | None => 0
    end
  else 0.

(* the calls of the API *)
Inductive cop :=
| OBindControl (id : Z)
| OBindQpack (eid did : Z)
| ORead (id : Z) (src : list Z) (fin : bool)
| OWritev (veccnt : nat)
| OAddWrite (id n : Z)
| OAddAck (id n : Z)
| OUpdateAck (id off : Z)
| ORequest (id : Z) (nva : list ConvModel.nv) (dr : bool)
| OInfo (id : Z) (nva : list ConvModel.nv)
| OResponse (id : Z) (nva : list ConvModel.nv) (dr : bool)
| OTrailers (id : Z) (nva : list ConvModel.nv)
| ONotice
| OShutdown
| OBlock (id : Z)
| OUnblock (id : Z)
| OShutWrite (id : Z)
| OResume (id : Z)
| OClose (id code : Z)
| OShutRead (id : Z)
| OMaxClient (n : Z)
| OMaxConcurrent (n : Z)
| OClientPriority (id : Z) (data : list Z)
| OServerPriority (id : Z) (p : pri).
Definition kstep (K : kenv) (c : conn) (o : cop) : kres :=
  match o with
  | OBindControl id => bind_control K c id
  | OBindQpack e d => bind_qpack K c e d
  | ORead id src fin => read_stream K c id src fin
  | OWritev n => writev_call K c n
  | OAddWrite id n => add_write_offset c id n
  | OAddAck id n => ack_call c id (fun t => tx_add_ack t n)
  | OUpdateAck id off => ack_call c id (fun t => tx_update_ack t off)
  | ORequest id nva dr => submit_request K c id nva dr
  | OInfo id nva => submit_info K c id nva
  | OResponse id nva dr => submit_response K c id nva dr
  | OTrailers id nva => submit_trailers c id nva
  | ONotice => submit_shutdown_notice K c
  | OShutdown => shutdown K c
  | OBlock id => block_with c id (fun s => ss_fc s true)
  | OShutWrite id => block_with c id (fun s => ss_swr s true)
  | OUnblock id => wake_with c id (fun s => ss_fc s false)
  | OResume id => wake_with c id (fun s => ss_t s (tx_resume (st_t s)))
  | OClose id code => close_stream K c id code
  | OShutRead id => shutdown_read c id
  | OMaxClient n => set_max_client K c n
  | OMaxConcurrent n => set_max_concurrent c n
  | OClientPriority id d => set_client_priority K c id d
  | OServerPriority id p => set_server_priority K c id p
  end.
(* a history: the state reached and what was seen at each call; None if some call failed *)
Fixpoint krun (K : kenv) (c : conn) (ops : list cop) : option (conn * list (Z * list kev)) :=
  match ops with
  | [] => Some (c, [])
  | o :: r =>
    match kstep K c o with
    | KOk c rv evs => match krun K c r with Some (c, l) => Some (c, (rv, evs) :: l) | None => None end
    | _ => None
    end
  end.
