(* Specification of the sending side of one stream, independent of how TxModel.v stores things.  A stream is
   one growing byte string (its wire), in which the bytes supplied by the application's reader are marked,
   the frames not yet turned into bytes, and three offsets *)
From Verif Require Import Base ConvModel ConvSpec TxModel.

(* One API call on the stream and what it returned *)
Inductive op :=
| OSubmit (frs : list frame) (fin : bool)   (* submit request/response/info/trailers/..., [fin]: no more to come *)
| ORaw (l : list Z)                         (* the library adds bytes: stream type, QPACK decoder instructions *)
| OInstr (e : list Z)                       (* the library adds QPACK encoder instructions *)
| OWrite (veccnt : nat)                     (* nghttp3_conn_writev_stream picks this stream *)
| OFill                                     (* the same, but the encoder stream is offered first (conn.c:1966-1973) *)
| OWritten (n : Z)                          (* nghttp3_conn_add_write_offset *)
| OAck (offset : Z)                         (* nghttp3_conn_update_ack_offset *)
| OAddAck (n : Z)                           (* nghttp3_conn_add_ack_offset *)
| OResume.                                  (* nghttp3_conn_resume_stream *)
Inductive res :=
| RNone
| ROffer (vs : list (list Z)) (fin : bool) (es : list (list Z))   (* vectors, fin, bytes for the encoder stream *)
| RFilled (es : list (list Z))
| RAcked (calls : list Z)                   (* the acked_stream_data callback, in order *)
| RRefused (e : Z)                          (* an error after which the stream goes on unchanged *)
| RFail (e : Z)                             (* an error that ends the connection *)
| RAbort.                                   (* assertion failure or invalid memory access *)

(* What the transport sees: [sent]: bytes it took; [hi]: end of the bytes it was offered; [acked] *)
Record ledger := mk_led { l_sent : Z; l_hi : Z; l_acked : Z }.
Definition led0 := mk_led 0 0 0.
Definition led_step (L : ledger) (o : op) (r : res) : ledger :=
  match o, r with
  | OWrite _, ROffer vs _ _ => mk_led (l_sent L) (Z.max (l_hi L) (l_sent L + zlen (concat vs))) (l_acked L)
  | OWritten n, RNone => mk_led (l_sent L + n) (l_hi L) (l_acked L)
  | OAck off, RAcked _ => mk_led (l_sent L) (l_hi L) off
  | OAddAck n, RAcked _ => mk_led (l_sent L) (l_hi L) (l_acked L + n)
  | _, _ => L
  end.
Definition ledger_of (tr : list (op * res)) : ledger := fold_left (fun L x => led_step L (fst x) (snd x)) tr led0.
(* The contract of the caller *)
Definition frame_ok (f : frame) : Prop :=
  match f with
  | FSettings s => (0 <= s_mfss s < 2 ^ 62) /\ (0 <= s_cap s < 2 ^ 62) /\ (0 <= s_blk s < 2 ^ 62)
  | FHeaders nva => nva <> []
  | FData => True
  | FGoaway id => 0 <= id < 2 ^ 62
  | FPrio id data => 0 <= id < 2 ^ 62 /\ bytes data /\ zlen data < 2 ^ 61
  end.
Definition op_ok (L : ledger) (o : op) : Prop :=
  match o with
  | OSubmit frs _ => Forall frame_ok frs
  | ORaw l => l <> [] /\ bytes l /\ zlen l < 2 ^ 62
  | OInstr e => bytes e /\ zlen e < 2 ^ 62
  | OWrite n => n <> O
  | OFill => True
  | OWritten n => 0 <= n /\ l_sent L + n <= l_hi L
  | OAck off => 0 <= off <= l_sent L
  | OAddAck n => 0 <= n /\ l_acked L + n <= l_sent L
  | OResume => True
  end.
Definition lawful (tr : list (op * res)) : Prop :=
  forall pre o r post, tr = pre ++ (o, r) :: post -> op_ok (ledger_of pre) o.
(* The contract of the encoder (C13-C18) and of the application's reader *)
Definition env_ok (E : txenv) : Prop :=
  (forall k nva, te_enc E k nva <> Abort) /\
  (forall k nva p r e, nva <> [] -> te_enc E k nva = Ok (p, r, e) ->
     bytes p /\ bytes r /\ r <> [] /\ zlen p + zlen r < 2 ^ 62) /\
  (forall k vecs eof ne, te_rd E k = RdData vecs eof ne -> Forall bytes vecs /\ (concat vecs <> [] \/ eof = true)).

(* the wire *)
Definition tag (app : bool) (l : list Z) : list (Z * bool) := map (fun x => (x, app)) l.
Definition untag (w : list (Z * bool)) : list Z := map fst w.
Definition app_bytes (w : list (Z * bool)) : Z := zlen (filter snd w).
Definition upto {A} (n : Z) (l : list A) : list A := firstn (Z.to_nat n) l.
Definition from {A} (n : Z) (l : list A) : list A := skipn (Z.to_nat n) l.
(* [f] is one frame of this type and payload (RFC 9114 sec. 7.1), whatever follows *)
Definition framed (ty : Z) (payload f : list Z) : Prop := forall rest, bytes rest -> rfc_frame (f ++ rest) = Some (ty, payload, rest).
(* the settings an endpoint announces, RFC 9114 7.2.4.1, RFC 9204 5, RFC 9297 2.1.1, RFC 9220 3 *)
Definition announced (s : settings) : list (Z * Z) :=
  [(0x06, s_mfss s); (0x01, s_cap s); (0x07, s_blk s)] ++ (if s_dgram s then [(0x33, 1)] else []) ++ (if s_conn s then [(0x08, 1)] else []).

Record ast := mk_a { a_pend : list frame; a_wire : list (Z * bool); a_end : bool; a_blk : bool; a_enc : nat; a_rd : nat }.
Definition a0 : ast := mk_a [] [] false false 0 0.
(* Turning the first pending frame into bytes; the label: bytes for the encoder stream *)
Inductive emit (E : txenv) : ast -> list (list Z) -> ast -> Prop :=
| em_settings s f p fs w en k j : framed 4 p f -> rfc_settings_payload p (announced s) ->
    emit E (mk_a (FSettings s :: fs) w en false k j) [] (mk_a fs (w ++ tag false f) en false k j)
| em_goaway id f p fs w en k j : framed 7 p f -> rfc_varint p = Some (id, []) ->
    emit E (mk_a (FGoaway id :: fs) w en false k j) [] (mk_a fs (w ++ tag false f) en false k j)
| em_prio id data f p fs w en k j : framed 0xf0700 p f -> rfc_varint p = Some (id, data) ->
    emit E (mk_a (FPrio id data :: fs) w en false k j) [] (mk_a fs (w ++ tag false f) en false k j)
| em_headers nva p r e f fs w en k j : te_enc E k nva = Ok (p, r, e) -> framed 1 (p ++ r) f ->
    emit E (mk_a (FHeaders nva :: fs) w en false k j) [e] (mk_a fs (w ++ tag false f) en false (S k) j)
| em_data vecs eof ne hd fs w en k j : te_rd E j = RdData vecs eof ne -> concat vecs <> [] ->
    framed 0 (concat vecs) (hd ++ concat vecs) ->
    emit E (mk_a (FData :: fs) w en false k j) []
      (mk_a (if eof then fs else FData :: fs) (w ++ tag false hd ++ tag true (concat vecs)) (en || (eof && negb ne)) false k (S j))
| em_eof vecs ne fs w en k j : te_rd E j = RdData vecs true ne -> concat vecs = [] ->
    emit E (mk_a (FData :: fs) w en false k j) [] (mk_a fs w (en || negb ne) false k (S j))
| em_block fs w en k j : te_rd E j = RdErr ERR_WOULDBLOCK ->
    emit E (mk_a (FData :: fs) w en false k j) [] (mk_a (FData :: fs) w en true k (S j)).
Inductive emits (E : txenv) : ast -> list (list Z) -> ast -> Prop :=
| ems_refl a : emits E a [] a
| ems_step a e b es c : emit E a e b -> zlen (a_wire b) <= max_varint -> emits E b es c -> emits E a (e ++ es) c.
(* The errors *)
Inductive emit_fails (E : txenv) : ast -> Z -> Prop :=
| ef_enc nva fs w en k j e : te_enc E k nva = Err e -> emit_fails E (mk_a (FHeaders nva :: fs) w en false k j) e
| ef_rd fs w en k j e : te_rd E j = RdErr e -> e <> ERR_WOULDBLOCK -> emit_fails E (mk_a (FData :: fs) w en false k j) ERR_CALLBACK_FAILURE
| ef_len vecs eof ne fs w en k j : te_rd E j = RdData vecs eof ne -> max_varint < zlen (concat vecs) ->
    emit_fails E (mk_a (FData :: fs) w en false k j) ERR_STREAM_DATA_OVERFLOW
| ef_off a es b : emit E a es b -> max_varint < zlen (a_wire b) -> emit_fails E a ERR_STREAM_DATA_OVERFLOW.

(* One call, as it must behave; L: the ledger before it *)
Inductive call (E : txenv) (L : ledger) : ast -> op -> res -> ast -> Prop :=
| c_submit frs fin p w en bl k j :
    call E L (mk_a p w en bl k j) (OSubmit frs fin) RNone (mk_a (p ++ frs) w (en || fin) bl k j)
| c_raw l p w en bl k j : zlen w + zlen l <= max_varint ->
    call E L (mk_a p w en bl k j) (ORaw l) RNone (mk_a p (w ++ tag false l) en bl k j)
| c_raw_fail l a : max_varint < zlen (a_wire a) + zlen l -> call E L a (ORaw l) (RFail ERR_STREAM_DATA_OVERFLOW) a
| c_instr l p w en bl k j : zlen w + zlen l <= max_varint ->
    call E L (mk_a p w en bl k j) (OInstr l) RNone (mk_a p (w ++ tag false l) en bl k j)
| c_instr_fail l a : max_varint < zlen (a_wire a) + zlen l -> call E L a (OInstr l) (RFail ERR_STREAM_DATA_OVERFLOW) a
| c_write n vs fin es more a b :
    (if a_blk a then es = [] /\ b = a else emits E a es b) ->
    (* the vectors are the next unsent bytes, as many vectors as asked for unless everything is offered *)
    untag (from (l_sent L) (a_wire b)) = concat vs ++ more ->
    (length vs <= n)%nat -> (more <> [] -> length vs = n) -> Forall (fun v => v <> []) vs ->
    (* the end of the stream *)
    (fin = true <-> more = [] /\ a_pend b = [] /\ a_end b = true) ->
    (* nothing to offer only when nothing is pending or the reader is blocked *)
    (vs = [] -> a_pend b = [] \/ a_blk b = true) ->
    call E L a (OWrite n) (ROffer vs fin es) b
| c_fill es a b : (if a_blk a then es = [] /\ b = a else emits E a es b) -> call E L a OFill (RFilled es) b
| c_fill_fail es e a b : a_blk a = false -> emits E a es b -> emit_fails E b e -> call E L a OFill (RFail e) a
| c_write_fail n es e a b : a_blk a = false -> emits E a es b -> emit_fails E b e ->
    call E L a (OWrite n) (RFail e) a
| c_written n a : call E L a (OWritten n) RNone a
| c_ack off calls a : l_acked L <= off ->
    fold_right Z.add 0 calls = app_bytes (upto off (a_wire a)) - app_bytes (upto (l_acked L) (a_wire a)) ->
    Forall (fun n => 0 < n) calls ->
    call E L a (OAck off) (RAcked calls) a
| c_ack_refused off a : off < l_acked L -> call E L a (OAck off) (RRefused ERR_INVALID_ARGUMENT) a
| c_addack n calls a :
    fold_right Z.add 0 calls = app_bytes (upto (l_acked L + n) (a_wire a)) - app_bytes (upto (l_acked L) (a_wire a)) ->
    Forall (fun n => 0 < n) calls ->
    call E L a (OAddAck n) (RAcked calls) a
| c_resume p w en bl k j : call E L (mk_a p w en bl k j) OResume RNone (mk_a p w en false k j).
Inductive calls (E : txenv) : ledger -> ast -> list (op * res) -> ast -> Prop :=
| cs_nil L a : calls E L a [] a
| cs_cons L a o r b tr c : call E L a o r b -> calls E (led_step L o r) b tr c -> calls E L a ((o, r) :: tr) c.

(* Running the model *)
Definition texec (E : txenv) (s : txs) (o : op) : txs * res :=
  let fail {A} (x : outcome A) (f : A -> txs * res) := match x with Ok a => f a | Err e => (s, RFail e) | Abort => (s, RAbort) end in
  match o with
  | OSubmit frs fin => (tx_submit s frs fin, RNone)
  | ORaw l => fail (write_raw s l) (fun s => (s, RNone))
  | OInstr e => fail (write_ebuf s e) (fun s => (s, RNone))
  | OWrite n => fail (tx_write E s n) (fun '(s, es, vs, fin) => (s, ROffer vs fin es))
  | OFill => fail (tx_fill E s) (fun '(s, es) => (s, RFilled es))
  | OWritten n => fail (tx_written s n) (fun s => (s, RNone))
  | OAck off =>
    match tx_update_ack s off with
    | Ok (s, cs) => (s, RAcked cs)
    | Err e => (s, if e =? ERR_INVALID_ARGUMENT then RRefused e else RFail e)
    | Abort => (s, RAbort)
    end
  | OAddAck n => fail (tx_add_ack s n) (fun '(s, cs) => (s, RAcked cs))
  | OResume => (tx_resume s, RNone)
  end.
Definition ends (r : res) : bool := match r with RFail _ | RAbort => true | _ => false end.
Fixpoint trun (E : txenv) (s : txs) (ops : list op) : list (op * res) * txs :=
  match ops with
  | [] => ([], s)
  | o :: ops' =>
    let '(s', r) := texec E s o in
    if ends r then ([(o, r)], s') else let '(tr, s'') := trun E s' ops' in ((o, r) :: tr, s'')
  end.
(* The bytes for which the stream still holds memory, from the first unacknowledged buffer on *)
Definition held (s : txs) : option (list Z) :=
  fold_right (fun t acc => match b_memory (t_chunks s) t, acc with Some m, Some l => Some (sub m (b_begin t) (b_last t) ++ l) | _, _ => None end) (Some []) (t_outq s).

(* Words for the properties *)
(* [tr] has, after [pre], a write that offered these vectors *)
Definition is_offer (tr pre : list (op * res)) (vs : list (list Z)) (fin : bool) : Prop :=
  exists n es post, tr = pre ++ (OWrite n, ROffer vs fin es) :: post.
(* what the callback reported *)
Definition reported (tr : list (op * res)) : Z :=
  fold_right (fun x acc => match snd x with RAcked cs => fold_right Z.add 0 cs + acc | _ => acc end) 0 tr.
(* app bytes are those of the reader, in order *)
Definition read_bytes (E : txenv) (n : nat) : list Z :=
  concat (map (fun j => match te_rd E j with RdData vecs _ _ => concat vecs | RdErr _ => [] end) (seq 0 n)).
(* the application's bytes on the wire *)
Definition app_data (w : list (Z * bool)) : list Z := untag (filter snd w).
(* calls that add something to send *)
Definition adds (o : op) : bool := match o with OSubmit _ _ | ORaw _ | OInstr _ => true | _ => false end.
(* the non-empty answers of the first [n] calls of the reader *)
Definition chunks_read (E : txenv) (n : nat) : list (list Z) :=
  filter (fun l => negb (zlen l =? 0)) (map (fun j => match te_rd E j with RdData vecs _ _ => concat vecs | RdErr _ => [] end) (seq 0 n)).
(* a wire as a sequence of frames: type, payload, bytes *)
Definition frames_of (w : list Z) (fs : list (Z * list Z * list Z)) : Prop :=
  w = concat (map snd fs) /\ Forall (fun x => framed (fst (fst x)) (snd (fst x)) (snd x)) fs.
Definition payloads (ty : Z) (fs : list (Z * list Z * list Z)) : list (list Z) := map (fun x => snd (fst x)) (filter (fun x => fst (fst x) =? ty) fs).
(* calls that add bytes that are not frames *)
Definition raw (o : op) : bool := match o with ORaw _ | OInstr _ => true | _ => false end.
