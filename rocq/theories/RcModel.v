(* Model of the reference counted buffers that hold header names and values (lib/nghttp3_rcbuf.c)
   and of every place in lib/nghttp3_qpack.c and lib/nghttp3_conn.c that creates, shares, writes,
   reads or drops one.  Here only the buffers are modelled: which bytes steer the parsers, how many
   entries an insertion evicts, which entry an index selects, which allocation fails and what the
   callback answers are all left open, as an arbitrary [choice] per step.  (That indices select
   entries that exist and that eviction never runs out of entries is proved of the full models of
   the parsers; a choice that names no entry changes nothing here.) *)
From Coq Require Import ZArith List Bool.
Import ListNotations.
Open Scope Z_scope.

(* a nghttp3_rcbuf pointer; Static: a name or value of the static table, whose count is -1 *)
Inductive ptr := Null | Static | Buf (n : nat).
(* lib/nghttp3_rcbuf.h:36-49 struct nghttp3_rcbuf; [text]: what has been stored so far *)
Record cell := mk_cell { ref : Z; text : list Z }.
(* every buffer ever allocated, in that order; None: it has been given back with free() *)
Definition heap := list (option cell).

(* A computation on the heap; None: undefined behaviour (NULL or freed memory is used) or a failed
   assertion *)
Definition M (A : Type) := heap -> option (A * heap).
Definition ret {A} (x : A) : M A := fun h => Some (x, h).
Definition bind {A B} (m : M A) (f : A -> M B) : M B :=
  fun h => match m h with Some (x, h') => f x h' | None => None end.
Local Notation "'do' x <- m ; f" := (bind m (fun x => f)) (at level 200, x pattern).
Local Notation "m ;; f" := (bind m (fun _ => f)) (at level 61, right associativity).

Fixpoint put (n : nat) (c : option cell) (h : heap) : heap :=
  match h, n with
  | [], _ => []
  | _ :: r, O => c :: r
  | x :: r, S m => x :: put m c r
  end.
Definition at_cell (n : nat) (h : heap) : option cell :=
  match nth_error h n with Some (Some c) => Some c | _ => None end.

(* lib/nghttp3_rcbuf.c:33-50 nghttp3_rcbuf_new; ok = false: malloc failed *)
Definition rcbuf_new (ok : bool) (src : list Z) : M ptr :=
  fun h => if ok then Some (Buf (length h), h ++ [Some (mk_cell 1 src)]) else Some (Null, h).
(* lib/nghttp3_rcbuf.c:82-88 nghttp3_rcbuf_incref *)
Definition incref (p : ptr) : M unit :=
  fun h => match p with
  | Null => None
  | Static => Some (tt, h)
  | Buf n => match at_cell n h with
             | None => None
             | Some c => Some (tt, put n (Some (mk_cell (ref c + 1) (text c))) h)
             end
  end.
(* lib/nghttp3_rcbuf.c:90-100 nghttp3_rcbuf_decref and 78-80 nghttp3_rcbuf_del *)
Definition decref (p : ptr) : M unit :=
  fun h => match p with
  | Null => Some (tt, h)
  | Static => Some (tt, h)
  | Buf n => match at_cell n h with
             | None => None
             | Some c => if ref c <=? 0 then None
                         else if ref c - 1 =? 0 then Some (tt, put n None h)
                         else Some (tt, put n (Some (mk_cell (ref c - 1) (text c))) h)
             end
  end.
(* reading the buffer: p->len, p->base *)
Definition touch (p : ptr) : M unit :=
  fun h => match p with
  | Null => None
  | Static => Some (tt, h)
  | Buf n => match at_cell n h with None => None | Some _ => Some (tt, h) end
  end.
(* storing decoded bytes in the buffer, lib/nghttp3_qpack.c:2717-2790 qpack_read_huffman_string,
   qpack_read_string, qpack_read_state_terminate_name, qpack_read_state_terminate_value *)
Definition store (p : ptr) (bs : list Z) : M unit :=
  fun h => match p with
  | Buf n => match at_cell n h with
             | None => None
             | Some c => Some (tt, put n (Some (mk_cell (ref c) (text c ++ bs))) h)
             end
  | _ => None
  end.

(* a dynamic table: newest entry first, each with its name and its value *)
Definition tabl := list (ptr * ptr).

(* what is left open in one step *)
Record choice := mk_choice {
  ch_op : nat;           (* which instruction or field line begins *)
  ch_dyn : bool;         (* it refers to the dynamic table *)
  ch_more : bool;        (* the input ends before this element is complete *)
  ch_err : bool;         (* the element is invalid *)
  ch_bytes : list Z;     (* the decoded bytes *)
  ch_i : nat;            (* the entry the index selects *)
  ch_evict : nat;        (* how many entries are evicted *)
  ch_m1 : bool; ch_m2 : bool; ch_m3 : bool; ch_m4 : bool  (* whether an allocation succeeds *)
}.

(* lib/nghttp3_qpack.c:2263-2266 nghttp3_qpack_entry_free *)
Definition entry_free (e : ptr * ptr) : M unit := decref (snd e);; decref (fst e).
(* one round of the eviction loops, lib/nghttp3_qpack.c:2069-2083, 3132-3142, 985-1001: the sizes
   are read, the oldest entry goes *)
Definition evict1 (t : tabl) : M tabl :=
  match rev t with
  | [] => ret t
  | e :: r => touch (fst e);; touch (snd e);; entry_free e;; ret (rev r)
  end.
Fixpoint evict (k : nat) (t : tabl) : M tabl :=
  match k with O => ret t | S m => do t' <- evict1 t; evict m t' end.
(* lib/nghttp3_qpack.c:2055-2119 nghttp3_qpack_context_dtable_add and 2250-2261
   nghttp3_qpack_entry_init; the second result: whether it succeeded.  ch_m1: the entry is
   allocated; ch_m2: the ring buffer can grow *)
Definition dtable_add (t : tabl) (name value : ptr) (c : choice) : M (tabl * bool) :=
  touch name;; touch value;;
  do t1 <- evict (ch_evict c) t;
  if negb (ch_m1 c) then ret (t1, false) else
  incref name;; incref value;;
  if negb (ch_m2 c) then entry_free (name, value);; ret (t1, false) else
  ret ((name, value) :: t1, true).

(* lib/nghttp3_qpack.h nghttp3_qpack_read_state, with the state and the opcode of its parser *)
Inductive at_ := AtPrefix | AtOp | AtIndex | AtNameLen | AtName | AtValueLen | AtValue.
Inductive opc := OpCap | OpDup | OpIndexed | OpIndexedName | OpLiteral.
Record rst := mk_rst { r_name : ptr; r_value : ptr; r_at : at_; r_op : opc; r_dyn : bool }.
(* lib/nghttp3_qpack.c:2669-2681 nghttp3_qpack_read_state_reset, with the state set beside it *)
Definition reset (a : at_) : rst := mk_rst Null Null a OpCap false.
Definition goto (a : at_) (r : rst) : rst := mk_rst (r_name r) (r_value r) a (r_op r) (r_dyn r).
Definition with_op (a : at_) (o : opc) (dyn : bool) (r : rst) : rst :=
  mk_rst (r_name r) (r_value r) a o dyn.
Definition with_name (p : ptr) (r : rst) : rst := mk_rst p (r_value r) (r_at r) (r_op r) (r_dyn r).
Definition with_value (p : ptr) (r : rst) : rst := mk_rst (r_name r) p (r_at r) (r_op r) (r_dyn r).
(* lib/nghttp3_qpack.c:2664-2667 nghttp3_qpack_read_state_free *)
Definition read_state_free (r : rst) : M unit := decref (r_value r);; decref (r_name r).

(* The decoder's three outcomes of one step: parser, table, and whether decoder->ctx.bad is set *)
Definition dec := (rst * tabl * bool)%type.

(* lib/nghttp3_qpack.c:3160-3183 nghttp3_qpack_decoder_dtable_static_add; ch_err: it does not fit *)
Definition static_add (r : rst) (t : tabl) (c : choice) : M dec :=
  touch (r_value r);;
  if ch_err c then ret (r, t, true) else
  do (t', ok) <- dtable_add t Static (r_value r) c;
  decref (r_value r);;
  ret (with_value Null r, t', negb ok).
(* lib/nghttp3_qpack.c:3185-3211 nghttp3_qpack_decoder_dtable_dynamic_add *)
Definition dynamic_add (r : rst) (t : tabl) (c : choice) : M dec :=
  match nth_error t (ch_i c) with
  | None => ret (r, t, true)
  | Some (name, _) =>
    touch name;; touch (r_value r);;
    if ch_err c then ret (r, t, true) else
    incref name;;
    do (t', ok) <- dtable_add t name (r_value r) c;
    decref (r_value r);; decref name;;
    ret (with_value Null r, t', negb ok)
  end.
(* lib/nghttp3_qpack.c:3213-3238 nghttp3_qpack_decoder_dtable_duplicate_add *)
Definition duplicate_add (r : rst) (t : tabl) (c : choice) : M dec :=
  match nth_error t (ch_i c) with
  | None => ret (r, t, true)
  | Some (name, value) =>
    touch name;; touch value;;
    if ch_err c then ret (r, t, true) else
    incref name;; incref value;;
    do (t', ok) <- dtable_add t name value c;
    decref value;; decref name;;
    ret (r, t', negb ok)
  end.
(* lib/nghttp3_qpack.c:3240-3266 nghttp3_qpack_decoder_dtable_literal_add *)
Definition literal_add (r : rst) (t : tabl) (c : choice) : M dec :=
  touch (r_name r);; touch (r_value r);;
  if ch_err c then ret (r, t, true) else
  do (t', ok) <- dtable_add t (r_name r) (r_value r) c;
  decref (r_value r);; decref (r_name r);;
  ret (with_name Null (with_value Null r), t', negb ok).

(* after an instruction: decoder->state = OPCODE and read_state_reset, or the error exit *)
Definition after_add (d : dec) : dec :=
  let '(r, t, bad) := d in if bad then (r, t, true) else (reset AtOp, t, false).

(* CHECK_NAME_HUFFMAN, READ_NAMELEN .. READ_VALUE_HUFFMAN, READ_VALUE up to the point where the
   value is complete, lib/nghttp3_qpack.c:2922-3052 and 3518-3648: the same in both parsers.  The
   last result: the value is complete.  ch_m3: the buffer is allocated *)
Definition strings (r : rst) (c : choice) : M (rst * bool * bool) :=
  match r_at r with
  | AtNameLen =>
    if ch_more c then ret (r, false, false) else
    if ch_err c then ret (r, true, false) else
    do p <- rcbuf_new (ch_m3 c) [];
    (if ch_m3 c then touch p;; ret (with_name p (goto AtName r), false, false)
     else ret (goto AtName r, true, false))
  | AtName =>
    store (r_name r) (ch_bytes c);;
    if ch_err c then ret (r, true, false) else
    if ch_more c then ret (r, false, false) else
    ret (goto AtValueLen r, false, false)
  | AtValueLen =>
    if ch_more c then ret (r, false, false) else
    if ch_err c then ret (r, true, false) else
    do p <- rcbuf_new (ch_m3 c) [];
    (if ch_m3 c then touch p;; ret (with_value p (goto AtValue r), false, false)
     else ret (goto AtValue r, true, false))
  | AtValue =>
    store (r_value r) (ch_bytes c);;
    if ch_err c then ret (r, true, false) else
    if ch_more c then ret (r, false, false) else ret (r, false, true)
  | _ => ret (r, false, false)
  end.

(* lib/nghttp3_qpack.c:2794-3118 nghttp3_qpack_decoder_read_encoder: one round of its loop.  A
   choice ch_err at AtValue rejects the string; the one that rejects the finished entry (it does
   not fit) is that of [c2] *)
Definition es_round (r : rst) (t : tabl) (c c2 : choice) : M dec :=
  match r_at r with
  | AtOp => ret (match ch_op c with
                 | 0%nat => with_op AtIndex OpIndexedName (ch_dyn c) r
                 | 1%nat => with_op AtNameLen OpLiteral false r
                 | 2%nat => with_op AtIndex OpCap (r_dyn r) r
                 | _ => with_op AtIndex OpDup true r
                 end, t, false)
  | AtIndex =>
    if ch_more c then ret (r, t, false) else
    if ch_err c then ret (r, t, true) else
    match r_op r with
    | OpCap => do t' <- evict (ch_evict c) t; ret (reset AtOp, t', false)
    | OpDup => do d <- duplicate_add r t c2; ret (after_add d)
    | _ => ret (goto AtValueLen r, t, false)
    end
  | AtPrefix => ret (r, t, false)
  | _ =>
    do (r', bad, complete) <- strings r c;
    if bad then ret (r', t, true) else
    if negb complete then ret (r', t, false) else
    do d <- (match r_op r with
             | OpLiteral => literal_add r t c2
             | _ => if r_dyn r then dynamic_add r t c2 else static_add r t c2
             end);
    ret (after_add d)
  end.

(* What nghttp3_qpack_decoder_read_request leaves behind: parser, bad, and the pair it emits *)
Definition req := (rst * bool * option (ptr * ptr))%type.

(* lib/nghttp3_qpack.c:3957-3996 emit_static_indexed, emit_dynamic_indexed, emit_indexed *)
Definition emit_indexed (r : rst) (t : tabl) (c : choice) : M req :=
  if r_dyn r then
    match nth_error t (ch_i c) with
    | None => ret (r, true, None)
    | Some (name, value) => incref name;; incref value;; ret (reset AtOp, false, Some (name, value))
    end
  else ret (reset AtOp, false, Some (Static, Static)).
(* lib/nghttp3_qpack.c:3998-4053 emit_static_indexed_name, emit_dynamic_indexed_name (which checks
   the index again), emit_indexed_name; read_state_reset follows the success *)
Definition emit_indexed_name (r : rst) (t : tabl) (c : choice) : M req :=
  if r_dyn r then
    if ch_err c then ret (r, true, None) else
    match nth_error t (ch_i c) with
    | None => ret (r, true, None)
    | Some (name, _) => incref name;; ret (reset AtOp, false, Some (name, r_value r))
    end
  else ret (reset AtOp, false, Some (Static, r_value r)).
(* lib/nghttp3_qpack.c:4055-4073 nghttp3_qpack_decoder_emit_literal *)
Definition emit_literal (r : rst) : M req :=
  touch (r_name r);; ret (reset AtOp, false, Some (r_name r, r_value r)).

(* lib/nghttp3_qpack.c:3302-3747 nghttp3_qpack_decoder_read_request: one round of its loop.
   AtPrefix: RICNT, DBASE_SIGN, DBASE and BLOCKED *)
Definition rs_round (r : rst) (t : tabl) (c c2 : choice) : M req :=
  match r_at r with
  | AtPrefix =>
    if ch_more c then ret (r, false, None) else
    if ch_err c then ret (r, true, None) else
    ret ((if ch_dyn c then reset AtOp else goto AtOp r), false, None)
  | AtOp =>
    if ch_err c then ret (r, true, None) else
    ret (match ch_op c with
         | 0%nat => with_op AtIndex OpIndexed (ch_dyn c) r
         | 1%nat => with_op AtNameLen OpLiteral false r
         | _ => with_op AtIndex OpIndexedName (ch_dyn c) r
         end, false, None)
  | AtIndex =>
    if ch_more c then ret (r, false, None) else
    if ch_err c then ret (r, true, None) else
    match r_op r with
    | OpIndexed => emit_indexed r t c2
    | _ => ret (goto AtValueLen r, false, None)
    end
  | _ =>
    do (r', bad, complete) <- strings r c;
    if bad then ret (r', true, None) else
    if negb complete then ret (r', false, None) else
    match r_op r with
    | OpLiteral => emit_literal r
    | _ => emit_indexed_name r t c2
    end
  end.

(* lib/nghttp3_qpack.c:2121-2149 nghttp3_qpack_encoder_dtable_static_add, with [src] the bytes of
   the value.  ch_m3, ch_m4: the buffers are allocated *)
Definition enc_static_add (t : tabl) (src : list Z) (c : choice) : M (tabl * bool) :=
  do value <- rcbuf_new (ch_m3 c) src;
  if negb (ch_m3 c) then ret (t, false) else
  do (t', ok) <- dtable_add t Static value c;
  decref value;; ret (t', ok).
(* lib/nghttp3_qpack.c:2151-2180 nghttp3_qpack_encoder_dtable_dynamic_add *)
Definition enc_dynamic_add (t : tabl) (src : list Z) (c : choice) : M (tabl * bool) :=
  match nth_error t (ch_i c) with
  | None => ret (t, false)
  | Some (name, _) =>
    do value <- rcbuf_new (ch_m3 c) src;
    if negb (ch_m3 c) then ret (t, false) else
    incref name;;
    do (t', ok) <- dtable_add t name value c;
    decref value;; decref name;; ret (t', ok)
  end.
(* lib/nghttp3_qpack.c:2182-2201 nghttp3_qpack_encoder_dtable_duplicate_add *)
Definition enc_duplicate_add (t : tabl) (c : choice) : M (tabl * bool) :=
  match nth_error t (ch_i c) with
  | None => ret (t, false)
  | Some (name, value) =>
    incref name;; incref value;;
    do (t', ok) <- dtable_add t name value c;
    decref name;; decref value;; ret (t', ok)
  end.
(* lib/nghttp3_qpack.c:2203-2231 nghttp3_qpack_encoder_dtable_literal_add *)
Definition enc_literal_add (t : tabl) (nsrc vsrc : list Z) (c : choice) : M (tabl * bool) :=
  do name <- rcbuf_new (ch_m3 c) nsrc;
  if negb (ch_m3 c) then ret (t, false) else
  do value <- rcbuf_new (ch_m4 c) vsrc;
  if negb (ch_m4 c) then decref name;; ret (t, false) else
  do (t', ok) <- dtable_add t name value c;
  decref value;; decref name;; ret (t', ok).

(* lib/nghttp3_qpack.c:863-873 qpack_context_free *)
Fixpoint context_free (t : tabl) : M unit :=
  match t with [] => ret tt | e :: r => entry_free e;; context_free r end.

(* Everything that can hold a buffer.  [scs]: the stream contexts ever made (None: deleted);
   [app]: the references the application owns; [alive]: the object has not been deleted *)
Record st := mk_st {
  hp : heap;
  d_rst : rst; d_tab : tabl; d_bad : bool; d_alive : bool;
  scs : list (option rst);
  e_tab : tabl; e_alive : bool;
  app : list ptr
}.
Definition init : st := mk_st [] (reset AtOp) [] false true [] [] true [].

Inductive op :=
| OReadEncoder (c c2 : choice)             (* one round of nghttp3_qpack_decoder_read_encoder *)
| OContextNew                              (* nghttp3_qpack_stream_context_new *)
| OReadRequest (i : nat) (c c2 : choice)   (* one round of nghttp3_qpack_decoder_read_request; what it
                                              emits belongs to the caller *)
| OHeader (i : nat) (c c2 : choice) (keep_name keep_value : bool)
                                           (* the same inside nghttp3_conn_read_stream2, where the
                                              callback may take references for itself *)
| OContextReset (i : nat)                  (* nghttp3_qpack_stream_context_reset *)
| OContextDel (i : nat)                    (* nghttp3_qpack_stream_context_del *)
| ODecoderDel
| OEncStatic (src : list Z) (c : choice) | OEncDynamic (src : list Z) (c : choice)
| OEncDuplicate (c : choice) | OEncLiteral (nsrc vsrc : list Z) (c : choice)
| OEncShrink (k : nat)                     (* the eviction loop of the encoder *)
| OEncoderDel
| OIncref (p : ptr)                        (* the application calls nghttp3_rcbuf_incref *)
| ODecref (p : ptr).                       (* the application calls nghttp3_rcbuf_decref *)

Fixpoint set_nth {A} (i : nat) (x : A) (l : list A) : list A :=
  match l, i with
  | [], _ => []
  | _ :: r, O => x :: r
  | y :: r, S j => y :: set_nth j x r
  end.
Definition ctx_of (s : st) (i : nat) : option rst :=
  match nth_error (scs s) i with Some (Some r) => Some r | _ => None end.
Fixpoint remove1 (p : ptr) (l : list ptr) : list ptr :=
  match l with
  | [] => []
  | x :: r => match x, p with
              | Static, Static => r
              | Null, Null => r
              | Buf n, Buf m => if Nat.eqb n m then r else x :: remove1 p r
              | _, _ => x :: remove1 p r
              end
  end.
Definition keep (b : bool) (p : ptr) : M (list ptr) :=
  if b then incref p;; ret [p] else ret [].

Definition finish {A} (m : M A) (s : st) (f : heap -> A -> st) : option st :=
  match m (hp s) with Some (x, h) => Some (f h x) | None => None end.
Definition set_hp (h : heap) (s : st) : st :=
  mk_st h (d_rst s) (d_tab s) (d_bad s) (d_alive s) (scs s) (e_tab s) (e_alive s) (app s).
Definition set_dec (h : heap) (d : dec) (s : st) : st :=
  let '(r, t, bad) := d in
  mk_st h r t (bad || d_bad s) (d_alive s) (scs s) (e_tab s) (e_alive s) (app s).
Definition set_req (h : heap) (i : nat) (r : rst) (bad : bool) (own : list ptr) (s : st) : st :=
  mk_st h (d_rst s) (d_tab s) (bad || d_bad s) (d_alive s) (set_nth i (Some r) (scs s)) (e_tab s)
        (e_alive s) (own ++ app s).
Definition set_enc (h : heap) (t : tabl) (s : st) : st :=
  mk_st h (d_rst s) (d_tab s) (d_bad s) (d_alive s) (scs s) t (e_alive s) (app s).
Definition set_app (h : heap) (a : list ptr) (s : st) : st :=
  mk_st h (d_rst s) (d_tab s) (d_bad s) (d_alive s) (scs s) (e_tab s) (e_alive s) a.

(* lib/nghttp3_conn.c:1588-1651 the loop of conn_decode_headers, one round: the decoded pair is
   checked (nghttp3_http_on_header reads it), the callback may keep it, and whatever the result is
   both references are dropped; ch_err of [c2] at AtOp stands for NGHTTP3_QPACK_DECODE_FLAG_FINAL,
   after which the context is reset *)
Definition on_header (e : option (ptr * ptr)) (kn kv : bool) : M (list ptr) :=
  match e with
  | None => ret []
  | Some (name, value) =>
    touch name;; touch value;;
    do a <- keep kn name; do b <- keep kv value;
    decref name;; decref value;; ret (a ++ b)
  end.

Definition step (s : st) (o : op) : option st :=
  match o with
  | OReadEncoder c c2 =>
    if negb (d_alive s) || d_bad s then Some s else
    finish (es_round (d_rst s) (d_tab s) c c2) s (fun h d => set_dec h d s)
  | OContextNew =>
    Some (mk_st (hp s) (d_rst s) (d_tab s) (d_bad s) (d_alive s) (scs s ++ [Some (reset AtPrefix)])
                (e_tab s) (e_alive s) (app s))
  | OReadRequest i c c2 =>
    if negb (d_alive s) || d_bad s then Some s else
    match ctx_of s i with
    | None => Some s
    | Some r =>
      finish (rs_round r (d_tab s) c c2) s (fun h x =>
        let '(r', bad, e) := x in
        set_req h i r' bad (match e with Some (n, v) => [n; v] | None => [] end) s)
    end
  | OHeader i c c2 kn kv =>
    if negb (d_alive s) || d_bad s then Some s else
    match ctx_of s i with
    | None => Some s
    | Some r =>
      finish (do (r', bad, e) <- rs_round r (d_tab s) c c2;
              do own <- on_header e kn kv; ret (r', bad, own)) s (fun h x =>
        let '(r', bad, own) := x in set_req h i r' bad own s)
    end
  | OContextReset i =>
    match ctx_of s i with
    | None => Some s
    | Some r => Some (set_req (hp s) i (reset AtPrefix) false [] s)
    end
  | OContextDel i =>
    match ctx_of s i with
    | None => Some s
    | Some r => finish (read_state_free r) s (fun h _ =>
        mk_st h (d_rst s) (d_tab s) (d_bad s) (d_alive s) (set_nth i None (scs s)) (e_tab s)
              (e_alive s) (app s))
    end
  | ODecoderDel =>
    if negb (d_alive s) then Some s else
    finish (read_state_free (d_rst s);; context_free (d_tab s)) s (fun h _ =>
      mk_st h (reset AtOp) [] (d_bad s) false (scs s) (e_tab s) (e_alive s) (app s))
  | OEncStatic src c => if negb (e_alive s) then Some s else
    finish (enc_static_add (e_tab s) src c) s (fun h x => set_enc h (fst x) s)
  | OEncDynamic src c => if negb (e_alive s) then Some s else
    finish (enc_dynamic_add (e_tab s) src c) s (fun h x => set_enc h (fst x) s)
  | OEncDuplicate c => if negb (e_alive s) then Some s else
    finish (enc_duplicate_add (e_tab s) c) s (fun h x => set_enc h (fst x) s)
  | OEncLiteral a b c => if negb (e_alive s) then Some s else
    finish (enc_literal_add (e_tab s) a b c) s (fun h x => set_enc h (fst x) s)
  | OEncShrink k => if negb (e_alive s) then Some s else
    finish (evict k (e_tab s)) s (fun h t => set_enc h t s)
  | OEncoderDel => if negb (e_alive s) then Some s else
    finish (context_free (e_tab s)) s (fun h _ =>
      mk_st h (d_rst s) (d_tab s) (d_bad s) (d_alive s) (scs s) [] false (app s))
  | OIncref p => finish (incref p) s (fun h _ => set_app h (p :: app s) s)
  | ODecref p => finish (decref p) s (fun h _ => set_app h (remove1 p (app s)) s)
  end.
