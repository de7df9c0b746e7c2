(* Vocabulary for the statements about the QPACK encoder: fields, absolute indices,
   representations of RFC 9204 section 4.5, and what a history of calls has produced. *)
From Verif Require Import Base QpackIntSpec QpackTabModel QpackDynSpec QpackDecModel QpackHistModel QpackHistSpec QpackEncModel.

(* RFC 9204 section 3.2.4: the entry with absolute index [i] of the dynamic table is [f] *)
Definition at_index (c : ctx) (i : Z) (f : list Z * list Z) : Prop :=
  0 <= i < next_absidx c /\ nth_error (contents c) (Z.to_nat (next_absidx c - 1 - i)) = Some f.

(* a field within the length limits of the decoder (names 256, values 65536 bytes) *)
Definition field_ok (h : nv) : Prop :=
  bytes (nv_name h) /\ bytes (nv_value h) /\ zlen (nv_name h) <= 256 /\ zlen (nv_value h) <= 65536.
(* what the receiver observes of a field: name, value, never-index flag *)
Definition sent_field (h : nv) : list Z * list Z * bool := (nv_name h, nv_value h, has_flag (nv_flags h) FLAG_NEVER_INDEX).
Definition got_field (q : qnv) : list Z * list Z * bool := (q_name q, q_value q, has_flag (q_flags q) FLAG_NEVER_INDEX).

(* RFC 9204 section 4.5: field line representations, with the N bit *)
Inductive line_kind := LIndexed | LNameRef (never : bool) | LLiteral (never : bool).
Definition rfc_string (N : Z) (l : list Z) : option (list Z) :=
  match rfc_int N l with
  | Some (n, r) => if n <=? zlen r then Some (skipn (Z.to_nat n) r) else None
  | None => None
  end.
Definition after_int (N : Z) (l : list Z) : option (list Z) :=
  match rfc_int N l with Some (_, r) => Some r | None => None end.
Definition rfc_line (l : list Z) : option (line_kind * list Z) :=
  match l with
  | [] => None
  | b :: _ =>
    let kind k o := match o with Some r => Some (k, r) | None => None end in
    let value o := match o with Some r => rfc_string 7 r | None => None end in
    if 128 <=? b then kind LIndexed (after_int 6 l)                                    (* 1T *)
    else if 64 <=? b then kind (LNameRef (96 <=? b)) (value (after_int 4 l))            (* 01NT *)
    else if 32 <=? b then kind (LLiteral (48 <=? b)) (value (rfc_string 3 l))           (* 001NH *)
    else if 16 <=? b then kind LIndexed (after_int 4 l)                                 (* 0001 *)
    else kind (LNameRef (8 <=? b)) (value (after_int 3 l))                              (* 0000N *)
  end.
Inductive rfc_lines : list Z -> list line_kind -> Prop :=
| rl_nil : rfc_lines [] []
| rl_cons l k r ks : rfc_line l = Some (k, r) -> rfc_lines r ks -> rfc_lines l (k :: ks).
(* section 4.5.1: the prefix of a section *)
Definition after_prefix (l : list Z) : option (list Z) :=
  match rfc_int 8 l with
  | Some (_, r) => after_int 7 r
  | None => None
  end.

(* "authorization" and "cookie" *)
Definition s_authorization : list Z := [97; 117; 116; 104; 111; 114; 105; 122; 97; 116; 105; 111; 110].
Definition s_cookie : list Z := [99; 111; 111; 107; 105; 101].
Definition sensitive (h : nv) : bool :=
  has_flag (nv_flags h) FLAG_NEVER_INDEX || beqb (nv_name h) s_authorization
  || (beqb (nv_name h) s_cookie && (zlen (nv_value h) <? 20)).

(* the representation [k] is fit for the field [h]: no full index for a sensitive field, and
   the N bit is the flag *)
Definition line_good (h : nv) (k : line_kind) : Prop :=
  let never := has_flag (nv_flags h) FLAG_NEVER_INDEX in
  (sensitive h = true -> k <> LIndexed) /\ (k = LIndexed \/ k = LNameRef never \/ k = LLiteral never).

(* ---- histories ---- *)
Definition eop_ok (o : eop) : Prop :=
  match o with
  | EEncode id l => 0 <= id < 2 ^ 62 /\ Forall field_ok l
  | ESetCap n => 0 <= n
  | ESetBlocked n => 0 <= n
  | EFeed src => bytes src
  | EAckAll => True
  end.
(* all fields submitted *)
Fixpoint submitted (ops : list eop) : list nv :=
  match ops with
  | [] => []
  | EEncode _ l :: t => l ++ submitted t
  | _ :: t => submitted t
  end.
(* everything written to the encoder stream *)
Fixpoint enc_bytes (tr : list (eop * eres)) : list Z :=
  match tr with
  | [] => []
  | (_, ErSection _ eb _) :: t => eb ++ enc_bytes t
  | _ :: t => enc_bytes t
  end.
(* a section sent on a stream, with its Required Insert Count *)
Record sent := mk_sent { o_id : Z; o_fields : list nv; o_bytes : list Z; o_ric : Z }.
Fixpoint drop_first (id : Z) (l : list sent) : list sent :=
  match l with
  | [] => []
  | s :: t => if o_id s =? id then t else s :: drop_first id t
  end.
(* sections that refer to the dynamic table and are neither acknowledged nor cancelled *)
Definition find_first (id : Z) (l : list sent) : option sent := find (fun s => o_id s =? id) l.
(* section 2.1.4: the Known Received Count, and what is outstanding *)
Record view := mk_view { v_known : Z; v_out : list sent }.
Definition feedback (v : view) (i : ds_op * Z) : view :=
  match i with
  | (DsAck, id) => mk_view (match find_first id (v_out v) with Some s => Z.max (v_known v) (o_ric s) | None => v_known v end)
                           (drop_first id (v_out v))
  | (DsCancel, id) => mk_view (v_known v) (filter (fun s => negb (o_id s =? id)) (v_out v))
  | (DsInc, n) => mk_view (v_known v + n) (v_out v)
  end.
Definition view_step (v : view) (x : eop * eres) : view :=
  match x with
  | (EEncode id hs, ErSection sec _ ric) =>
      if ric =? 0 then v else mk_view (v_known v) (v_out v ++ [mk_sent id hs sec ric])
  | (_, ErFed evs) => fold_left feedback evs v
  | (_, ErErr _ evs) => fold_left feedback evs v
  | (_, ErAcked n) => mk_view n []
  | _ => v
  end.
Definition view_of (tr : list (eop * eres)) : view := fold_left view_step tr (mk_view 0 []).
(* a stream is blocked if it has an outstanding section that needs an insertion not known
   to have been received *)
Definition stream_blocked (v : view) (id : Z) : Prop :=
  exists s, In s (v_out v) /\ o_id s = id /\ v_known v < o_ric s.

(* the largest limit of blocked streams set *)
Fixpoint blocked_limit (ops : list eop) : Z :=
  match ops with
  | [] => 0
  | ESetBlocked n :: t => Z.max n (blocked_limit t)
  | _ :: t => blocked_limit t
  end.
(* decoder stream bytes delivered, and the instructions carried out *)
Fixpoint fed_bytes (ops : list eop) : list Z :=
  match ops with
  | [] => []
  | EFeed src :: t => src ++ fed_bytes t
  | _ :: t => fed_bytes t
  end.
Fixpoint carried_out (tr : list (eop * eres)) : list (ds_op * Z) :=
  match tr with
  | [] => []
  | (_, ErFed evs) :: t => evs ++ carried_out t
  | _ :: t => carried_out t
  end.
Definition no_error (tr : list (eop * eres)) : Prop := forall o e evs, ~ In (o, ErErr e evs) tr.

(* the section [p], read by the decoder [d] with the stream state [s], gives exactly the
   fields [hs], in order, and ends *)
Definition decodes_to (d : dec) (s : sctx) (p : list Z) (hs : list nv) (id ric : Z) : Prop :=
  exists qs d' s', decode_section d s p true = (qs, RqFinal d' s') /\
    map got_field qs = map sent_field hs /\ s_id s' = id /\ s_ricnt s' = ric.
(* a decoder that knows just the entries of the table [c] *)
Definition knowing (c : ctx) : dec :=
  mk_dec (mk_ctx (dtable c) (dtable_size c) (dtable_sum c) (hard_max c) (hard_max c) 0 (next_absidx c) false)
         EsOpcode OpInsertIndexed rs_reset [] 0 0 0 [].
Definition instr_of (i : ds_op * Z) : dinstr :=
  match i with (DsAck, id) => IAck id | (DsCancel, id) => ICancel id | (DsInc, n) => IInc n end.
Definition instr_val (i : dinstr) : Z := match i with IAck v | ICancel v | IInc v => v end.
(* section 4.4: an instruction the encoder must accept when [n] entries have been inserted *)
Definition acceptable (n : Z) (v : view) (i : ds_op * Z) : Prop :=
  match i with
  | (DsInc, k) => 0 < k /\ v_known v + k <= n
  | (DsAck, id) => exists s, In s (v_out v) /\ o_id s = id
  | (DsCancel, id) => True
  end.
Fixpoint accepted (n : Z) (v : view) (l : list (ds_op * Z)) : Prop :=
  match l with [] => True | i :: t => acceptable n v i /\ accepted n (feedback v i) t end.
(* same encoder, except for the count of uninterrupted bytes *)
Definition same_enc (e1 e2 : enc) : Prop := en_set_unint e1 0 = en_set_unint e2 0.
(* [rest] starts with no complete instruction whose integer is below 2^62 and takes at most
   ten bytes *)
Definition too_large (rest : list Z) : Prop :=
  forall i r, rfc_dinstr rest = Some (i, r) -> 2 ^ 62 <= instr_val i \/ 10 < zlen rest - zlen r.
(* the hypotheses of the statements about encoders: a table capacity and histories of calls
   within the ranges of the API *)
Definition history (hard : Z) (ops : list eop) : Prop :=
  0 <= hard < 2 ^ 62 /\ Forall eop_ok ops /\ zlen (submitted ops) < 2 ^ 62 - 2.
