(* Model of the QPACK encoder, lib/nghttp3_qpack.c:737-1610, 1800-2050, 2120-2460, 2525-2616.
   Not modelled: allocation failures and the 2 GiB limit of reserve_buf (lines 1085-1130),
   wrap-around of size_t sums. *)
From Verif Require Import Base Tables QpackIntModel HuffModel QpackTabModel Chunk.

Definition obind {A B} (x : outcome A) (f : A -> outcome B) : outcome B :=
  match x with Ok a => f a | Err e => Err e | Abort => Abort end.
Local Notation "'do' p <- x ; y" := (obind x (fun p => y)) (at level 60, p pattern, x at level 50, right associativity).

Definition MAX_QPACK_STREAMS : Z := 2000. (* lib/nghttp3_qpack.c:41 *)
Definition MAX_DECODERLEN : Z := 4096.    (* lib/nghttp3_qpack.h:58 *)
Definition size_max : Z := u64_max.       (* SIZE_MAX on a 64-bit platform *)

(* tokens, lib/includes/nghttp3/nghttp3.h:775-1055 *)
Definition T_PATH := 8.  Definition T_AGE := 43.  Definition T_AUTHORIZATION := 45.
Definition T_CONTENT_LENGTH := 55.  Definition T_COOKIE := 68.  Definition T_ETAG := 71.
Definition T_IF_MODIFIED_SINCE := 74.  Definition T_IF_NONE_MATCH := 75.  Definition T_LOCATION := 79.
Definition T_SET_COOKIE := 85.  Definition T_HOST := 1000.  Definition T_TE := 1006.
Definition T_PROTOCOL := 1007.  Definition T_PRIORITY := 1008.

Definition is_nevh (h : nv) : bool := has_flag (nv_flags h) FLAG_NEVER_INDEX.
Definition is_try (h : nv) : bool := has_flag (nv_flags h) FLAG_TRY_INDEX.

(* lib/nghttp3_qpack.c:1281-1294 qpack_hash_name (uint32_t arithmetic) *)
Definition hash_name (name : list Z) : Z :=
  fold_left (fun h b =>
    let h := Z.lxor h b in
    (h + Z.shiftl h 1 + Z.shiftl h 4 + Z.shiftl h 7 + Z.shiftl h 8 + Z.shiftl h 24) mod 2 ^ 32)
    name 2166136261.
(* lib/nghttp3_qpack.c:1466-1487: the hash of a field name *)
Definition static_entry (token : Z) : bool := negb (token =? -1) && (token <? zlen token_stable).
Definition hash_of (token : Z) (name : list Z) : outcome Z :=
  if static_entry token then
    match token_stable_get token with Some (_, _, h) => Ok h | None => Abort end
  else if token =? T_HOST then Ok 2952701295
  else if token =? T_TE then Ok 1011170994
  else if token =? T_PROTOCOL then Ok 1128642621
  else if token =? T_PRIORITY then Ok 2498028297
  else Ok (hash_name name).

(* lib/nghttp3_qpack.c:792-796 qpack_context_can_reference *)
Definition can_reference (c : ctx) (absidx : Z) : outcome bool :=
  match dtable_get c absidx with
  | None => Abort
  | Some e => Ok (dtable_sum c - e_sum e <=? max_cap c)
  end.

(* lib/nghttp3_qpack.c:751-784 qpack_map: bucket [hash & 63] links the entries with that
   hash, newest first; entries enter and leave the map together with the table, so the
   bucket is the table filtered. *)
Definition bucket (c : ctx) (hash : Z) : list entry :=
  filter (fun e => Z.land (e_hash e) 63 =? Z.land hash 63) (dtable c).

(* lib/nghttp3_qpack.c:800-835 encoder_qpack_map_find; result: match, exact, pb_match *)
Fixpoint map_find (l : list entry) (c : ctx) (h : nv) (token hash krcnt : Z) (allow name_only : bool)
    (pm pb : option entry) : outcome (option entry * bool * option entry) :=
  match l with
  | [] => Ok (pm, false, pb)
  | p :: l' =>
    if negb (token =? e_token p)
       || ((token =? -1) && (negb (hash =? e_hash p) || negb (beqb (e_name p) (nv_name h))))
    then map_find l' c h token hash krcnt allow name_only pm pb
    else
      do ok <- can_reference c (e_abs p);
      if negb ok then map_find l' c h token hash krcnt allow name_only pm pb
      else if allow || (e_abs p + 1 <=? krcnt) then
        match pm with
        | None => if name_only then Ok (Some p, false, pb)
                  else if beqb (e_value p) (nv_value h) then Ok (Some p, true, pb)
                  else map_find l' c h token hash krcnt allow name_only (Some p) pb
        | Some _ => if beqb (e_value p) (nv_value h) then Ok (Some p, true, pb)
                    else map_find l' c h token hash krcnt allow name_only pm pb
        end
      else
        match pb with
        | None => map_find l' c h token hash krcnt allow name_only pm
                    (if beqb (e_value p) (nv_value h) then Some p else None)
        | Some _ => map_find l' c h token hash krcnt allow name_only pm pb
        end
  end.

(* lib/nghttp3_qpack.c:1301-1352 qpack_encoder_decide_indexing_mode *)
Definition fits_store (c : ctx) (h : nv) : imode :=
  if table_space (zlen (nv_name h)) (zlen (nv_value h)) >? max_cap c * 3 / 4 then MLiteral else MStore.
Definition decide_mode (c : ctx) (h : nv) (token : Z) : imode :=
  if is_nevh h then MNever
  else if token =? T_AUTHORIZATION then MNever
  else if token =? T_COOKIE then
    if zlen (nv_value h) <? 20 then MNever else fits_store c h
  else if (token =? -1) || (token =? T_PATH) || (token =? T_AGE) || (token =? T_CONTENT_LENGTH)
       || (token =? T_ETAG) || (token =? T_IF_MODIFIED_SINCE) || (token =? T_IF_NONE_MATCH)
       || (token =? T_LOCATION) || (token =? T_SET_COOKIE) then
    if is_try h then fits_store c h else MLiteral
  else if (token =? T_HOST) || (token =? T_TE) || (token =? T_PROTOCOL) || (token =? T_PRIORITY) then
    fits_store c h
  else if is_try h then fits_store c h
  else if token >=? 1000 then MLiteral
  else fits_store c h.

(* lib/nghttp3_qpack.c:1361-1400 qpack_encoder_can_index; [gmin] is the minimum of the
   priority queue min_cnts (None when it is empty) *)
Definition can_index (c : ctx) (gmin : option Z) (need min_cnt : Z) : outcome bool :=
  let avail := if max_cap c >? dtable_size c then max_cap c - dtable_size c else 0 in
  if (max_cap c >? dtable_size c) && (need <=? avail) then Ok true
  else
    let min_cnt := match gmin with None => min_cnt | Some g => Z.min min_cnt g end in
    if min_cnt =? u64_max then Ok (max_cap c >=? need)
    else
      match dtable_get c (min_cnt - 1), rev (dtable c) with
      | Some min_ent, last_ent :: _ =>
        if e_abs min_ent =? e_abs last_ent then Ok false
        else Ok (avail + e_sum min_ent - e_sum last_ent >=? need)
      | _, _ => Abort
      end.
(* lib/nghttp3_qpack.c:1423-1432 qpack_context_check_draining *)
Definition check_draining (c : ctx) (absidx : Z) : outcome bool :=
  match dtable_get c absidx with
  | None => Abort
  | Some e => Ok (dtable_sum c - e_sum e >? max_cap c - Z.min 512 (max_cap c * 1 / 8))
  end.

(* ---------------- writers ---------------- *)
(* every writer computes the length, reserves it and asserts it afterwards *)
Definition wrote (len : Z) (b : list Z) : outcome (list Z) := if zlen b =? len then Ok b else Abort.
(* lib/nghttp3_qpack.c:1207-1228 qpack_write_number *)
Definition write_number (fb num prefix : Z) : outcome (list Z) :=
  wrote (q_put_varint_len num prefix) (q_put_varint fb num prefix).
(* the Huffman form is used when it is shorter *)
Definition str_huff (s : list Z) : bool := huff_encode_count s <? zlen s.
Definition str_wlen (s : list Z) (prefix : Z) : Z :=
  let n := if str_huff s then huff_encode_count s else zlen s in q_put_varint_len n prefix + n.
(* a string literal with [prefix]-bit length whose H bit is bit [prefix]; [fb] holds the
   other bits of the first byte *)
Definition put_str (fb : Z) (s : list Z) (prefix : Z) : list Z :=
  if str_huff s then q_put_varint (Z.lor fb (2 ^ prefix)) (huff_encode_count s) prefix ++ huff_encode s
  else q_put_varint fb (zlen s) prefix ++ s.
(* lib/nghttp3_qpack.c:1829-1882 qpack_encoder_write_indexed_name *)
Definition write_indexed_name (fb nameidx prefix : Z) (h : nv) : outcome (list Z) :=
  wrote (q_put_varint_len nameidx prefix + str_wlen (nv_value h) 7)
        (q_put_varint fb nameidx prefix ++ put_str 0 (nv_value h) 7).
(* lib/nghttp3_qpack.c:1932-2005 qpack_encoder_write_literal *)
Definition write_literal_gen (fb prefix : Z) (h : nv) : outcome (list Z) :=
  wrote (str_wlen (nv_name h) prefix + str_wlen (nv_value h) 7)
        (put_str fb (nv_name h) prefix ++ put_str 0 (nv_value h) 7).
(* lib/nghttp3_qpack.c:1793-1799 *)
Definition write_static_indexed (absidx : Z) : outcome (list Z) := write_number 192 absidx 6.
(* lib/nghttp3_qpack.c:1801-1815 *)
Definition write_dynamic_indexed (absidx base : Z) : outcome (list Z) :=
  if absidx <? base then write_number 128 (base - absidx - 1) 6
  else write_number 16 (absidx - base) 4.
(* lib/nghttp3_qpack.c:1884-1895 *)
Definition write_static_indexed_name (absidx : Z) (h : nv) : outcome (list Z) :=
  write_indexed_name (Z.lor 80 (if is_nevh h then 32 else 0)) absidx 4 h.
(* lib/nghttp3_qpack.c:1897-1918 *)
Definition write_dynamic_indexed_name (absidx base : Z) (h : nv) : outcome (list Z) :=
  if absidx <? base then
    write_indexed_name (Z.lor 64 (if is_nevh h then 32 else 0)) (base - absidx - 1) 4 h
  else write_indexed_name (if is_nevh h then 8 else 0) (absidx - base) 3 h.
(* lib/nghttp3_qpack.c:2007-2015 *)
Definition write_literal (h : nv) : outcome (list Z) :=
  write_literal_gen (Z.lor 32 (if is_nevh h then 16 else 0)) 3 h.
(* lib/nghttp3_qpack.c:2017-2024, 2026-2034, 2036-2054 *)
Definition write_static_insert (absidx : Z) (h : nv) : outcome (list Z) := write_indexed_name 192 absidx 6 h.
Definition write_dynamic_insert (c : ctx) (absidx : Z) (h : nv) : outcome (list Z) :=
  write_indexed_name 128 (next_absidx c - absidx - 1) 6 h.
Definition write_duplicate_insert (c : ctx) (absidx : Z) : outcome (list Z) :=
  write_number 0 (next_absidx c - absidx - 1) 5.
Definition write_literal_insert (h : nv) : outcome (list Z) := write_literal_gen 64 5 h.
(* lib/nghttp3_qpack.c:1264-1268 *)
Definition write_set_cap (cap : Z) : outcome (list Z) := write_number 32 cap 5.
(* lib/nghttp3_qpack.c:2407-2448 nghttp3_qpack_encoder_write_field_section_prefix *)
Definition write_prefix (hard ricnt base : Z) : outcome (list Z) :=
  let max_ents := hard / 32 in
  if negb (ricnt =? 0) && (2 * max_ents =? 0) then Abort (* division by zero *)
  else
    let encricnt := if ricnt =? 0 then 0 else ricnt mod (2 * max_ents) + 1 in
    let sign := base <? ricnt in
    let delta := if sign then ricnt - base - 1 else base - ricnt in
    wrote (q_put_varint_len encricnt 8 + q_put_varint_len delta 7)
          (q_put_varint 0 encricnt 8 ++ q_put_varint (if sign then 128 else 0) delta 7).

(* ---------------- insertions ---------------- *)
(* lib/nghttp3_qpack.c:2126-2155, 2157-2187, 2189-2211, 2213-2238 *)
Definition enc_static_add (c : ctx) (absidx : Z) (h : nv) (hash : Z) : outcome ctx :=
  match stable_get absidx with
  | None => Abort
  | Some (n, _, t) => dtable_add c n (nv_value h) t hash
  end.
Definition enc_dynamic_add (c : ctx) (absidx : Z) (h : nv) (hash : Z) : outcome ctx :=
  match dtable_get c absidx with
  | None => Abort
  | Some e => dtable_add c (e_name e) (nv_value h) (e_token e) hash
  end.
Definition enc_duplicate_add (c : ctx) (absidx : Z) : outcome ctx :=
  match dtable_get c absidx with
  | None => Abort
  | Some e => dtable_add c (e_name e) (e_value e) (e_token e) (e_hash e)
  end.
Definition enc_literal_add (c : ctx) (h : nv) (token hash : Z) : outcome ctx :=
  dtable_add c (nv_name h) (nv_value h) token hash.
(* nghttp3_qpack_context_dtable_top()->absidx, lib/nghttp3_qpack.c:2252-2256 *)
Definition top_abs (c : ctx) : outcome Z :=
  match dtable c with [] => Abort | e :: _ => Ok (e_abs e) end.

(* ---------------- one field ---------------- *)
(* What encode_nv changes: table, *pmax_cnt, *pmin_cnt, bytes appended to rbuf and ebuf *)
Record acc := mk_acc { a_ctx : ctx; a_max : Z; a_min : Z; a_rb : list Z; a_eb : list Z }.
Definition a_ref (a : acc) (absidx : Z) : acc :=
  mk_acc (a_ctx a) (Z.max (a_max a) (absidx + 1)) (Z.min (a_min a) (absidx + 1)) (a_rb a) (a_eb a).
Definition a_ins (a : acc) (c : ctx) (eb : list Z) : acc := mk_acc c (a_max a) (a_min a) (a_rb a) (a_eb a ++ eb).
Definition a_rep (a : acc) (rb : list Z) : acc := mk_acc (a_ctx a) (a_max a) (a_min a) (a_rb a ++ rb) (a_eb a).
(* refer to the entry just inserted (e.g. lines 1540-1547) *)
Definition ref_top (a : acc) (base : Z) : outcome acc :=
  do t <- top_abs (a_ctx a);
  do rb <- write_dynamic_indexed t base;
  Ok (a_rep (a_ref a t) rb).

(* lib/nghttp3_qpack.c:1497-1523: the dynamic table holds the field *)
Definition enc_exact (a : acc) (i base : Z) (gmin : option Z) (allow : bool) : outcome acc :=
  do dup <- (if allow then
               do dr <- check_draining (a_ctx a) i;
               if dr then
                 match dtable_get (a_ctx a) i with
                 | None => Abort
                 | Some e => can_index (a_ctx a) gmin (ent_space e) (a_min a)
                 end
               else Ok false
             else Ok false);
  if dup then
    do eb <- write_duplicate_insert (a_ctx a) i;
    do c' <- enc_duplicate_add (a_ctx a) i;
    ref_top (a_ins a c' eb) base
  else
    do rb <- write_dynamic_indexed i base;
    Ok (a_rep (a_ref a i) rb).
(* lib/nghttp3_qpack.c:1525-1551: the static table holds the name *)
Definition enc_static_name (a : acc) (h : nv) (si hash base : Z) (gmin : option Z) (allow just : bool) : outcome acc :=
  do ins <- (if just then can_index (a_ctx a) gmin (table_space (zlen (nv_name h)) (zlen (nv_value h))) (a_min a)
             else Ok false);
  do a' <- (if ins then
              do eb <- write_static_insert si h;
              do c' <- enc_static_add (a_ctx a) si h hash;
              Ok (a_ins a c' eb)
            else Ok a);
  if ins && allow then ref_top a' base
  else do rb <- write_static_indexed_name si h; Ok (a_rep a' rb).
(* lib/nghttp3_qpack.c:1553-1592: the dynamic table holds the name *)
Definition enc_dynamic_name (a : acc) (h : nv) (di hash base : Z) (gmin : option Z) (allow just : bool) : outcome acc :=
  do ins <- (if just then
               can_index (a_ctx a) gmin (table_space (zlen (nv_name h)) (zlen (nv_value h)))
                         (if allow then a_min a else Z.min (di + 1) (a_min a))
             else Ok false);
  do a' <- (if ins then
              do eb <- write_dynamic_insert (a_ctx a) di h;
              do c' <- enc_dynamic_add (a_ctx a) di h hash;
              Ok (mk_acc c' (a_max a) (if allow then a_min a else Z.min (a_min a) (di + 1))
                         (a_rb a) (a_eb a ++ eb))
            else Ok a);
  if ins && allow then ref_top a' base
  else do rb <- write_dynamic_indexed_name di base h; Ok (a_rep (a_ref a' di) rb).
(* lib/nghttp3_qpack.c:1594-1608: neither table holds the name *)
Definition enc_literal (a : acc) (h : nv) (token hash base : Z) (gmin : option Z) (allow just : bool) : outcome acc :=
  do ins <- (if just then can_index (a_ctx a) gmin (table_space (zlen (nv_name h)) (zlen (nv_value h))) (a_min a)
             else Ok false);
  do a' <- (if ins then
              do c' <- enc_literal_add (a_ctx a) h token hash;
              do eb <- write_literal_insert h;
              Ok (a_ins a c' eb)
            else Ok a);
  if ins && allow then ref_top a' base
  else do rb <- write_literal h; Ok (a_rep a' rb).

(* lib/nghttp3_qpack.c:1434-1608 nghttp3_qpack_encoder_encode_nv.  [krcnt], [gmin] and
   [nstreams] (size of the stream map) do not change during a section. *)
Definition encode_nv (krcnt : Z) (gmin : option Z) (nstreams base : Z) (allow : bool) (a : acc) (h : nv) : outcome acc :=
  let token := lookup_token (nv_name h) in
  let mode := decide_mode (a_ctx a) h token in
  do sres <- (if static_entry token then
                do r <- lookup_stable token (nv_value h) (is_never mode); Ok (Some r)
              else Ok None);
  match sres with
  | Some (si, true) => do rb <- write_static_indexed si; Ok (a_rep a rb)
  | _ =>
    do hash <- hash_of token (nv_name h);
    do dres <- (if nstreams <? MAX_QPACK_STREAMS then
                  map_find (bucket (a_ctx a) hash) (a_ctx a) h token hash krcnt allow (is_never mode) None None
                else Ok (None, false, None));
    let '(m, exact, pb) := dres in
    let just := (nstreams <? MAX_QPACK_STREAMS) && is_store mode && match pb with None => true | Some _ => false end in
    match m, exact with
    | Some e, true => enc_exact a (e_abs e) base gmin allow
    | _, _ =>
      match sres with
      | Some (si, _) => enc_static_name a h si hash base gmin allow just
      | None =>
        match m with
        | Some e => enc_dynamic_name a h (e_abs e) hash base gmin allow just
        | None => enc_literal a h token hash base gmin allow just
        end
      end
    end
  end.
(* lib/nghttp3_qpack.c:1170-1176 *)
Fixpoint encode_nvs (krcnt : Z) (gmin : option Z) (nstreams base : Z) (allow : bool) (a : acc) (l : list nv) : outcome acc :=
  match l with
  | [] => Ok a
  | h :: l' => do a' <- encode_nv krcnt gmin nstreams base allow a h;
               encode_nvs krcnt gmin nstreams base allow a' l'
  end.

(* ---------------- the encoder ---------------- *)
Inductive ds_op := DsInc | DsAck | DsCancel.
(* struct nghttp3_qpack_encoder, lib/nghttp3_qpack.h.  enc_streams: for each stream its
   header_block_refs (max_cnt, min_cnt), oldest first; the priority queues max_cnts and
   min_cnts are represented by the maximum / minimum over these; enc_blocked: the keys
   (max_cnt, id) of the skip list blocked_streams. *)
Record enc := mk_enc { enc_ctx : ctx; enc_streams : list (Z * list (Z * Z)); enc_blocked : list (Z * Z);
                       enc_krcnt : Z; enc_pending : bool; enc_minupd : Z; enc_lastupd : Z;
                       enc_reading : bool; enc_op : ds_op; enc_left : Z; enc_shift : Z; enc_prefix : Z;
                       enc_unint : Z }.
(* lib/nghttp3_qpack.c:902-925 nghttp3_qpack_encoder_init *)
Definition enc_init (hard : Z) : enc :=
  mk_enc (ctx_init hard 0) [] [] 0 false size_max 0 false DsInc 0 0 0 0.
Definition en_set_ctx (e : enc) (c : ctx) : enc :=
  mk_enc c (enc_streams e) (enc_blocked e) (enc_krcnt e) (enc_pending e) (enc_minupd e) (enc_lastupd e)
         (enc_reading e) (enc_op e) (enc_left e) (enc_shift e) (enc_prefix e) (enc_unint e).
Definition en_set_str (e : enc) (s : list (Z * list (Z * Z))) (b : list (Z * Z)) : enc :=
  mk_enc (enc_ctx e) s b (enc_krcnt e) (enc_pending e) (enc_minupd e) (enc_lastupd e)
         (enc_reading e) (enc_op e) (enc_left e) (enc_shift e) (enc_prefix e) (enc_unint e).
Definition en_set_krcnt (e : enc) (k : Z) (b : list (Z * Z)) : enc :=
  mk_enc (enc_ctx e) (enc_streams e) b k (enc_pending e) (enc_minupd e) (enc_lastupd e)
         (enc_reading e) (enc_op e) (enc_left e) (enc_shift e) (enc_prefix e) (enc_unint e).
Definition en_set_upd (e : enc) (c : ctx) (p : bool) (mn lst : Z) : enc :=
  mk_enc c (enc_streams e) (enc_blocked e) (enc_krcnt e) p mn lst
         (enc_reading e) (enc_op e) (enc_left e) (enc_shift e) (enc_prefix e) (enc_unint e).
Definition en_set_unint (e : enc) (u : Z) : enc :=
  mk_enc (enc_ctx e) (enc_streams e) (enc_blocked e) (enc_krcnt e) (enc_pending e) (enc_minupd e) (enc_lastupd e)
         (enc_reading e) (enc_op e) (enc_left e) (enc_shift e) (enc_prefix e) u.
Definition en_set_rd (e : enc) (rd : bool) (op : ds_op) (l s p : Z) : enc :=
  mk_enc (enc_ctx e) (enc_streams e) (enc_blocked e) (enc_krcnt e) (enc_pending e) (enc_minupd e) (enc_lastupd e)
         rd op l s p (enc_unint e).
Definition ctx_set_cap (c : ctx) (n : Z) : ctx :=
  mk_ctx (dtable c) (dtable_size c) (dtable_sum c) (hard_max c) n (max_blocked c) (next_absidx c) (bad c).
Definition ctx_set_blocked (c : ctx) (n : Z) : ctx :=
  mk_ctx (dtable c) (dtable_size c) (dtable_sum c) (hard_max c) (max_cap c) n (next_absidx c) (bad c).

(* lib/nghttp3_qpack.c:940-957 nghttp3_qpack_encoder_set_max_dtable_capacity *)
Definition enc_set_cap (e : enc) (n : Z) : enc :=
  let n := Z.min n (hard_max (enc_ctx e)) in
  if max_cap (enc_ctx e) =? n then e
  else if enc_minupd e >? n then en_set_upd e (ctx_set_cap (enc_ctx e) n) true n n
  else en_set_upd e (enc_ctx e) true (enc_minupd e) n.
(* lib/nghttp3_qpack.c:959-962 nghttp3_qpack_encoder_set_max_blocked_streams *)
Definition enc_set_blocked (e : enc) (n : Z) : enc := en_set_ctx e (ctx_set_blocked (enc_ctx e) n).

(* minimum of the queue min_cnts *)
Fixpoint min_of (l : list (Z * Z)) : option Z :=
  match l with
  | [] => None
  | (_, m) :: l' => match min_of l' with None => Some m | Some k => Some (Z.min m k) end
  end.
Definition all_refs (s : list (Z * list (Z * Z))) : list (Z * Z) := flat_map snd s.
Definition gmin (e : enc) : option Z := min_of (all_refs (enc_streams e)).
(* lib/nghttp3_qpack.c:1753-1763 nghttp3_qpack_stream_get_max_cnt *)
Definition max_of (l : list (Z * Z)) : Z := fold_right (fun r m => Z.max (fst r) m) 0 l.
Fixpoint find_stream (s : list (Z * list (Z * Z))) (id : Z) : option (list (Z * Z)) :=
  match s with [] => None | (i, r) :: s' => if i =? id then Some r else find_stream s' id end.
Definition remove_stream (s : list (Z * list (Z * Z))) (id : Z) : list (Z * list (Z * Z)) :=
  filter (fun p => negb (fst p =? id)) s.
Definition put_stream (s : list (Z * list (Z * Z))) (id : Z) (r : list (Z * Z)) : list (Z * list (Z * Z)) :=
  (id, r) :: remove_stream s id.

(* lib/nghttp3_qpack.c:972-1003 nghttp3_qpack_encoder_shrink_dtable; [l] is the table
   oldest first *)
Fixpoint shrink_loop (l : list entry) (size cap : Z) (mn : option Z) : outcome (list entry * Z) :=
  if size >? cap then
    match l with
    | [] => Abort
    | x :: l' => if match mn with Some m => e_abs x + 1 =? m | None => false end then Ok (l, size)
                 else shrink_loop l' (size - ent_space x) cap mn
    end
  else Ok (l, size).
Definition shrink (c : ctx) (mn : option Z) : outcome ctx :=
  do (l, size) <- shrink_loop (rev (dtable c)) (dtable_size c) (max_cap c) mn;
  Ok (mk_ctx (rev l) size (dtable_sum c) (hard_max c) (max_cap c) (max_blocked c) (next_absidx c) (bad c)).
(* lib/nghttp3_qpack.c:1230-1262 nghttp3_qpack_encoder_process_dtable_update: the new
   encoder and the bytes appended to ebuf *)
Definition process_update (e : enc) : outcome (enc * list Z) :=
  do c <- shrink (enc_ctx e) (gmin e);
  if (max_cap c <? dtable_size c) || negb (enc_pending e) then Ok (en_set_ctx e c, [])
  else
    do b1 <- (if enc_minupd e <? enc_lastupd e then write_set_cap (enc_minupd e) else Ok []);
    do b2 <- write_set_cap (enc_lastupd e);
    Ok (en_set_upd e (ctx_set_cap c (enc_lastupd e)) false size_max (enc_lastupd e), b1 ++ b2).

(* lib/nghttp3_qpack.c:1276-1279 nghttp3_qpack_encoder_stream_is_blocked *)
Definition is_blocked (e : enc) (r : option (list (Z * Z))) : bool :=
  match r with None => false | Some r => enc_krcnt e <? max_of r end.
Definition key_eqb (a b : Z * Z) : bool := (fst a =? fst b) && (snd a =? snd b).
Definition has_key (b : list (Z * Z)) (k : Z * Z) : bool := existsb (key_eqb k) b.
(* lib/nghttp3_qpack.c:2275-2285 block_stream (a duplicate key is an error of
   nghttp3_ksl_insert), 2287-2304 unblock_stream (asserts that the key is present),
   2306-2320 unblock: removes every key with max_cnt at most the argument *)
Definition block_stream (b : list (Z * Z)) (k : Z * Z) : outcome (list (Z * Z)) :=
  if has_key b k then Err ERR_INVALID_ARGUMENT else Ok (k :: b).
Definition unblock_stream (b : list (Z * Z)) (k : Z * Z) : outcome (list (Z * Z)) :=
  if has_key b k then Ok (filter (fun x => negb (key_eqb k x)) b) else Abort.
Definition unblock (b : list (Z * Z)) (m : Z) : list (Z * Z) := filter (fun x => fst x >? m) b.

(* lib/nghttp3_qpack.c:1017-1068 qpack_encoder_add_stream_ref *)
Definition add_stream_ref (e : enc) (id mx mn : Z) : outcome enc :=
  let old := find_stream (enc_streams e) id in
  let refs := match old with None => [] | Some r => r end in
  let prev := max_of refs in
  do b <- (if is_blocked e old && (mx >? prev) then unblock_stream (enc_blocked e) (prev, id)
           else Ok (enc_blocked e));
  let refs' := refs ++ [(mx, mn)] in
  do b <- (if (mx >? prev) && (enc_krcnt e <? max_of refs') then block_stream b (max_of refs', id) else Ok b);
  Ok (en_set_str e (put_stream (enc_streams e) id refs') b).

(* lib/nghttp3_qpack.c:1132-1195 nghttp3_qpack_encoder_encode; result: the section (pbuf and
   rbuf), the bytes for the encoder stream and, for the statements only, the Required
   Insert Count of the section *)
Definition encode_body (e : enc) (id : Z) (l : list nv) : outcome (enc * (list Z * list Z * Z)) :=
  do (e, eb0) <- process_update e;
  let base := next_absidx (enc_ctx e) in
  let allow := is_blocked e (find_stream (enc_streams e) id)
               || (max_blocked (enc_ctx e) >? zlen (enc_blocked e)) in
  do a <- encode_nvs (enc_krcnt e) (gmin e) (zlen (enc_streams e)) base allow
                     (mk_acc (enc_ctx e) 0 u64_max [] eb0) l;
  do pb <- write_prefix (hard_max (enc_ctx e)) (a_max a) base;
  let e := en_set_unint (en_set_ctx e (a_ctx a)) 0 in
  if a_max a =? 0 then Ok (e, (pb ++ a_rb a, a_eb a, 0))
  else do e <- add_stream_ref e id (a_max a) (a_min a);
       Ok (e, (pb ++ a_rb a, a_eb a, a_max a)).
Definition encode (e : enc) (id : Z) (l : list nv) : enc * outcome (list Z * list Z * Z) :=
  if (id <? 0) || (id >? max_varint) then (e, Abort)
  else if bad (enc_ctx e) then (e, Err ERR_QPACK_FATAL)
  else match encode_body e id l with
       | Ok (e', r) => (e', Ok r)
       | Err x => (en_set_ctx e (ctx_bad (enc_ctx e)), Err x)
       | Abort => (e, Abort)
       end.

(* lib/nghttp3_qpack.c:2322-2362 nghttp3_qpack_encoder_ack_header *)
Definition ack_header (e : enc) (id : Z) : outcome enc :=
  match find_stream (enc_streams e) id with
  | None => Err ERR_QPACK_DECODER_STREAM_ERROR
  | Some [] => Abort
  | Some ((mx, mn) :: refs) =>
    let e := if enc_krcnt e <? mx then en_set_krcnt e mx (unblock (enc_blocked e) mx) else e in
    Ok (en_set_str e (match refs with
                      | [] => remove_stream (enc_streams e) id
                      | _ => put_stream (enc_streams e) id refs
                      end) (enc_blocked e))
  end.
(* lib/nghttp3_qpack.c:2364-2373 nghttp3_qpack_encoder_add_icnt *)
Definition add_icnt (e : enc) (n : Z) : outcome enc :=
  if (n =? 0) || (next_absidx (enc_ctx e) - enc_krcnt e <? n) then Err ERR_QPACK_DECODER_STREAM_ERROR
  else Ok (en_set_krcnt e (enc_krcnt e + n) (unblock (enc_blocked e) (enc_krcnt e + n))).
(* lib/nghttp3_qpack.c:2375-2383 nghttp3_qpack_encoder_ack_everything *)
Definition ack_everything (e : enc) : enc :=
  en_set_str (en_set_krcnt e (next_absidx (enc_ctx e)) []) [] [].
(* lib/nghttp3_qpack.c:2385-2402 nghttp3_qpack_encoder_cancel_stream *)
Definition enc_cancel (e : enc) (id : Z) : outcome enc :=
  match find_stream (enc_streams e) id with
  | None => Ok e
  | Some r =>
    do b <- (if is_blocked e (Some r) then unblock_stream (enc_blocked e) (max_of r, id) else Ok (enc_blocked e));
    Ok (en_set_str e (remove_stream (enc_streams e) id) b)
  end.

(* ---------------- decoder stream ---------------- *)
(* "goto fail": as for the decoder the reader's state is reset, it is not looked at again *)
Definition en_fail (e : enc) : enc := en_set_rd (en_set_ctx e (ctx_bad (enc_ctx e))) false DsInc 0 0 0.
(* an instruction carried out *)
Definition apply_ds (e : enc) (op : ds_op) (n : Z) : outcome enc :=
  match op with
  | DsInc => add_icnt e n
  | DsAck => ack_header e n
  | DsCancel => enc_cancel e n
  end.
(* one turn of the loop of nghttp3_qpack_encoder_read_decoder, lib/nghttp3_qpack.c:2547-2609;
   events: the instructions carried out *)
Definition ds_step (e : enc) (p : list Z) : sres enc (ds_op * Z) :=
  match p with
  | [] => SAbort
  | b :: _ =>
    let e := if enc_reading e then e
             else let k := Z.land b 192 in
                  if (k =? 128) || (k =? 192) then en_set_rd e true DsAck (enc_left e) (enc_shift e) 7
                  else if k =? 64 then en_set_rd e true DsCancel (enc_left e) (enc_shift e) 6
                  else en_set_rd e true DsInc (enc_left e) (enc_shift e) 6 in
    match q_read_varint (enc_prefix e) (enc_left e) (enc_shift e) p with
    | Abort => SAbort
    | Err _ => SErr ERR_QPACK_DECODER_STREAM_ERROR (en_fail e) []
    | Ok (l, s, rest, false) => SMore (en_set_rd e true (enc_op e) l s (enc_prefix e)) []
    | Ok (l, s, rest, true) =>
      match apply_ds e (enc_op e) l with
      | Ok e' => SGo (en_set_rd e' false DsInc 0 0 0) rest false [(enc_op e, l)]
      | Err x => SErr x (en_fail e) []
      | Abort => SAbort
      end
    end
  end.
Definition ds_rank (e : enc) : nat := 0.
Definition ds_run (e : enc) (p : list Z) : rres enc (ds_op * Z) := run ds_step 1 ds_rank e p false.
(* lib/nghttp3_qpack.c:2525-2616 nghttp3_qpack_encoder_read_decoder: new encoder, result,
   and (for the statements only) the instructions carried out *)
Definition read_decoder (e : enc) (src : list Z) : enc * outcome Z * list (ds_op * Z) :=
  if bad (enc_ctx e) then (e, Err ERR_QPACK_FATAL, [])
  else match src with
  | [] => (e, Ok 0, [])
  | _ =>
    let e := en_set_unint e (enc_unint e + zlen src) in
    if enc_unint e >? MAX_DECODERLEN then (e, Err ERR_QPACK_DECODER_STREAM_ERROR, [])
    else match ds_run e src with
         | ROk e' evs => (e', Ok (zlen src), evs)
         | RErr x e' evs => (e', Err x, evs)
         | _ => (e, Abort, [])
         end
  end.

(* ---------------- histories ---------------- *)
(* every operation of the public API (lib/includes/nghttp3/nghttp3.h:1120-1228) *)
Inductive eop :=
| EEncode (id : Z) (l : list nv)   (* nghttp3_qpack_encoder_encode *)
| ESetCap (n : Z)                  (* nghttp3_qpack_encoder_set_max_dtable_capacity *)
| ESetBlocked (n : Z)              (* nghttp3_qpack_encoder_set_max_blocked_streams *)
| EFeed (src : list Z)             (* nghttp3_qpack_encoder_read_decoder *)
| EAckAll.                         (* nghttp3_qpack_encoder_ack_everything *)
Inductive eres :=
| ErErr (e : Z) (evs : list (ds_op * Z))  (* a negative return value *)
| ErDone
| ErSection (sec eb : list Z) (ric : Z)   (* section, encoder stream bytes, Required Insert Count *)
| ErFed (evs : list (ds_op * Z))          (* instructions read from the decoder stream *)
| ErAcked (n : Z).                        (* everything acknowledged; n entries inserted so far *)
(* None: a failed assertion or an access outside a table *)
Definition estep (e : enc) (o : eop) : option (enc * eres) :=
  match o with
  | EEncode id l => match encode e id l with
                    | (e', Ok (sec, eb, ric)) => Some (e', ErSection sec eb ric)
                    | (e', Err x) => Some (e', ErErr x [])
                    | (_, Abort) => None
                    end
  | ESetCap n => Some (enc_set_cap e n, ErDone)
  | ESetBlocked n => Some (enc_set_blocked e n, ErDone)
  | EFeed src => match read_decoder e src with
                 | (e', Ok _, evs) => Some (e', ErFed evs)
                 | (e', Err x, evs) => Some (e', ErErr x evs)
                 | (_, Abort, _) => None
                 end
  | EAckAll => Some (ack_everything e, ErAcked (next_absidx (enc_ctx e)))
  end.
Fixpoint erun (e : enc) (ops : list eop) : option (enc * list (eop * eres)) :=
  match ops with
  | [] => Some (e, [])
  | o :: ops' =>
    match estep e o with
    | None => None
    | Some (e1, r) => match erun e1 ops' with
                      | None => None
                      | Some (e2, tr) => Some (e2, (o, r) :: tr)
                      end
    end
  end.

(* the decoder stream delivered in pieces; reading stops at the first error *)
Fixpoint feed_decoder (e : enc) (ps : list (list Z)) : enc * outcome Z * list (ds_op * Z) :=
  match ps with
  | [] => (e, Ok 0, [])
  | p :: ps' => match read_decoder e p with
                | (e', Ok n, evs) => let '(e2, r, evs2) := feed_decoder e' ps' in
                    (e2, match r with Ok m => Ok (n + m) | _ => r end, evs ++ evs2)
                | r => r
                end
  end.
