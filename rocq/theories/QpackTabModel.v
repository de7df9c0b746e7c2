(* Tables of lib/nghttp3_qpack.c: name tokens, static table, dynamic table. *)
From Verif Require Import Base Tables.

Definition beqb (a b : list Z) : bool := if list_eq_dec Z.eq_dec a b then true else false.

(* nghttp3_nv, lib/includes/nghttp3/nghttp3.h (flags: bit 0 never-index, bit 3 try-index) *)
Record nv := mk_nv { nv_name : list Z; nv_value : list Z; nv_flags : Z }.
Definition FLAG_NEVER_INDEX : Z := 1.
Definition FLAG_TRY_INDEX : Z := 8.
Definition has_flag (f bit : Z) : bool := negb (Z.land f bit =? 0).

(* nghttp3_qpack_nv *)
Record qnv := mk_qnv { q_name : list Z; q_value : list Z; q_token : Z; q_flags : Z }.

(* lib/nghttp3_qpack.c:342-735 qpack_lookup_token; the nested switch is flattened
   (Tables.v).  name[idx] is read only when namelen matched the case label. *)
Fixpoint lookup_cases (cs : list (Z * Z * Z * Z * list Z * Z)) (name : list Z) : Z :=
  match cs with
  | [] => -1
  | (len, idx, c, mlen, lit, tok) :: cs' =>
    if (zlen name =? len) && (nth (Z.to_nat idx) name (-1) =? c)
         && beqb (firstn (Z.to_nat mlen) name) lit
    then tok else lookup_cases cs' name
  end.
Definition lookup_token (name : list Z) : Z := lookup_cases lookup_token_cases name.

(* stable[i]; None is an access outside the array of 99 rows *)
Definition stable_get (i : Z) : option (list Z * list Z * Z) :=
  if i <? 0 then None else nth_error stable (Z.to_nat i).
Definition stable_len : Z := zlen stable.
(* token_stable[i] *)
Definition token_stable_get (i : Z) : option (Z * Z * Z) :=
  if i <? 0 then None else nth_error token_stable (Z.to_nat i).

Inductive imode := MLiteral | MStore | MNever.  (* lib/nghttp3_qpack.h:62-74 *)
Definition is_never (m : imode) : bool := match m with MNever => true | _ => false end.
Definition is_store (m : imode) : bool := match m with MStore => true | _ => false end.

(* lib/nghttp3_qpack.c:1610-1643 nghttp3_qpack_lookup_stable: (index, exact match).
   The loop over token_stable from row [token] while the token stays the same. *)
Fixpoint lookup_stable_loop (rows : list (Z * Z * Z)) (token : Z) (value : list Z) : outcome (option Z) :=
  match rows with
  | [] => Ok None
  | (absidx, tok, _) :: rows' =>
    if tok =? token then
      match stable_get absidx with
      | None => Abort
      | Some (_, v, _) => if beqb v value then Ok (Some absidx)
                          else lookup_stable_loop rows' token value
      end
    else Ok None
  end.
Definition lookup_stable (token : Z) (value : list Z) (never : bool) : outcome (Z * bool) :=
  match token_stable_get token with
  | None => Abort
  | Some (absidx, _, _) =>
    if never then Ok (absidx, false)
    else match lookup_stable_loop (skipn (Z.to_nat token) token_stable) token value with
         | Ok (Some i) => Ok (i, true)
         | Ok None => Ok (absidx, false)
         | Err e => Err e
         | Abort => Abort
         end
  end.

(* nghttp3_qpack_entry, lib/nghttp3_qpack.h:79-92; the name, value and token are those
   of ent->nv (its flags are always NONE); map_next: see QpackEncModel.v *)
Record entry := mk_ent { e_name : list Z; e_value : list Z; e_token : Z;
                         e_sum : Z; e_abs : Z; e_hash : Z }.

(* nghttp3_qpack_context, lib/nghttp3_qpack.h:155-180.  dtable: head is ringbuf index 0
   (the newest entry).  next_absidx and dtable_sum are unbounded integers in the model
   (uint64_t / size_t in C: 2^64 insertions or bytes are out of reach). *)
Record ctx := mk_ctx { dtable : list entry; dtable_size : Z; dtable_sum : Z;
                       hard_max : Z; max_cap : Z; max_blocked : Z;
                       next_absidx : Z; bad : bool }.
(* lib/nghttp3_qpack.c:850-866 qpack_context_init *)
Definition ctx_init (hard blocked : Z) : ctx := mk_ctx [] 0 0 hard 0 blocked 0 false.
Definition ctx_bad (c : ctx) : ctx :=
  mk_ctx (dtable c) (dtable_size c) (dtable_sum c) (hard_max c) (max_cap c) (max_blocked c)
         (next_absidx c) true.

(* lib/nghttp3_qpack.c:737-739 table_space *)
Definition table_space (namelen valuelen : Z) : Z := 32 + namelen + valuelen.
Definition ent_space (e : entry) : Z := table_space (zlen (e_name e)) (zlen (e_value e)).

(* lib/nghttp3_qpack.c:2240-2250 nghttp3_qpack_context_dtable_get: None is a failed assertion *)
Definition dtable_get (c : ctx) (absidx : Z) : option entry :=
  if (next_absidx c >? absidx) && (next_absidx c - absidx - 1 <? zlen (dtable c))
  then nth_error (dtable c) (Z.to_nat (next_absidx c - absidx - 1))
  else None.

(* The eviction loops of lib/nghttp3_qpack.c:2069-2085 (dtable_add) and 3132-3144
   (decoder set_max_dtable_capacity): pop entries from the back until [size + space]
   fits in [cap]; asserts that the table is not empty.  [l] is the table reversed
   (oldest first); the result is oldest first too. *)
Fixpoint evict_loop (l : list entry) (size space cap : Z) : outcome (list entry * Z) :=
  if size + space >? cap then
    match l with
    | [] => Abort
    | e :: l' => evict_loop l' (size - ent_space e) space cap
    end
  else Ok (l, size).

(* lib/nghttp3_qpack.c:2052-2124 nghttp3_qpack_context_dtable_add (no allocation
   failure); the hash map of the encoder is derived from dtable, see QpackEncModel.v *)
Definition dtable_add (c : ctx) (name value : list Z) (token hash : Z) : outcome ctx :=
  let space := table_space (zlen name) (zlen value) in
  if space >? max_cap c then Abort
  else match evict_loop (rev (dtable c)) (dtable_size c) space (max_cap c) with
       | Ok (l, size) =>
         let e := mk_ent name value token (dtable_sum c) (next_absidx c) hash in
         Ok (mk_ctx (e :: rev l) (size + space) (dtable_sum c + space) (hard_max c) (max_cap c)
                    (max_blocked c) (next_absidx c + 1) (bad c))
       | Err e => Err e
       | Abort => Abort
       end.
