(* Model of lib/nghttp3_qpack_huffman.c with the tables of
   lib/nghttp3_qpack_huffman_data.c (Tables.v). *)
From Verif Require Import Base Tables.

(* huffman_sym_table[b]; indices are bytes, the table has 257 rows *)
Definition sym_nbits (s : Z) : Z := fst (nth (Z.to_nat s) huffman_sym_table (0, 0)).
Definition sym_code (s : Z) : Z := snd (nth (Z.to_nat s) huffman_sym_table (0, 0)).

(* lib/nghttp3_qpack_huffman.c:34-43 nghttp3_qpack_huffman_encode_count *)
Definition huff_encode_count (src : list Z) : Z :=
  (fold_left (fun n b => n + sym_nbits b) src 0 + 7) / 8.

(* lib/nghttp3_qpack_huffman.c:45-79 nghttp3_qpack_huffman_encode.
   First loop: [code] is the uint64_t accumulator, [nbits] the number of valid top
   bits; the bytes appended to dest are returned in order. *)
Fixpoint huff_enc_loop (src : list Z) (code nbits : Z) : list Z * Z * Z :=
  match src with
  | [] => ([], code, nbits)
  | b :: t =>
    let code := Z.lor code (Z.shiftl (sym_code b) (32 - nbits) mod 2 ^ 64) in
    let nbits := nbits + sym_nbits b in
    if nbits <? 32 then huff_enc_loop t code nbits
    else
      let out := be_bytes 4 (Z.shiftr code 32 mod 2 ^ 32) in
      let '(o, c, n) := huff_enc_loop t (Z.shiftl code 32 mod 2 ^ 64) (nbits - 32) in
      (out ++ o, c, n)
  end.
(* second loop: at most 4 whole bytes remain (nbits < 32) *)
Fixpoint huff_enc_flush (fuel : nat) (code nbits : Z) : list Z * Z * Z :=
  match fuel with
  | O => ([], code, nbits)
  | S f => if nbits >=? 8 then
             let '(o, c, n) := huff_enc_flush f (Z.shiftl code 8 mod 2 ^ 64) (nbits - 8) in
             (Z.shiftr code 56 mod 256 :: o, c, n)
           else ([], code, nbits)
  end.
Definition huff_encode (src : list Z) : list Z :=
  let '(o1, c, n) := huff_enc_loop src 0 0 in
  let '(o2, c, n) := huff_enc_flush 8 c n in
  o1 ++ o2 ++ (if n =? 0 then [] else [Z.lor (Z.shiftr c 56 mod 256) (2 ^ (8 - n) - 1) mod 256]).

Definition HUFF_ACCEPTED := 16384. (* 1 << 14 *)
Definition HUFF_SYM := 32768.      (* 1 << 15 *)
(* lib/nghttp3_qpack_huffman.c:81-84 nghttp3_qpack_huffman_decode_context_init *)
Definition huff_init : Z := HUFF_ACCEPTED.

(* one table access, qpack_huffman_decode_table[fstate & 0x1ff][nibble]: new fstate
   and the bytes emitted; None is an access outside the table *)
Definition huff_step (fs nib : Z) : option (Z * list Z) :=
  match nth_error huffman_decode_table (Z.to_nat (Z.land fs 511)) with
  | None => None
  | Some row =>
    match nth_error row (Z.to_nat nib) with
    | None => None
    | Some (fs', sym) => Some (fs', if Z.land fs' HUFF_SYM =? 0 then [] else [sym])
    end
  end.

(* lib/nghttp3_qpack_huffman.c:86-121 nghttp3_qpack_huffman_decode *)
Fixpoint huff_loop (fs : Z) (src : list Z) : option (Z * list Z) :=
  match src with
  | [] => Some (fs, [])
  | c :: t =>
    match huff_step fs (Z.shiftr c 4) with
    | None => None
    | Some (f1, o1) =>
      match huff_step f1 (Z.land c 15) with
      | None => None
      | Some (f2, o2) =>
        match huff_loop f2 t with
        | None => None
        | Some (f3, o3) => Some (f3, o1 ++ o2 ++ o3)
        end
      end
    end
  end.
Definition huff_decode (fs : Z) (src : list Z) (fin : bool) : outcome (Z * list Z) :=
  match huff_loop fs src with
  | None => Abort
  | Some (fs', out) => if fin && (Z.land fs' HUFF_ACCEPTED =? 0) then Err ERR_QPACK_FATAL
                       else Ok (fs', out)
  end.
(* lib/nghttp3_qpack_huffman.c:123-126 nghttp3_qpack_huffman_decode_failure_state *)
Definition huff_failure (fs : Z) : bool := fs =? 256.

(* lib/nghttp3_qpack.c:2704-2738 qpack_read_huffman_string: [left] and [fs] are
   rstate->left and rstate->huffman_ctx; returns the new ones, the bytes written to
   dest and the unread input. *)
Definition read_huffman_string (left fs : Z) (p : list Z) : outcome (Z * Z * list Z * list Z) :=
  let fin := zlen p >=? left in
  let len := if fin then left else zlen p in
  match huff_decode fs (firstn (Z.to_nat len) p) fin with
  | Ok (fs', out) => if huff_failure fs' then Err ERR_QPACK_FATAL
                     else Ok (left - len, fs', out, skipn (Z.to_nat len) p)
  | Err e => Err e
  | Abort => Abort
  end.

(* Driver: the callers' loop (states READ_*_HUFFMAN of lib/nghttp3_qpack.c:2945-2972,
   3050-3086): feed pieces until [left] bytes have been read. *)
Fixpoint feed_huffman_string (left fs : Z) (acc : list Z) (ps : list (list Z))
  : outcome (option (list Z * list Z)) :=
  match ps with
  | [] => Ok None
  | p :: ps' =>
    match read_huffman_string left fs p with
    | Ok (left', fs', out, rest) =>
      if left' =? 0 then Ok (Some (acc ++ out, rest ++ concat ps'))
      else feed_huffman_string left' fs' (acc ++ out) ps'
    | Err e => Err e
    | Abort => Abort
    end
  end.
