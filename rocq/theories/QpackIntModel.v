(* Model of the QPACK prefix-integer coder, lib/nghttp3_qpack.c. *)
From Verif Require Import Base.

Definition INT_MAX : Z := 4611686018427387903. (* lib/nghttp3_qpack.h:43 (1ull << 62) - 1 *)
Definition u64 (n : Z) : Z := n mod 2 ^ 64.    (* uint64_t arithmetic *)

(* lib/nghttp3_qpack.c:2487-2512, the loop of qpack_read_varint.  Instead of a
   byte count the model returns the input not yet consumed.
   Result: (left, shift, rest, fin). *)
Fixpoint q_loop (n shift : Z) (p : list Z) : outcome (Z * Z * list Z * bool) :=
  match p with
  | [] => Ok (n, shift, [], false)
  | b :: t =>
    let add := Z.land b 127 in
    if shift >? 62 then Err ERR_QPACK_FATAL
    else if Z.shiftr INT_MAX shift <? add then Err ERR_QPACK_FATAL
    else let add := u64 (Z.shiftl add shift) in
      if u64 (INT_MAX - add) <? n then Err ERR_QPACK_FATAL
      else let n := u64 (n + add) in
        if Z.land b 128 =? 0 then Ok (n, shift, t, true)
        else q_loop n (shift + 7) t
  end.

(* lib/nghttp3_qpack.c:2461-2523 qpack_read_varint; [left], [shift], [prefix] are the
   fields of rstate.  Dereferencing an empty buffer is Abort. *)
Definition q_read_varint (prefix left shift : Z) (p : list Z) : outcome (Z * Z * list Z * bool) :=
  let k := (2 ^ prefix - 1) mod 256 in
  if left =? 0 then
    match p with
    | [] => Abort
    | b :: t =>
      if negb (Z.land b k =? k) then Ok (Z.land b k, 0, t, true)
      else match t with
           | [] => Ok (k, 0, [], false)
           | _ => q_loop k shift t
           end
    end
  else q_loop left shift p.

(* lib/nghttp3_qpack.c:2618-2632 nghttp3_qpack_put_varint_len; the for loop runs at
   most 10 times for a 64-bit integer. *)
Fixpoint q_put_len_loop (fuel : nat) (n len : Z) : Z :=
  match fuel with
  | O => len
  | S f => if n >=? 128 then q_put_len_loop f (Z.shiftr n 7) (len + 1) else len
  end.
Definition q_put_varint_len (n prefix : Z) : Z :=
  let k := 2 ^ prefix - 1 in
  if n <? k then 1 else q_put_len_loop 10 (n - k) 1 + 1.

(* lib/nghttp3_qpack.c:2634-2656 nghttp3_qpack_put_varint; [first] is the byte already
   at *buf (it carries the instruction's flag bits). *)
Fixpoint q_put_loop (fuel : nat) (n : Z) : list Z :=
  match fuel with
  | O => [n mod 256]
  | S f => if n >=? 128 then Z.lor 128 (Z.land n 127) :: q_put_loop f (Z.shiftr n 7)
           else [n mod 256]
  end.
Definition q_put_varint (first n prefix : Z) : list Z :=
  let k := 2 ^ prefix - 1 in
  let b := Z.land first (255 - k) in   (* *buf & ~k, in a uint8_t *)
  if n <? k then [Z.lor b n mod 256]
  else (Z.lor b k mod 256) :: q_put_loop 10 (n - k).

(* Driver: feed pieces until the integer is complete (callers' loops, e.g.
   lib/nghttp3_qpack.c:2860-2872); result: value and unread input. *)
Fixpoint feed_qint (prefix left shift : Z) (ps : list (list Z)) : outcome (option (Z * list Z)) :=
  match ps with
  | [] => Ok None
  | p :: ps' =>
    match q_read_varint prefix left shift p with
    | Ok (v, s, rest, true) => Ok (Some (v, rest ++ concat ps'))
    | Ok (v, s, rest, false) => feed_qint prefix v s ps'
    | Err e => Err e
    | Abort => Abort
    end
  end.
