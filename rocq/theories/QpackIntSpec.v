(* RFC 7541 section 5.1 / RFC 9204 section 4.1.1 prefix integers. *)
From Verif Require Import Base.

(* little-endian groups of 7 bits; the top bit says that another group follows *)
Fixpoint rfc_int_cont (l : list Z) : option (Z * list Z) :=
  match l with
  | [] => None
  | b :: t => if b <? 128 then Some (b, t)
              else match rfc_int_cont t with
                   | Some (v, r) => Some (b - 128 + 128 * v, r)
                   | None => None
                   end
  end.

(* integer with an N-bit prefix: value and remaining bytes; None if incomplete *)
Definition rfc_int (N : Z) (l : list Z) : option (Z * list Z) :=
  match l with
  | [] => None
  | b :: t => let i := b mod 2 ^ N in
    if i <? 2 ^ N - 1 then Some (i, t)
    else match rfc_int_cont t with
         | Some (v, r) => Some (2 ^ N - 1 + v, r)
         | None => None
         end
  end.
