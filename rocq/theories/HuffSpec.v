(* RFC 7541 section 5.2 and Appendix B: Huffman-coded strings, on bits. *)
From Verif Require Import Base.

(* the k low bits of n, most significant first *)
Fixpoint bits_of (k : nat) (n : Z) : list bool :=
  match k with
  | O => []
  | S k' => Z.testbit n (Z.of_nat k') :: bits_of k' n
  end.
(* bits of a byte string *)
Definition bits_of_bytes (l : list Z) : list bool := flat_map (bits_of 8) l.

(* Code lengths of RFC 7541 Appendix B for the symbols 0..255 and EOS = 256.  The code
   of Appendix B is the canonical code for these lengths: codes are consecutive
   numbers, ordered by length and then by symbol. *)
Definition rfc_code_lengths : list Z :=
  [13;23;28;28;28;28;28;28;28;24;30;28;28;30;28;28;28;28;28;28;28;28;30;28;28;28;28;28;28;28;28;28;
   6;10;10;12;13;6;8;11;10;10;8;11;8;6;6;6;5;5;5;6;6;6;6;6;6;6;7;8;15;6;12;10;
   13;6;7;7;7;7;7;7;7;7;7;7;7;7;7;7;7;7;7;7;7;7;7;7;8;7;8;13;19;13;14;6;
   15;5;6;5;6;5;6;6;6;5;7;7;6;6;6;5;6;7;6;5;5;6;7;7;7;7;7;15;11;14;13;28;
   20;22;20;20;22;22;22;23;22;23;23;23;23;23;24;23;24;24;22;23;24;23;23;23;23;21;22;23;22;23;23;24;
   22;21;20;22;22;23;23;21;23;22;22;24;21;22;23;23;21;21;22;21;23;22;23;23;20;22;22;22;23;22;22;23;
   26;26;20;19;22;23;22;25;26;26;26;27;27;26;24;25;19;21;26;27;27;26;27;24;21;21;26;26;28;27;27;27;
   20;24;20;21;22;21;21;23;22;22;25;25;24;24;26;23;26;27;26;26;27;27;27;27;27;28;27;27;27;27;27;26;
   30].

(* number of symbols with a shorter code or an equally long code and a smaller number *)
Definition canon_rank (lens : list Z) (s len : Z) : Z :=
  fold_left (fun a p => let '(i, l) := p in
     if (l <? len) || ((l =? len) && (i <? s)) then a + 2 ^ (30 - l) else a)
    (combine (map Z.of_nat (seq 0 (length lens))) lens) 0.
(* canonical code: the sum of the widths of all previous codes, cut to [len] bits *)
Definition canon_code (lens : list Z) (s : Z) : list bool :=
  let len := nth (Z.to_nat s) lens 0 in
  bits_of (Z.to_nat len) (canon_rank lens s len / 2 ^ (30 - len)).
Definition rfc_huff_code (s : Z) : list bool := canon_code rfc_code_lengths s.

(* [dst] is the string represented by the Huffman-coded octets [src]: the codes of its
   bytes followed by fewer than 8 one bits (a prefix of EOS). *)
Definition huff_represents (src dst : list Z) : Prop :=
  bytes dst /\ exists pad, bits_of_bytes src = flat_map rfc_huff_code dst ++ pad /\
    (length pad <= 7)%nat /\ Forall (fun b => b = true) pad.
