(* C04 (prefix integers), C05-C07 (Huffman coding). *)
From Verif Require Import Base QpackIntModel QpackIntSpec QpackIntProofs Tables HuffModel HuffSpec HuffProofs.

(* C04: writer.  The flag bits of the first byte (above the N-bit prefix) are kept. *)
Theorem C04_prefix_int_write : forall N first n, 3 <= N <= 8 -> is_byte first -> 0 <= n < 2 ^ 62 ->
  let l := q_put_varint first n N in
  bytes l /\ zlen l = q_put_varint_len n N /\
  (exists b t, l = b :: t /\ b / 2 ^ N = first / 2 ^ N) /\
  (forall rest, rfc_int N (l ++ rest) = Some (n, rest)) /\
  (forall rest, bytes rest -> exists s, q_read_varint N 0 0 (l ++ rest) = Ok (n, s, rest, true)).
Proof. exact q_put_varint_full. Qed.
Print Assumptions C04_prefix_int_write.
Example C04_write_ex : q_put_varint 192 1337 5 = [223; 154; 10] /\ q_put_varint_len 1337 5 = 3.
Proof. vm_compute; auto. Qed.

(* C04: reader, for every byte string and every cut.  A returned value is the RFC
   value (never reduced modulo 2^64) and below 2^62; it waits exactly when the
   integer is incomplete and not yet too large; a rejected complete integer is
   2^62 or more, or spelled with more than ten bytes. *)
Theorem C04_prefix_int_read : forall N pieces, 1 <= N <= 8 -> bytes (concat pieces) ->
  pieces <> [] -> Forall (fun p => p <> []) pieces ->
  match feed_qint N 0 0 pieces with
  | Ok (Some (v, rest)) => rfc_int N (concat pieces) = Some (v, rest) /\ 0 <= v < 2 ^ 62
  | Ok None => rfc_int N (concat pieces) = None
  | Err e => e = ERR_QPACK_FATAL /\
      (forall v rest, rfc_int N (concat pieces) = Some (v, rest) ->
         2 ^ 62 <= v \/ 10 < zlen (concat pieces) - zlen rest)
  | Abort => False
  end.
Proof. intros N ps. exact (feed_qint_full N ps). Qed.
Print Assumptions C04_prefix_int_read.
Example C04_read_ex :
  feed_qint 5 0 0 [[31]; [154; 138]; [0; 77]] = Ok (Some (1337, [77])) /\
  feed_qint 5 0 0 [[31; 255; 255; 255; 255; 255; 255; 255; 255; 127]] = Err ERR_QPACK_FATAL.
Proof. vm_compute; auto. Qed.

(* C05 *)
Theorem C05_huffman_roundtrip : forall s, bytes s ->
  exists fs, huff_decode huff_init (huff_encode s) true = Ok (fs, s) /\ fs <> 256.
Proof. exact huff_roundtrip. Qed.
Print Assumptions C05_huffman_roundtrip.
Theorem C05_huffman_length : forall s, bytes s -> zlen (huff_encode s) = huff_encode_count s.
Proof. exact huff_encode_count_ok. Qed.
Print Assumptions C05_huffman_length.
(* the encoder's output is the representation RFC 7541 prescribes *)
Theorem C05_huffman_encode_rfc : forall s, bytes s -> huff_represents (huff_encode s) s.
Proof. exact huff_encode_represents. Qed.
Print Assumptions C05_huffman_encode_rfc.
(* RFC 7541 C.4.1: "www.example.com" *)
Example C05_ex : huff_encode [119;119;119;46;101;120;97;109;112;108;101;46;99;111;109]
  = [0xf1; 0xe3; 0xc2; 0xe5; 0xf2; 0x3a; 0x6b; 0xa0; 0xab; 0x90; 0xf4; 0xff].
Proof. vm_compute; reflexivity. Qed.

(* C06: a string is accepted, with result [dst], exactly when it represents [dst]. *)
Theorem C06_huffman_accepts : forall src dst, bytes src ->
  ((exists fs, huff_decode huff_init src true = Ok (fs, dst)) <-> huff_represents src dst).
Proof. exact huff_decode_iff. Qed.
Print Assumptions C06_huffman_accepts.
(* EOS (30 one bits) and 8 bits of padding are rejected, zero padding too *)
Example C06_ex :
  huff_decode huff_init [255; 255; 255; 255] true = Err ERR_QPACK_FATAL /\
  huff_decode huff_init [31; 255] true = Err ERR_QPACK_FATAL /\
  huff_decode huff_init [24] true = Err ERR_QPACK_FATAL /\
  (exists fs, huff_decode huff_init [31] true = Ok (fs, [97])).
Proof. vm_compute; repeat split; try reflexivity. eexists; reflexivity. Qed.

(* C07: for every cut, the string reader returns what the n bytes represent, leaves
   the rest unread, writes at most 2n bytes, and otherwise fails; it never leaves
   its tables. *)
Theorem C07_huffman_cuts : forall pieces n, bytes (concat pieces) -> pieces <> [] ->
  0 <= n <= zlen (concat pieces) ->
  match feed_huffman_string n huff_init [] pieces with
  | Ok (Some (dst, rest)) =>
      huff_represents (firstn (Z.to_nat n) (concat pieces)) dst /\
      rest = skipn (Z.to_nat n) (concat pieces) /\ zlen dst <= 2 * n
  | Err e => e = ERR_QPACK_FATAL /\
      forall dst, ~ huff_represents (firstn (Z.to_nat n) (concat pieces)) dst
  | _ => False
  end.
Proof. exact feed_huffman_full. Qed.
Print Assumptions C07_huffman_cuts.
(* bound on what is written, also for a prefix of the string (buffer of 2n+1 bytes) *)
Theorem C07_huffman_output_bound : forall src, bytes src ->
  exists fs out, huff_loop huff_init src = Some (fs, out) /\ zlen out <= 2 * zlen src.
Proof. exact huff_loop_bound. Qed.
Print Assumptions C07_huffman_output_bound.
Example C07_ex : feed_huffman_string 3 huff_init [] [[0xf1]; [0xe3]; [0xc7; 9]]
  = Ok (Some ([119;119;119], [9])).
Proof. vm_compute; reflexivity. Qed.
