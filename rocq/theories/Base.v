(* Shared conventions of the model: bytes, outcomes, constants, small list tools. *)
From Coq Require Export ZArith List Bool Lia ZifyBool.
Export ListNotations.
#[global] Open Scope Z_scope.

(* A byte is an integer 0..255 (uint8_t). *)
Definition is_byte (b : Z) : Prop := 0 <= b < 256.
Definition bytes (l : list Z) : Prop := Forall is_byte l.
Definition is_byteb (b : Z) : bool := (0 <=? b) && (b <? 256).

(* Length of a list as an integer (size_t). *)
Definition zlen {A} (l : list A) : Z := Z.of_nat (length l).

(* Result of a C function: normal return, negative error code, or a failed
   assertion / nghttp3_unreachable() / out-of-bounds access. *)
Inductive outcome (A : Type) : Type :=
| Ok (a : A)
| Err (e : Z)
| Abort.
Arguments Ok {A} a.
Arguments Err {A} e.
Arguments Abort {A}.

(* Take n elements if available. *)
Fixpoint take_exact {A} (n : nat) (l : list A) : option (list A * list A) :=
  match n with
  | O => Some ([], l)
  | S n' => match l with
            | [] => None
            | x :: l' => match take_exact n' l' with
                         | Some (a, r) => Some (x :: a, r)
                         | None => None
                         end
            end
  end.

(* Big-endian value of a byte string (ntohs / ntohl / nghttp3_ntohl64). *)
Definition be_val (l : list Z) : Z := fold_left (fun a b => a * 256 + b) l 0.

(* k-byte big-endian representation (htons / htonl / nghttp3_htonl64). *)
Fixpoint be_bytes (k : nat) (n : Z) : list Z :=
  match k with
  | O => []
  | S k' => (n / 256 ^ Z.of_nat k') mod 256 :: be_bytes k' n
  end.

Definition max_varint : Z := 4611686018427387903. (* (1 << 62) - 1, lib/nghttp3_macro.h:44 *)
Definition u64_max : Z := 18446744073709551615.

(* Error codes: lib/includes/nghttp3/nghttp3.h:105-287 *)
Definition ERR_INVALID_ARGUMENT := -101.
Definition ERR_INVALID_STATE := -102.
Definition ERR_WOULDBLOCK := -103.
Definition ERR_STREAM_IN_USE := -104.
Definition ERR_MALFORMED_HTTP_HEADER := -105.
Definition ERR_REMOVE_HTTP_HEADER := -106.
Definition ERR_MALFORMED_HTTP_MESSAGING := -107.
Definition ERR_QPACK_FATAL := -108.
Definition ERR_QPACK_HEADER_TOO_LARGE := -109.
Definition ERR_STREAM_NOT_FOUND := -110.
Definition ERR_CONN_CLOSING := -111.
Definition ERR_STREAM_DATA_OVERFLOW := -112.
Definition ERR_QPACK_DECOMPRESSION_FAILED := -401.
Definition ERR_QPACK_ENCODER_STREAM_ERROR := -402.
Definition ERR_QPACK_DECODER_STREAM_ERROR := -403.
Definition ERR_H3_FRAME_UNEXPECTED := -601.
Definition ERR_H3_FRAME_ERROR := -602.
Definition ERR_H3_MISSING_SETTINGS := -603.
Definition ERR_H3_INTERNAL_ERROR := -604.
Definition ERR_H3_CLOSED_CRITICAL_STREAM := -605.
Definition ERR_H3_GENERAL_PROTOCOL_ERROR := -606.
Definition ERR_H3_ID_ERROR := -607.
Definition ERR_H3_SETTINGS_ERROR := -608.
Definition ERR_H3_STREAM_CREATION_ERROR := -609.
Definition ERR_FATAL := -900.
Definition ERR_NOMEM := -901.
Definition ERR_CALLBACK_FAILURE := -902.
