(* Independent specifications for integers and frames (RFC 9000 sec. 16, RFC 9114
   sec. 7, RFC 9218 sec. 7).  Nothing here refers to the model of the C code. *)
From Verif Require Import Base.

(* RFC 9000 section 16: the two most significant bits of the first byte give the
   base-2 logarithm of the length; the value is the remaining bits, big-endian. *)
Definition rfc_varint (l : list Z) : option (Z * list Z) :=
  match l with
  | [] => None
  | b :: _ =>
    let len := 2 ^ (b / 64) in
    match take_exact (Z.to_nat len) l with
    | Some (bs, rest) => Some (be_val bs mod 2 ^ (8 * len - 2), rest)
    | None => None
    end
  end.

(* RFC 9114 section 7.1: frame = type (varint), length (varint), payload. *)
Definition rfc_frame (l : list Z) : option (Z * list Z * list Z) :=
  match rfc_varint l with
  | None => None
  | Some (ty, l1) =>
    match rfc_varint l1 with
    | None => None
    | Some (n, l2) =>
      match take_exact (Z.to_nat n) l2 with
      | Some (payload, rest) => Some (ty, payload, rest)
      | None => None
      end
    end
  end.

(* RFC 9114 section 7.2.4: the SETTINGS payload is a sequence of identifier/value
   pairs that exactly fills the payload. *)
Inductive rfc_settings_payload : list Z -> list (Z * Z) -> Prop :=
| rfc_sp_nil : rfc_settings_payload [] []
| rfc_sp_cons p id v p1 p2 t :
    rfc_varint p = Some (id, p1) -> rfc_varint p1 = Some (v, p2) ->
    rfc_settings_payload p2 t -> rfc_settings_payload p ((id, v) :: t).

(* Integers representable on the wire. *)
Definition wire_int (n : Z) : Prop := 0 <= n < 2 ^ 62.

(* HTTP/3 application error codes: RFC 9114 section 8.1, RFC 9204 section 8.3. *)
Definition rfc_app_error_codes : list Z :=
  [0x0100; 0x0101; 0x0102; 0x0103; 0x0104; 0x0105; 0x0106; 0x0107; 0x0108; 0x0109;
   0x010a; 0x010b; 0x010c; 0x010d; 0x010e; 0x010f; 0x0110; 0x0200; 0x0201; 0x0202].

(* ASCII lower-casing: A-Z become a-z, every other byte is unchanged. *)
Definition ascii_lower (b : Z) : Z := if (65 <=? b) && (b <=? 90) then b + 32 else b.

(* Documented mapping from library errors to application error codes
   (doc of nghttp3_err_infer_quic_app_error_code, RFC 9114 8.1, RFC 9204 8.3). *)
Definition documented_error_map : list (Z * Z) :=
  [ (ERR_QPACK_DECOMPRESSION_FAILED, 0x200);
    (ERR_QPACK_ENCODER_STREAM_ERROR, 0x201);
    (ERR_QPACK_DECODER_STREAM_ERROR, 0x202);
    (ERR_H3_FRAME_UNEXPECTED, 0x105);
    (ERR_H3_FRAME_ERROR, 0x106);
    (ERR_H3_MISSING_SETTINGS, 0x10a);
    (ERR_H3_INTERNAL_ERROR, 0x102);
    (ERR_NOMEM, 0x102);
    (ERR_CALLBACK_FAILURE, 0x102);
    (ERR_QPACK_FATAL, 0x102);
    (ERR_QPACK_HEADER_TOO_LARGE, 0x102);
    (ERR_STREAM_DATA_OVERFLOW, 0x102);
    (ERR_H3_CLOSED_CRITICAL_STREAM, 0x104);
    (ERR_H3_GENERAL_PROTOCOL_ERROR, 0x101);
    (ERR_H3_ID_ERROR, 0x108);
    (ERR_H3_SETTINGS_ERROR, 0x109);
    (ERR_H3_STREAM_CREATION_ERROR, 0x103);
    (ERR_MALFORMED_HTTP_HEADER, 0x10e);
    (ERR_MALFORMED_HTTP_MESSAGING, 0x10e) ].
Definition documented_errors : list Z := map fst documented_error_map.
