(* Theorems for C01, C02, C03, C41, C46.  Statements use ConvSpec (RFC side) and
   the model functions of ConvModel; each proof is a single application. *)
From Verif Require Import Base ConvModel ConvSpec ConvProofs.

(* C01: every n < 2^62 is written in the announced, minimal number of octets and
   read back, by the library and by the RFC grammar, whatever follows. *)
Theorem C01_varint_roundtrip : forall n, 0 <= n < 2 ^ 62 ->
  exists l, put_varint n = Some l /\ bytes l /\ put_varintlen n = Some (zlen l) /\
    (zlen l = 1 \/ zlen l = 2 \/ zlen l = 4 \/ zlen l = 8) /\
    (forall k, (k = 1 \/ k = 2 \/ k = 4 \/ k = 8) -> n < 2 ^ (8 * k - 2) -> zlen l <= k) /\
    (forall rest, get_varint (l ++ rest) = Some (n, rest)) /\
    (forall rest, bytes rest -> rfc_varint (l ++ rest) = Some (n, rest)).
Proof. exact put_varint_full. Qed.
Print Assumptions C01_varint_roundtrip.
Example C01_ex : put_varint 494878333 = Some [157; 127; 62; 125].
Proof. vm_compute; reflexivity. Qed.

(* C01, converse: the reader agrees with RFC 9000 on every byte string, and a value
   it returns is below 2^62. *)
Theorem C01_varint_read : forall l, bytes l ->
  get_varint l = rfc_varint l /\
  (forall n rest, get_varint l = Some (n, rest) -> 0 <= n < 2 ^ 62).
Proof. exact get_varint_read. Qed.
Print Assumptions C01_varint_read.
Example C01_read_ex : get_varint [194; 25; 124; 94; 255; 20; 232; 140; 7] = Some (151288809941952652, [7]).
Proof. vm_compute; reflexivity. Qed.

(* C01: values that do not fit are never written (the assertion in the writer). *)
Theorem C01_varint_oversize : forall n, 2 ^ 62 <= n -> put_varint n = None /\ put_varintlen n = None.
Proof. exact put_varint_oversize. Qed.
Print Assumptions C01_varint_oversize.

(* C02: feeding the pieces one at a time gives what RFC 9000 gives on the
   concatenation, with the same leftover; an integer cut by the end of the
   stream is an error; without the end, the reader waits. *)
Theorem C02_varint_cuts : forall (pieces : list (list Z)) (fin : bool),
  pieces <> [] -> Forall (fun p => p <> []) pieces -> bytes (concat pieces) ->
  feed_varint rv_reset pieces fin =
  match rfc_varint (concat pieces) with
  | Some (n, rest) => Ok (Some (n, rest))
  | None => if fin then Err ERR_INVALID_ARGUMENT else Ok None
  end.
Proof. exact feed_varint_rfc. Qed.
Print Assumptions C02_varint_cuts.
Example C02_ex : feed_varint rv_reset [[194; 25]; [124; 94; 255]; [20; 232]; [140; 7]] true
  = Ok (Some (151288809941952652, [7])).
Proof. vm_compute; reflexivity. Qed.
Example C02_ex_fin : feed_varint rv_reset [[194; 25]; [124]] true = Err ERR_INVALID_ARGUMENT.
Proof. vm_compute; reflexivity. Qed.

(* C03 *)
Theorem C03_frame_header : forall ty payload, 0 <= ty < 2 ^ 62 -> zlen payload < 2 ^ 62 -> bytes payload ->
  exists h, frame_write_hd ty (zlen payload) = Some h /\ bytes h /\
    frame_write_hd_len ty (zlen payload) = Some (zlen h) /\
    forall rest, bytes rest -> rfc_frame (h ++ payload ++ rest) = Some (ty, payload, rest).
Proof. exact frame_hd_full. Qed.
Print Assumptions C03_frame_header.

Theorem C03_settings : forall iv n total,
  Forall (fun e => 0 <= fst e < 2 ^ 62 /\ 0 <= snd e < 2 ^ 62) iv ->
  frame_write_settings_len iv = Some (n, total) ->
  exists f payload, frame_write_settings n iv = Some f /\ bytes f /\ zlen f = total /\
    zlen payload = n /\ rfc_settings_payload payload iv /\
    forall rest, bytes rest -> rfc_frame (f ++ rest) = Some (4, payload, rest).
Proof. exact frame_settings_full. Qed.
Print Assumptions C03_settings.
(* the length function succeeds for every list whose payload fits *)
Theorem C03_settings_len_total : forall iv,
  Forall (fun e => 0 <= fst e < 2 ^ 62 /\ 0 <= snd e < 2 ^ 62) iv -> 16 * zlen iv < 2 ^ 62 ->
  exists n total, frame_write_settings_len iv = Some (n, total).
Proof. exact settings_len_total. Qed.
Print Assumptions C03_settings_len_total.
Example C03_settings_ex :
  frame_write_settings_len [(6, 65536); (1, 4096); (7, 100)] = Some (11, 13) /\
  frame_write_settings 11 [(6, 65536); (1, 4096); (7, 100)] =
    Some [4; 11; 6; 128; 1; 0; 0; 1; 80; 0; 7; 64; 100].
Proof. vm_compute; auto. Qed.

Theorem C03_goaway : forall id, 0 <= id < 2 ^ 62 ->
  exists n total f payload, frame_write_goaway_len id = Some (n, total) /\
    frame_write_goaway n id = Some f /\ bytes f /\ zlen f = total /\ zlen payload = n /\
    rfc_varint payload = Some (id, []) /\
    forall rest, bytes rest -> rfc_frame (f ++ rest) = Some (7, payload, rest).
Proof. exact frame_goaway_correct. Qed.
Print Assumptions C03_goaway.
Example C03_goaway_ex : frame_write_goaway 2 100 = Some [7; 2; 64; 100].
Proof. vm_compute; reflexivity. Qed.

Theorem C03_priority_update : forall ty id data n total,
  0 <= ty < 2 ^ 62 -> 0 <= id < 2 ^ 62 -> bytes data ->
  frame_write_priority_update_len ty id data = Some (n, total) ->
  exists f payload, frame_write_priority_update ty n id data = Some f /\ bytes f /\
    zlen f = total /\ zlen payload = n /\ rfc_varint payload = Some (id, data) /\
    forall rest, bytes rest -> rfc_frame (f ++ rest) = Some (ty, payload, rest).
Proof. exact frame_priority_update_correct. Qed.
Print Assumptions C03_priority_update.
Example C03_priority_update_ex :
  frame_write_priority_update_len FRAME_PRIORITY_UPDATE 4 [117; 61; 50] = Some (4, 9) /\
  frame_write_priority_update FRAME_PRIORITY_UPDATE 4 4 [117; 61; 50] =
    Some [128; 15; 7; 0; 4; 4; 117; 61; 50].
Proof. vm_compute; auto. Qed.

(* C41: the result is always an RFC 9114/9204 code; NO_ERROR (0x100) exactly for 0;
   the categories map as documented; anything unknown is a general protocol error. *)
Theorem C41_error_codes : forall e,
  In (err_infer e) rfc_app_error_codes /\ (err_infer e = 0x100 <-> e = 0) /\
  (~ In e documented_errors -> e <> 0 -> err_infer e = 0x101).
Proof. exact err_infer_full. Qed.
Print Assumptions C41_error_codes.
Theorem C41_error_mapping : forall e c, In (e, c) documented_error_map -> err_infer e = c.
Proof. exact err_infer_map. Qed.
Print Assumptions C41_error_mapping.

(* C46 *)
Theorem C46_nva_copy : forall l, Forall (fun x => bytes (nv_name x)) l ->
  Forall2 (fun x y => nv_value y = nv_value x /\ nv_flags y = nv_flags x /\
     nv_name y = if Z.testbit (nv_flags x) 1 then nv_name x else map ascii_lower (nv_name x))
    l (nva_copy l).
Proof. exact nva_copy_correct. Qed.
Print Assumptions C46_nva_copy.
Example C46_ex : nva_copy [mknv [65; 98; 45] [65] 1; mknv [65] [66] 2] =
  [mknv [97; 98; 45] [65] 1; mknv [65] [66] 2].
Proof. vm_compute; reflexivity. Qed.
