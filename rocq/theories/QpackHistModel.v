(* Arbitrary use of a QPACK decoder by the application (public API of
   lib/nghttp3_qpack.h:447-960): every operation with every argument the API allows, in any
   order and interleaving.  There is one stream context per stream identifier, created on
   first use (nghttp3_qpack_stream_context_init, lib/nghttp3_qpack.c:3276). *)
From Verif Require Import Base QpackIntModel QpackTabModel Chunk QpackDecModel.

Inductive dop :=
| DEnc (src : list Z)                        (* nghttp3_qpack_decoder_read_encoder *)
| DReq (id : Z) (src : list Z) (fin : bool)  (* nghttp3_qpack_decoder_read_request *)
| DReset (id : Z)                            (* nghttp3_qpack_stream_context_reset *)
| DCancel (id : Z)                           (* nghttp3_qpack_decoder_cancel_stream *)
| DFlush                                     (* nghttp3_qpack_decoder_write_decoder *)
| DConc (n : Z).                             (* nghttp3_qpack_decoder_set_max_concurrent_streams *)
(* arguments the API allows *)
Definition dop_ok (o : dop) : Prop :=
  match o with
  | DEnc src => bytes src
  | DReq id src _ => bytes src /\ 0 <= id < 2 ^ 62
  | DReset id | DCancel id => 0 <= id < 2 ^ 62
  | DFlush | DConc _ => True
  end.

Inductive dres :=
| DrErr (e : Z)              (* a negative return value *)
| DrDone                     (* success, nothing to report *)
| DrEmit (v : qnv) (rest : list Z)
| DrBlocked (rest : list Z)
| DrFinal (id ricnt : Z)     (* the section of this stream is complete; its Required Insert Count *)
| DrBytes (l : list Z).      (* written to the decoder stream *)

Record dworld := mk_dw { w_dec : dec; w_str : list (Z * sctx) }.
Definition dw_init (hard blocked : Z) : dworld := mk_dw (dec_init hard blocked) [].
Fixpoint sget (l : list (Z * sctx)) (id : Z) : sctx :=
  match l with
  | [] => sctx_init id
  | (i, s) :: l' => if i =? id then s else sget l' id
  end.
Definition sput (l : list (Z * sctx)) (id : Z) (s : sctx) : list (Z * sctx) := (id, s) :: l.

(* None: a failed assertion or an access outside a buffer or table *)
Definition dstep (w : dworld) (o : dop) : option (dworld * dres) :=
  let d := w_dec w in
  match o with
  | DEnc src => match read_encoder d src with
                | (d', Ok _) => Some (mk_dw d' (w_str w), DrDone)
                | (d', Err e) => Some (mk_dw d' (w_str w), DrErr e)
                | (_, Abort) => None
                end
  | DReq id src fin =>
    match read_request d (sget (w_str w) id) src fin with
    | RqEmit s v rest => Some (mk_dw d (sput (w_str w) id s), DrEmit v rest)
    | RqBlocked s rest => Some (mk_dw d (sput (w_str w) id s), DrBlocked rest)
    | RqNone s => Some (mk_dw d (sput (w_str w) id s), DrDone)
    | RqFinal d' s => Some (mk_dw d' (sput (w_str w) id s), DrFinal id (s_ricnt s))
    | RqErr e d' s => Some (mk_dw d' (sput (w_str w) id s), DrErr e)
    | RqAbort => None
    end
  | DReset id => Some (mk_dw d (sput (w_str w) id (sctx_init id)), DrDone)
  | DCancel id => match dec_cancel_stream d id with
                  | Ok d' => Some (mk_dw d' (w_str w), DrDone)
                  | Err e => Some (w, DrErr e)
                  | Abort => None
                  end
  | DFlush => match write_decoder d (get_decoder_streamlen d) with
              | Ok (d', l) => Some (mk_dw d' (w_str w), DrBytes l)
              | Err e => Some (w, DrErr e)
              | Abort => None
              end
  | DConc n => Some (mk_dw (dec_set_max_concurrent d n) (w_str w), DrDone)
  end.
Fixpoint drun (w : dworld) (ops : list dop) : option (dworld * list (dop * dres)) :=
  match ops with
  | [] => Some (w, [])
  | o :: ops' =>
    match dstep w o with
    | None => None
    | Some (w1, r) =>
      match drun w1 ops' with
      | None => None
      | Some (w2, tr) => Some (w2, (o, r) :: tr)
      end
    end
  end.

(* The caller's loop around nghttp3_qpack_decoder_read_request (lib/nghttp3_conn.c:1551-1655):
   call again with the rest of the input after each emitted field.  Result: the fields and
   the result of the last call.  [fuel] bounds the number of calls. *)
Fixpoint decode_all (fuel : nat) (d : dec) (s : sctx) (p : list Z) (fin : bool) : list qnv * rq_res :=
  match fuel with
  | O => ([], RqAbort)
  | S f =>
    match read_request d s p fin with
    | RqEmit s' v rest => let (vs, r) := decode_all f d s' rest fin in (v :: vs, r)
    | r => ([], r)
    end
  end.
Definition decode_section (d : dec) (s : sctx) (p : list Z) (fin : bool) : list qnv * rq_res :=
  decode_all (S (S (length p))) d s p fin.

(* the encoder stream delivered in pieces; reading stops at the first error *)
Fixpoint feed_encoder (d : dec) (ps : list (list Z)) : dec * outcome Z :=
  match ps with
  | [] => (d, Ok 0)
  | p :: ps' => match read_encoder d p with
                | (d', Ok n) => let (d2, r) := feed_encoder d' ps' in
                    (d2, match r with Ok m => Ok (n + m) | _ => r end)
                | r => r
                end
  end.

(* the fields that only count: the input since the last section, and all input *)
Definition d_count (d : dec) (u : Z) (g : list Z) : dec :=
  mk_dec (d_ctx d) (d_state d) (d_op d) (d_rs d) (d_dbuf d) (d_written d) (d_maxconc d) u g.
(* same decoder, except for the counts of bytes *)
Definition same_dec (d1 d2 : dec) : Prop := d_count d1 0 [] = d_count d2 0 [].

