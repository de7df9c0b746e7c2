(* What the peer's control stream may make the connection do (RFC 9114 6.2.1, 7.2, RFC 9218 7) *)
From Verif Require Import Base ConvSpec HttpModel ControlModel.
Open Scope Z_scope.

(* frame types *)
Definition DATA := 0. Definition HEADERS := 1. Definition CANCEL_PUSH := 3. Definition SETTINGS := 4.
Definition PUSH_PROMISE := 5. Definition GOAWAY := 7. Definition MAX_PUSH_ID := 13.
Definition PRIORITY_UPDATE := 0xf0700. Definition PRIORITY_UPDATE_PUSH := 0xf0701.
(* never allowed on a control stream: request frames, push, and those reserved for HTTP/2 *)
Definition never_on_control : list Z := [DATA; HEADERS; CANCEL_PUSH; PUSH_PROMISE; 2; 6; 8; 9].
Definition sent_by_clients : list Z := [MAX_PUSH_ID; PRIORITY_UPDATE].

(* what has been received so far *)
Inductive cstage :=
| Fresh                      (* no frame *)
| Idle                       (* SETTINGS and some more frames *)
| InSettings | InGoaway | InPrio
| InValue (id : Z)           (* PRIORITY_UPDATE for that stream *)
| InOther.                   (* a frame without effect on the application *)
Definition between (st : cstage) : Prop := match st with Idle | InOther | InValue _ => True | _ => False end.
(* [g]: the last GOAWAY identifier, 2^62 if none *)
Inductive cnext (server : bool) : cstage * Z -> cev -> cstage * Z -> Prop :=
| cn_settings g n : cnext server (Fresh, g) (CvFrame SETTINGS n) (InSettings, g)
| cn_goaway st g n : between st -> n <> 0 -> cnext server (st, g) (CvFrame GOAWAY n) (InGoaway, g)
| cn_prio st g n : between st -> server = true -> n <> 0 -> cnext server (st, g) (CvFrame PRIORITY_UPDATE n) (InPrio, g)
| cn_other st g ty n : between st -> ty <> SETTINGS -> ty <> GOAWAY -> ty <> PRIORITY_UPDATE -> ty <> PRIORITY_UPDATE_PUSH ->
    ~ In ty never_on_control -> (In ty sent_by_clients -> server = true) ->
    cnext server (st, g) (CvFrame ty n) (InOther, g)
| cn_cap g v : v <> 0 -> cnext server (InSettings, g) (CvEncCap v) (InSettings, g)
| cn_blocked g v : 0 < v <= 100 -> cnext server (InSettings, g) (CvEncBlocked v) (InSettings, g)
| cn_recv_settings g r : cnext server (InSettings, g) (CvSettings r) (Idle, g)
| cn_shutdown g id : 0 <= id <= g -> id < 2 ^ 62 -> (server = false -> id mod 4 = 0) -> cnext server (InGoaway, g) (CvShutdown id) (Idle, id)
| cn_elem g id n : cnext server (InPrio, g) (CvElem id n) (InValue id, g)
| cn_priority g id p : id mod 4 = 0 -> 0 <= p_urg p <= 7 -> p_inc p = 0 \/ p_inc p = 1 ->
    cnext server (InValue id, g) (CvPriority id p) (Idle, g).
Inductive cleads (server : bool) : cstage * Z -> list cev -> cstage * Z -> Prop :=
| cl_nil st : cleads server st [] st
| cl_cons st e st1 evs st' : cnext server st e st1 -> cleads server st1 evs st' -> cleads server st (e :: evs) st'.

(* the parts of a trace *)
Definition frames_of (evs : list cev) : list Z := flat_map (fun e => match e with CvFrame ty _ => [ty] | _ => [] end) evs.
Definition shutdowns_of (evs : list cev) : list Z := flat_map (fun e => match e with CvShutdown id => [id] | _ => [] end) evs.
Fixpoint nonincreasing (g : Z) (l : list Z) : Prop := match l with [] => True | x :: l' => x <= g /\ nonincreasing x l' end.
Definition no_long_value (evs : list cev) : Prop := Forall (fun e => match e with CvElem _ n => n <= 8 | _ => True end) evs.
Definition evs_ (r : Chunk.rres cst cev) : list cev :=
  match r with Chunk.ROk _ e | Chunk.RStop _ _ e | Chunk.RErr _ _ e => e | Chunk.RAbort => [] end.

(* the bytes read so far end with a complete frame *)
Definition at_frame (s : cst) : Prop := c_rd s = CType /\ c_rv s = ConvModel.rv_reset.

(* SETTINGS entries in order; what the receiver's settings become *)
Definition reserved_settings : list Z := [2; 3; 4; 5].
Definition entry_valid (server : bool) (e : Z * Z) : Prop :=
  ~ In (fst e) reserved_settings /\
  (fst e = SETTINGS_DATAGRAM -> snd e = 0 \/ snd e = 1) /\
  (fst e = SETTINGS_CONNECT -> server = true -> snd e = 0 \/ snd e = 1).
(* the last value of an identifier in the frame *)
Fixpoint last_of (id : Z) (l : list (Z * Z)) (dflt : Z) : Z :=
  match l with [] => dflt | (i, v) :: l' => last_of id l' (if i =? id then v else dflt) end.
Definition applied (server : bool) (l : list (Z * Z)) (r : rset) : Prop :=
  rs_field r = last_of SETTINGS_FIELD l (2 ^ 62 - 1) /\ rs_cap r = last_of SETTINGS_CAP l 0 /\
  rs_blocked r = last_of SETTINGS_BLOCKED l 0 /\ rs_datagram r = last_of SETTINGS_DATAGRAM l 0 /\
  rs_connect r = if server then last_of SETTINGS_CONNECT l 0 else 0.

(* What one complete frame behind SETTINGS does.  [g]: the last GOAWAY identifier (2^62 if none),
   [n]: one more than the last MAX_PUSH_ID (0 if none), [pp]: the meaning of a priority field value,
   [streams]: the number of request streams the client may open.  The result is the callbacks with the new g and n,
   or the connection error.  GOAWAY and MAX_PUSH_ID payloads with bytes behind the identifier
   are left out (None): see C26_trailing_bytes_refuted *)
Inductive ctl_result := CtlOk (cbs : list cev) (g n : Z) | CtlErr (e : Z).
Definition ctl_frame (server : bool) (pp : list Z -> option pri) (streams g n ty : Z) (payload : list Z) : option ctl_result :=
  let client_only f := if server then f else Some (CtlErr ERR_H3_FRAME_UNEXPECTED) in
  if (ty =? SETTINGS) || existsb (Z.eqb ty) never_on_control then Some (CtlErr ERR_H3_FRAME_UNEXPECTED)
  else if ty =? PRIORITY_UPDATE_PUSH then Some (CtlErr ERR_H3_ID_ERROR)
  else if ty =? GOAWAY then
    match rfc_varint payload with
    | None => Some (CtlErr ERR_H3_FRAME_ERROR)
    | Some (id, []) =>
      Some (if (g <? id) || (negb server && negb (id mod 4 =? 0)) then CtlErr ERR_H3_ID_ERROR else CtlOk [CvShutdown id] id n)
    | Some _ => None
    end
  else if ty =? MAX_PUSH_ID then client_only
    match rfc_varint payload with
    | None => Some (CtlErr ERR_H3_FRAME_ERROR)
    | Some (id, []) => Some (if id + 1 <? n then CtlErr ERR_H3_FRAME_ERROR else CtlOk [] g (id + 1))
    | Some _ => None
    end
  else if ty =? PRIORITY_UPDATE then client_only
    match rfc_varint payload with
    | None => Some (CtlErr ERR_H3_FRAME_ERROR)
    | Some (id, value) => Some
      (if 8 <? zlen value then CtlOk [] g n
       else match (match value with [] => Some (mk_pri 3 0) | _ => pp value end) with
            | None => CtlErr ERR_H3_GENERAL_PROTOCOL_ERROR
            | Some p => if (id mod 4 =? 0) && (id / 4 <? streams) then CtlOk [CvPriority id p] g n else CtlErr ERR_H3_ID_ERROR
            end)
    end
  else Some (CtlOk [] g n).
(* the callbacks in a trace *)
Definition ctl_callbacks (evs : list cev) : list cev :=
  filter (fun e => match e with CvFrame _ _ | CvElem _ _ => false | _ => true end) evs.
(* what the QPACK encoder is told while SETTINGS is read *)
Definition enc_caps (evs : list cev) : list Z := flat_map (fun e => match e with CvEncCap v => [v] | _ => [] end) evs.
Definition enc_blocked (evs : list cev) : list Z := flat_map (fun e => match e with CvEncBlocked v => [v] | _ => [] end) evs.
Definition recv_settings_of (evs : list cev) : list rset := flat_map (fun e => match e with CvSettings r => [r] | _ => [] end) evs.
