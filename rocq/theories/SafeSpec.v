(* What the application and the transport have to respect so that no call aborts (C49).  Nothing here depends on
   how the library works, except that histories, logs and connections are those of the model *)
From Verif Require Import Base ConvModel ConvSpec HttpModel ControlModel ControlSpec SchedModel SchedFair QpackDecModel QpackTabModel TxModel TxSpec ConnModel ConnCtl ConnStep ConnDecomp ConnHist ConnUni ConnShut ConnSched SendSpec.
Open Scope Z_scope.

(* ---- the peer's control stream, as a server reads it ---- *)
(* where the next frame starts.  The library does not look whether the integer of a GOAWAY or MAX_PUSH_ID frame ends with the frame *)
Definition next_frame (b : list Z) : option (list Z) :=
  match rfc_varint b with
  | Some (ty, b1) =>
    match rfc_varint b1 with
    | Some (len, b2) =>
      if (ty =? GOAWAY) || (ty =? MAX_PUSH_ID) then option_map snd (rfc_varint b2)
      else if len <=? zlen b2 then Some (skipn (Z.to_nat len) b2) else None
    | None => None
    end
  | None => None
  end.
(* these bytes end right behind the prioritized element ID of a PRIORITY_UPDATE frame whose field value is not empty *)
Inductive behind_element_id : list Z -> Prop :=
| be_here b b1 len b2 id : rfc_varint b = Some (PRIORITY_UPDATE, b1) -> rfc_varint b1 = Some (len, b2) -> rfc_varint b2 = Some (id, []) -> zlen b2 < len -> behind_element_id b
| be_next b b' : next_frame b = Some b' -> behind_element_id b' -> behind_element_id b.

(* ---- what a call has to respect, after the calls h ---- *)
(* Each clause is an assertion at the head of the function, or a sentence of its documentation (lib/includes/nghttp3/nghttp3.h),
   read as a demand on the arguments and on the calls made before; the offsets are in SendSpec.call_ok *)
Definition ctl_bound (h : list kcall) : Prop := exists t, In (OBindControl t) (ops_of h).
Definition qpack_bound (h : list kcall) : Prop := exists e d, In (OBindQpack e d) (ops_of h).
Definition stream_id (id : Z) : Prop := 0 <= id < 2 ^ 62.
Definition lawful (K : kenv) (h : list kcall) (o : cop) : Prop :=
  match o with
  | OBindControl id => stream_id id /\ local_uni K id = true
  | OBindQpack e d => stream_id e /\ stream_id d /\ local_uni K e = true /\ local_uni K d = true
  | ORead id src fin => stream_id id /\ local_uni K id = false /\
      (* finding 23: the read must not stop behind a prioritized element ID *)
      (ke_server K = true -> peer_uni K id = true -> forall b, rfc_varint (heard id h ++ src) = Some (0, b) -> ~ behind_element_id b)
  | ORequest id _ _ => ke_server K = false /\ qpack_bound h /\ stream_id id /\ client_bidi id = true
  | OInfo _ _ | OResponse _ _ _ => ke_server K = true /\ qpack_bound h
  | OTrailers _ _ => qpack_bound h
  | ONotice => ctl_bound h /\ ~ In OShutdown (ops_of h)
  | OShutdown => ctl_bound h /\ (ke_server K = true -> ~ In OShutdown (ops_of h))
  | OShutRead id => stream_id id
  | OMaxClient n => ke_server K = true /\ 0 <= n /\ forall m, In (OMaxClient m) (ops_of h) -> m <= n
  | OClientPriority id _ => ke_server K = false /\ stream_id id /\ ctl_bound h
  | OServerPriority id p => ke_server K = true /\ stream_id id /\ 0 <= p_urg p <= 7 /\ (p_inc p = 0 \/ p_inc p = 1)
  | _ => True
  end.
