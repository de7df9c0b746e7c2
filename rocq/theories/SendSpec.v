(* Specification of what an endpoint sends, read off the calls of the API *)
From Verif Require Import Base ConvModel ConvSpec QpackTabModel QpackDecModel ControlModel TxModel TxSpec ConnModel ConnDecomp ConnHist.
Open Scope Z_scope.

(* what the caller sees of the sending side of a stream *)
Inductive tev :=
| TSubmit (frs : list TxModel.frame) (fin : bool)       (* frames are queued; [fin]: these are the last ones *)
| TOffer (vs : list (list Z)) (fin : bool)              (* bytes are offered to the transport *)
| TWritten (n : Z)                                      (* the transport took n bytes *)
| TAck (off : Z) (calls : list Z)                       (* all below this offset is acknowledged; acked_stream_data callbacks *)
| TAddAck (n : Z) (calls : list Z).                     (* n more bytes are acknowledged *)
(* bytes taken, end of the bytes offered, bytes acknowledged *)
Definition tled_step (L : ledger) (e : tev) : ledger :=
  match e with
  | TSubmit _ _ => L
  | TOffer vs _ => mk_led (l_sent L) (Z.max (l_hi L) (l_sent L + zlen (concat vs))) (l_acked L)
  | TWritten n => mk_led (l_sent L + n) (l_hi L) (l_acked L)
  | TAck off _ => mk_led (l_sent L) (l_hi L) off
  | TAddAck n _ => mk_led (l_sent L) (l_hi L) (l_acked L + n)
  end.
Definition tled (l : list tev) : ledger := fold_left tled_step l led0.

(* the type a stream was opened with (RFC 9114 6.2, RFC 9204 4.2); None: a request stream, or one of the peer *)
Definition opened_as (id : Z) (o : cop) : option Z :=
  match o with
  | OBindControl i => if i =? id then Some 0 else None
  | OBindQpack e d => if e =? id then Some 2 else if d =? id then Some 3 else None
  | _ => None
  end.
Definition stype (id : Z) (h : list kcall) : option Z := match life id h with x :: _ => opened_as id (ConnHist.c_op x) | [] => None end.
Definition is_ctl (ty : option Z) : bool := match ty with Some 0 => true | _ => false end.
Definition acks (id : Z) (evs : list kev) : list Z := concat (map (fun e => match e with KAcked i n => if i =? id then [n] else [] | _ => [] end) evs).
Definition offers_of (id : Z) (evs : list kev) : list tev := concat (map (fun e => match e with KOffer i vs fin => if i =? id then [TOffer vs fin] else [] | _ => [] end) evs).
(* what one call does to the sending side of stream [id]; the GOAWAY identifier: C27, C28 *)
Definition tlog1 (K : kenv) (ty : option Z) (id : Z) (x : kcall) : list tev :=
  let on i l := if i =? id then l else [] in
  match ConnHist.c_op x with
  | OWritev _ => offers_of id (c_evs x)
  | o =>
    if negb (ConnHist.c_rv x =? 0) then []
    else match o with
    | ORequest i nva dr | OResponse i nva dr => on i [TSubmit (TxModel.FHeaders (nva_copy nva) :: (if dr then [TxModel.FData] else [])) (negb dr)]
    | OInfo i nva => on i [TSubmit [TxModel.FHeaders (nva_copy nva)] false]
    | OTrailers i nva => on i [TSubmit [TxModel.FHeaders (nva_copy nva)] true]
    | OBindControl i => on i [TSubmit [FSettings (ke_set K)] false]
    | ONotice | OShutdown => if is_ctl ty then [TSubmit [FGoaway (k_goaway (c_post x))] false] else []
    | OClientPriority i data => if is_ctl ty then [TSubmit [FPrio i data] false] else []
    | OAddWrite i n => on i [TWritten n]
    | ConnModel.OAddAck i n => on i [TAddAck n (acks id (c_evs x))]
    | OUpdateAck i off => on i [TAck off (acks id (c_evs x))]
    | _ => []
    end
  end.
(* since the stream was opened *)
Definition slog (K : kenv) (id : Z) (h : list kcall) : list tev := concat (map (tlog1 K (stype id h) id) (life id h)).

(* The contract of the caller: header sections are not empty and go to request streams, the transport takes and
   acknowledges no more than it was given, ... *)
Definition call_ok (K : kenv) (pre : list kcall) (c : conn) (o : cop) : Prop :=
  match o with
  | ORequest _ nva _ => nva <> []
  | OInfo i nva | OResponse i nva _ | OTrailers i nva => nva <> [] /\ client_bidi i = true
  | OClientPriority _ data => bytes data /\ zlen data < 2 ^ 61
  | OAddWrite i n => life i pre <> [] -> 0 <= n /\ l_sent (tled (slog K i pre)) + n <= l_hi (tled (slog K i pre))
  | ConnModel.OAddAck i n => life i pre <> [] -> 0 <= n /\ l_acked (tled (slog K i pre)) + n <= l_sent (tled (slog K i pre))
  | OUpdateAck i off => life i pre <> [] -> 0 <= off <= l_sent (tled (slog K i pre))
  | OWritev _ => get_decoder_streamlen (k_dec c) < 2 ^ 62 /\ next_absidx (d_ctx (k_dec c)) < 2 ^ 62
  | _ => True
  end.
(* ... at each call of the history; [c]: the connection before the call *)
Definition after (K : kenv) (h : list kcall) : conn := match rev h with x :: _ => c_post x | [] => conn_init K end.
Definition sending_ok (K : kenv) (h : list kcall) : Prop := forall pre x post, h = pre ++ x :: post -> call_ok K pre (after K pre) (ConnHist.c_op x).
(* the contract of the encoder (C13-C18), of the application's readers and of the settings *)
Definition instr_ok (e : list Z) : Prop := bytes e /\ zlen e < 2 ^ 62.
Definition enc_ok (E : txenv) : Prop := env_ok E /\ forall k nva p r e, te_enc E k nva = Ok (p, r, e) -> instr_ok e.
Definition env_fine (K : kenv) : Prop := (forall id, enc_ok (ke_tx K id)) /\ frame_ok (FSettings (ke_set K)).

(* What submitted frames become on the wire: [says E l open k j fs]: the frames [l] became the frames [fs] (type and
   payload); k header sections were encoded, the reader was called j times; [open]: the reader of the last frame of [l],
   which is FData, has more to give *)
Inductive says (E : txenv) : list TxModel.frame -> bool -> nat -> nat -> list (Z * list Z) -> Prop :=
| sy_nil : says E [] false 0 0 []
| sy_settings l k j fs s p : says E l false k j fs -> rfc_settings_payload p (TxSpec.announced s) -> says E (l ++ [FSettings s]) false k j (fs ++ [(4, p)])
| sy_goaway l k j fs id p : says E l false k j fs -> rfc_varint p = Some (id, []) -> says E (l ++ [FGoaway id]) false k j (fs ++ [(7, p)])
| sy_prio l k j fs id data p : says E l false k j fs -> rfc_varint p = Some (id, data) -> says E (l ++ [FPrio id data]) false k j (fs ++ [(0xf0700, p)])
| sy_headers l k j fs nva p r e : says E l false k j fs -> te_enc E k nva = Ok (p, r, e) -> says E (l ++ [TxModel.FHeaders nva]) false (S k) j (fs ++ [(1, p ++ r)])
| sy_data l k j fs : says E l false k j fs -> says E (l ++ [TxModel.FData]) true k j fs
| sy_wait l k j fs : says E l true k j fs -> te_rd E j = RdErr ERR_WOULDBLOCK -> says E l true k (S j) fs
| sy_piece l k j fs vecs (eof : bool) ne : says E l true k j fs -> te_rd E j = RdData vecs eof ne -> concat vecs <> [] -> says E l (negb eof) k (S j) (fs ++ [(0, concat vecs)])
| sy_eof l k j fs vecs ne : says E l true k j fs -> te_rd E j = RdData vecs true ne -> concat vecs = [] -> says E l false k (S j) fs.
(* the frames submitted *)
Definition submitted (log : list tev) : list TxModel.frame := concat (map (fun e => match e with TSubmit frs _ => frs | _ => [] end) log).
(* the header sections among frames *)
Definition sections (l : list TxModel.frame) : list (list ConvModel.nv) := concat (map (fun f => match f with TxModel.FHeaders nva => [nva] | _ => [] end) l).
(* the bytes reported by acked_stream_data *)
Definition tsum (l : list Z) : Z := fold_right Z.add 0 l.
Definition treported (log : list tev) : Z := tsum (map (fun e => match e with TAck _ cs | TAddAck _ cs => tsum cs | _ => 0 end) log).

(* the bytes before the frames: the type of the stream *)
Definition preamble (ty : option Z) : list Z := match ty with Some n => [n] | None => [] end.
(* what the streams that carry frames carry: [rest]: frames still to come; [open]: the reader of the last frame has more
   to give; [j]: calls of the reader *)
Definition carries (E : txenv) (ty : option Z) (log : list tev) (w : list Z) (rest : list TxModel.frame) (open : bool) (j : nat) : Prop :=
  exists l k fs w1, says E l open k j (map fst fs) /\ w = preamble ty ++ w1 /\ frames_of w1 fs /\ submitted log = l ++ rest.
(* every offer is a piece of [w], from where the transport has got to *)
Definition offered_from (w : list Z) (log : list tev) : Prop :=
  forall pre vs fin post, log = pre ++ TOffer vs fin :: post -> upto (zlen (concat vs)) (from (l_sent (tled pre)) w) = concat vs.
(* the caller, or the reader, said that there is no more to come *)
Definition rd_end (E : txenv) (i : nat) : Prop := exists v, te_rd E i = RdData v true false.
Definition fin_sub (log : list tev) : Prop := exists frs, In (TSubmit frs true) log.
Definition ended (E : txenv) (log : list tev) (j : nat) : Prop := fin_sub log \/ exists i, (i < j)%nat /\ rd_end E i.
Definition adds_frames (e : tev) : Prop := exists frs fin, e = TSubmit frs fin.
(* the frames of a control stream *)
Definition ctl_frame (f : TxModel.frame) : Prop := match f with FSettings _ | FGoaway _ | FPrio _ _ => True | _ => False end.
Definition ctl_wire (f : TxModel.frame) (w : Z * list Z) : Prop :=
  match f with
  | FSettings s => fst w = 4 /\ rfc_settings_payload (snd w) (TxSpec.announced s)
  | FGoaway id => fst w = 7 /\ rfc_varint (snd w) = Some (id, [])
  | FPrio id data => fst w = 0xf0700 /\ rfc_varint (snd w) = Some (id, data)
  | _ => False
  end.
(* the frame that a call puts on the control stream *)
Definition queued (x : kcall) : list TxModel.frame :=
  if ConnHist.c_rv x =? 0 then match ConnHist.c_op x with ONotice | OShutdown => [FGoaway (k_goaway (c_post x))] | OClientPriority i data => [FPrio i data] | _ => [] end else [].
