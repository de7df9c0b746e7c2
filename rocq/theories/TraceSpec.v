(* What the application may observe on a request stream (C23): written from RFC 9114 4.1, not
   from the code.  Fields, requests, responses: HttpSpec.v. *)
From Coq Require Import String.
From Verif Require Import Base ConvModel QpackTabModel QpackTabSpec HttpModel HttpSpec BidiModel BidiHist.
Open Scope Z_scope.

(* the endpoint: a server, or the client that sent [req] *)
Inductive role := Server (ext : bool) (sf : sfparser) | Client (req : list nv).
Definition is_connect (req : list nv) : bool := method_is (bs "CONNECT") req.
(* an interim response, and the header section that carries the message *)
Definition interim (r : role) (hs : fields) : Prop :=
  match r with
  | Server _ _ => False
  | Client req => wf_response (is_connect req) hs /\ informational hs
  end.
Definition final (r : role) (hs : fields) : Prop :=
  match r with
  | Server ext _ => wf_request ext hs
  | Client req => wf_response (is_connect req) hs /\ ~ informational hs
  end.
(* the message opens a tunnel: RFC 9114 4.4, only DATA frames may follow *)
Definition tunnel (r : role) (hs : fields) : Prop :=
  match r with
  | Server _ _ => In (bs "CONNECT") (values n_method hs)
  | Client req => is_connect req = true /\ status_is hs (fun c => c / 100 = 2)
  end.
(* a body of n bytes against what the header section declares; [le] is = at the end of the
   message and <= before it.  RFC 9114 4.1.2; RFC 9110 6.4.1 for HEAD, 204 and 304 *)
Definition declared (le : Z -> Z -> Prop) (r : role) (hs : fields) (n : Z) : Prop :=
  match r with
  | Server _ _ => plain_connect hs \/ forall v, In v (values n_clen hs) -> le n (num v)
  | Client req =>
    if method_is (bs "HEAD") req then n = 0
    else (status_is hs (fun c => c = 304 \/ c = 204) -> n = 0) /\
         (is_connect req = false -> ~ status_is hs (fun c => c = 304 \/ c = 204) ->
          forall v, In v (values n_clen hs) -> le n (num v))
  end.
(* frames that must not appear on a request stream: RFC 9114 7.2 (CANCEL_PUSH, SETTINGS,
   PUSH_PROMISE, GOAWAY, MAX_PUSH_ID), 7.2.8 (reserved), RFC 9218 7.2 (PRIORITY_UPDATE) *)
Definition forbidden_frames : list Z := [3; 4; 5; 7; 13; 2; 6; 8; 9; 984832; 984833].

(* the priority a request asks for: its priority fields (RFC 9218 5) taken together, each read by [parse_priority]
   with the parser of structured fields [sf], starting from urgency 3 and not incremental; None if it has none or
   one of them is wrong *)
Fixpoint merge_priorities (sf : sfparser) (p : pri) (vs : list (list Z)) : option pri :=
  match vs with
  | [] => Some p
  | v :: vs' => match parse_priority sf p v with Some q => merge_priorities sf q vs' | None => None end
  end.
Definition header_priority (sf : sfparser) (hs : fields) : option pri :=
  match values (bs "priority") hs with [] => None | vs => merge_priorities sf (mk_pri 3 0) vs end.

(* where a message is *)
Inductive stage :=
| AtStart                                            (* no final header section yet *)
| InHead (hs : list qnv)                             (* inside a header section *)
| InBody (hs : list qnv) (n : Z)                     (* n body bytes after the headers hs *)
| InTrail (hs : list qnv) (n : Z) (ts : list qnv)    (* inside the trailer section *)
| AfterTrail (hs : list qnv) (n : Z)
| Complete
| Refusing                                           (* malformed: told to stop sending *)
| Refused.                                           (* and reset *)

Inductive next (r : role) : stage -> bev -> stage -> Prop :=
| nx_begin : next r AtStart BvBeginHeaders (InHead [])
| nx_field hs f : next r (InHead hs) (BvHeader f) (InHead (hs ++ [f]))
| nx_interim hs : interim r (map fl hs) -> next r (InHead hs) BvEndHeaders AtStart
| nx_final hs : final r (map fl hs) -> next r (InHead hs) BvEndHeaders (InBody hs 0)
| nx_data hs n b : declared Z.le r (map fl hs) (n + 1) -> next r (InBody hs n) (BvData b) (InBody hs (n + 1))
| nx_begin_t hs n : ~ tunnel r (map fl hs) -> next r (InBody hs n) BvBeginTrailers (InTrail hs n [])
| nx_trailer hs n ts f : next r (InTrail hs n ts) (BvTrailer f) (InTrail hs n (ts ++ [f]))
| nx_end_t hs n ts : wf_trailers (map fl ts) -> next r (InTrail hs n ts) BvEndTrailers (AfterTrail hs n)
| nx_end_b hs n : declared eq r (map fl hs) n -> next r (InBody hs n) BvEndStream Complete
| nx_end_a hs n : declared eq r (map fl hs) n -> next r (AfterTrail hs n) BvEndStream Complete
(* a malformed section: the stream is given up *)
| nx_stop_h hs : next r (InHead hs) (BvStopSending 270) Refusing
| nx_stop_t hs n ts : next r (InTrail hs n ts) (BvStopSending 270) Refusing
| nx_reset : next r Refusing (BvResetStream 270) Refused
(* the priority a server takes from the request, before end_headers *)
| nx_prio ext sf hs p : r = Server ext sf -> header_priority sf (map fl hs) = Some p -> next r (InHead hs) (BvPriority p) (InHead hs)
(* frames: HEADERS (1) where a section may start, DATA (0) in the body, unknown types between
   sections; an empty trailer section has no callbacks *)
| nx_headers n : n <> 0 -> next r AtStart (BvFrame 1 n) AtStart
| nx_trailers hs m n : n <> 0 -> ~ tunnel r (map fl hs) -> next r (InBody hs m) (BvFrame 1 n) (InBody hs m)
| nx_trailers0 hs m : ~ tunnel r (map fl hs) -> next r (InBody hs m) (BvFrame 1 0) (AfterTrail hs m)
| nx_dataframe hs m n : next r (InBody hs m) (BvFrame 0 n) (InBody hs m)
| nx_unknown st ty n : ty <> 0 -> ty <> 1 -> ~ In ty forbidden_frames ->
    match st with AtStart | InBody _ _ | AfterTrail _ _ | Complete => True | _ => False end ->
    next r st (BvFrame ty n) st.
Inductive leads (r : role) : stage -> list bev -> stage -> Prop :=
| ld_nil st : leads r st [] st
| ld_cons st e st1 evs st' : next r st e st1 -> leads r st1 evs st' -> leads r st (e :: evs) st'.

(* the same as a message: callbacks only *)
Definition callback (e : bev) : bool := match e with BvFrame _ _ | BvPriority _ => false | _ => true end.
Definition callbacks (evs : list bev) : list bev := filter callback evs.
Definition head_section (hs : list qnv) : list bev := BvBeginHeaders :: map BvHeader hs ++ [BvEndHeaders].
Definition trail_section (ts : list qnv) : list bev := BvBeginTrailers :: map BvTrailer ts ++ [BvEndTrailers].
Record message (r : role) (infos : list (list qnv)) (hs : list qnv) (bd : list Z) (ts : option (list qnv)) : Prop := {
  m_infos : Forall (fun l => interim r (map fl l)) infos;
  m_final : final r (map fl hs);
  m_body : declared eq r (map fl hs) (zlen bd);
  m_trailers : match ts with Some l => ~ tunnel r (map fl hs) /\ wf_trailers (map fl l) | None => True end }.
Definition message_events (infos : list (list qnv)) (hs : list qnv) (bd : list Z) (ts : option (list qnv)) : list bev :=
  concat (map head_section infos) ++ head_section hs ++ map BvData bd ++
  match ts with Some l => trail_section l | None => [] end ++ [BvEndStream].

(* may a frame of this type start here? *)
Definition frame_allowed (r : role) (st : stage) (ty : Z) : Prop :=
  (ty = 0 -> exists hs n, st = InBody hs n) /\
  (ty = 1 -> st = AtStart \/ exists hs n, st = InBody hs n /\ ~ tunnel r (map fl hs)) /\
  ~ In ty forbidden_frames.
(* the stream is open for reading, not waiting for the QPACK encoder, not given up, and the
   bytes received so far end with a complete frame *)
Definition at_boundary (x : rx) : Prop :=
  x_shut x = false /\ b_blk (x_st x) = false /\ b_rd (x_st x) = FType /\ rv_left (b_rv (x_st x)) = 0.

(* the connection of an endpoint in this role, and what never changes about it *)
Definition env_of (r : role) (sf : sfparser) (E : benv) : Prop :=
  e_sf E = sf /\
  match r with
  | Server ext sf' => e_req E = true /\ e_ext E = ext /\ sf' = sf
  | Client _ => e_req E = false /\ e_ext E = false
  end.
(* the state of a request stream before the first byte: a client has recorded the method of
   the request it sent, lib/nghttp3_conn.c:2120-2190 *)
Definition http_of (r : role) : http :=
  match r with Server _ _ => http_init | Client req => record_request_method http_init req end.
Definition envs_ok (r : role) (sf : sfparser) (ops : list rop) : Prop :=
  Forall (fun o => match o with ROther E _ => env_of r sf E | _ => True end) ops.
