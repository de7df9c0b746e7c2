(* C23-C25: request streams.  [x_run false E (rx_init id h d) ops] is the history [ops] of a
   request stream [id] on a connection whose QPACK decoder is [d]; see BidiHist.v.
   XOk: still open, with the state and the events so far; XGone: deleted; XErr: a connection
   error; XAbort: an assertion failed. *)
From Coq Require Import String.
From Verif Require Import Base BaseLemmas ConvModel ConvSpec ConvProofs RdVarint QpackTabModel QpackTabSpec QpackDecModel QpackDecProofs QpackHistProofs HttpModel HttpSpec Chunk
  BidiModel BidiHist BidiSpec BidiCut BidiAcct TraceSpec TraceProofs TraceEnd.
Open Scope Z_scope.

(* decoders of a connection: any evolution of a fresh one *)
Definition reachable_dec (d : dec) : Prop := exists hard blocked, 0 <= hard /\ dec_evolves (dec_init hard blocked) d.
Lemma reachable_ok d : reachable_dec d -> dec_ok d.
Proof. intros (h & b & H & E). apply (evolves_ok _ _ E). split; [apply es_inv_init; auto|reflexivity]. Qed.

(* ---- C23 ---- *)
(* whatever bytes arrive, the frames taken off the wire and the callbacks made follow the
   grammar of TraceSpec.v, also up to an error; nothing aborts *)
Theorem C23_trace : forall r sf E id d ops, env_of r sf E -> envs_ok r sf ops -> reachable_dec d -> 0 <= id < 2 ^ 62 ->
  bytes (received ops) -> hist_ok E (rx_init id (http_of r) d) ops ->
  x_run false E (rx_init id (http_of r) d) ops <> XAbort /\
  exists st, leads r AtStart (evs_of (x_run false E (rx_init id (http_of r) d) ops)) st.
Proof. intros. apply trace_grammar with (sf := sf); auto using reachable_ok. Qed.
(* when end_stream is reported, the callbacks are those of one complete message: interim
   responses, a well-formed header section, as many bytes as declared, well-formed trailers *)
Theorem C23_message : forall r sf E id d ops, env_of r sf E -> envs_ok r sf ops -> reachable_dec d -> 0 <= id < 2 ^ 62 ->
  bytes (received ops) -> hist_ok E (rx_init id (http_of r) d) ops ->
  In BvEndStream (evs_of (x_run false E (rx_init id (http_of r) d) ops)) ->
  exists infos hs bd ts, message r infos hs bd ts /\
    callbacks (evs_of (x_run false E (rx_init id (http_of r) d) ops)) = message_events infos hs bd ts.
Proof.
  intros r sf E id d ops EV EO D I B H IE.
  destruct (trace_grammar r sf E id d ops EV EO (reachable_ok _ D) I B H) as [_ [st L]]. eapply trace_message; eauto.
Qed.
(* between frames, the next frame header is refused exactly when its type is not allowed there *)
Theorem C23_order_enforced : forall r sf E id d ops x evs p ty len p1, env_of r sf E -> envs_ok r sf ops -> reachable_dec d -> 0 <= id < 2 ^ 62 ->
  bytes (received ops) -> hist_ok E (rx_init id (http_of r) d) ops ->
  x_run false E (rx_init id (http_of r) d) ops = XOk x evs -> at_boundary x -> bytes p ->
  rfc_varint p = Some (ty, p1) -> rfc_varint p1 = Some (len, []) ->
  exists st, leads r AtStart evs st /\
  (~ frame_allowed r st ty -> forall E', env_of r sf E' -> recv false E' x p false = XErr ERR_H3_FRAME_UNEXPECTED []) /\
  (frame_allowed r st ty -> (ty = 1 -> len <> 0 \/ st <> AtStart) -> forall E', env_of r sf E' ->
   exists x' ev, recv false E' x p false = XOk x' ev).
Proof.
  intros r sf E id d ops x evs p ty len p1 EV EO D I B H X A BP G1 G2.
  rewrite <- get_varint_rfc in G1 by auto. pose proof (get_varint_app p [] BP) as GA. rewrite G1 in GA. destruct GA as (_ & _ & B1 & _).
  rewrite <- get_varint_rfc in G2 by auto. exact (order_enforced r sf E id d ops x evs p ty len p1 EV EO (reachable_ok _ D) I B H X A BP G1 G2).
Qed.
(* once the peer has ended the stream (nothing arrives after that), and unless the application
   stopped reading or the connection failed, the end has been reported, or the message was
   rejected, or the last thing received is an unfinished HEADERS frame *)
Theorem C23_end_reported : forall r sf E id d ops x evs, env_of r sf E -> envs_ok r sf ops -> reachable_dec d -> 0 <= id < 2 ^ 62 ->
  bytes (received ops) -> hist_ok E (rx_init id (http_of r) d) ops -> fin_last ops ->
  x_run false E (rx_init id (http_of r) d) ops = XOk x evs -> x_eof x = true -> x_shut x = false ->
  In BvEndStream evs \/ In (BvResetStream 270) evs \/ b_rd (x_st x) = FHeaders.
Proof. intros. eapply end_reported; eauto using reachable_ok. Qed.

(* ---- C24 ---- *)
(* [recut l1 l2]: the same bytes, cut differently *)
Theorem C24_cut_independent : forall E id h d l1 l2, reachable_dec d -> 0 <= id < 2 ^ 62 -> bytes (received l1) ->
  hist_ok E (rx_init id h d) l1 -> recut l1 l2 ->
  hist_ok E (rx_init id h d) l2 /\ same_outcome (x_run false E (rx_init id h d) l1) (x_run false E (rx_init id h d) l2).
Proof. intros. apply cut_independent; auto using reachable_ok. Qed.

(* ---- C25 ---- *)
Theorem C25_accounting : forall E id h d ops, reachable_dec d -> 0 <= id < 2 ^ 62 -> bytes (received ops) ->
  hist_ok E (rx_init id h d) ops ->
  match x_run false E (rx_init id h d) ops with
  | XOk x evs => 0 <= x_ret x /\ 0 <= x_def x /\
      x_ret x + x_def x + zlen (delivered evs) + zlen (inbytes (x_inq x)) = zlen (received ops)
  | XGone x evs => exists o1 o2, ops = o1 ++ o2 /\ x_run false E (rx_init id h d) o1 = XGone x evs /\
      0 <= x_ret x /\ 0 <= x_def x /\
      x_ret x + x_def x + zlen (delivered evs) = zlen (received o1)
  | XErr _ _ => True
  | XAbort => False
  end.
Proof. intros. apply accounting; auto using reachable_ok. Qed.

(* a GET with a body and trailers, in pieces, and with a section blocked on the encoder stream *)
Definition ex_sf : sfparser := fun _ => ([], true).
Definition ex_E : benv := mk_benv true false ex_sf false false.
Definition ex_d : dec := dec_init 4096 16.
Definition ex_head : list Z := [1; 8; 0; 0; 209; 215; 193; 80; 1; 97].
Definition ex_trail : list Z := [1; 8; 0; 0; 35; 120; 45; 121; 1; 122].
Definition ex_ops : list rop :=
  [RRecv (ex_head ++ [0; 2; 104]) false; RRecv [105; 33] false; RRecv [1; 7] false; RRecv ex_trail true].
Definition ex_ops1 : list rop := [RRecv (ex_head ++ [0; 2; 104; 105; 33; 1; 7] ++ ex_trail) true].
Definition view (r : xres) := match r with XOk x e => Some (callbacks e, x_ret x, x_def x, inbytes (x_inq x)) | _ => None end.
Lemma ex_reach : reachable_dec ex_d. Proof. exists 4096, 16. split; [lia|constructor]. Qed.
Ltac byt := repeat constructor; unfold is_byte; lia.
Example C23_ex : env_of (Server false ex_sf) ex_sf ex_E /\ envs_ok (Server false ex_sf) ex_sf ex_ops /\ bytes (received ex_ops) /\
  hist_ok ex_E (rx_init 0 http_init ex_d) ex_ops /\
  In BvEndStream (evs_of (x_run false ex_E (rx_init 0 http_init ex_d) ex_ops)).
Proof. split; [repeat split|]. split; [repeat constructor|]. split; [byt|]. split; [vm_compute; auto 12|]. vm_compute. tauto. Qed.
(* after the request head, a second HEADERS frame is allowed, SETTINGS is not *)
Example C23_ex_order : exists x evs, x_run false ex_E (rx_init 0 http_init ex_d) [RRecv ex_head false] = XOk x evs /\ at_boundary x /\
  recv false ex_E x [4; 0] false = XErr ERR_H3_FRAME_UNEXPECTED [] /\
  (exists x', recv false ex_E x [1; 5] false = XOk x' [BvFrame 1 5; BvBeginTrailers]).
Proof. eexists. eexists. split; [vm_compute; reflexivity|]. split; [repeat split|]. split; [vm_compute; reflexivity|]. eexists. vm_compute. reflexivity. Qed.
Example C24_ex : recut ex_ops ex_ops1.
Proof.
  unfold ex_ops, ex_ops1. eapply rc_trans; [apply rc_cut|]. eapply rc_trans; [apply rc_cut|]. eapply rc_trans; [apply rc_cut|]. apply rc_refl.
Qed.
(* a section that refers to an entry the encoder stream has not delivered yet: its bytes are
   held, then reported through deferred_consume *)
Definition ex_blocked : list Z := [1; 9; 2; 0; 209; 215; 193; 80; 1; 97; 128].
Definition ex_enc : list Z := [63; 225; 31; 67; 120; 45; 121; 1; 122].
Definition ex_d2 : dec := fst (read_encoder ex_d ex_enc).
Example C25_ex : dec_evolves ex_d ex_d2 /\
  view (x_run false ex_E (rx_init 0 http_init ex_d) [RRecv (ex_blocked ++ [0; 1; 7]) true]) =
    Some ([BvBeginHeaders], 4, 0, [209; 215; 193; 80; 1; 97; 128; 0; 1; 7]) /\
  exists cbs, view (x_run false ex_E (rx_init 0 http_init ex_d) [RRecv (ex_blocked ++ [0; 1; 7]) true; ROther ex_E ex_d2]) =
    Some (cbs, 4, 9, []) /\ delivered cbs = [7].
Proof.
  split; [|split; [vm_compute; reflexivity|eexists; split; vm_compute; reflexivity]].
  apply de_encoder_stream with (d1 := ex_d2) (src := ex_enc) (n := 9); [byt|vm_compute; reflexivity|constructor].
Qed.
(* C23_end_reported cannot promise that such a frame is still waiting for the encoder stream: a
   stream that blocks and then ends with nothing behind the bytes already processed is unblocked
   later without any report: no end_stream, no reset, no error, and nothing left to wait for *)
Definition ex_trunc : list rop := [RRecv [1; 9; 2; 0] false; RRecv [] true; ROther ex_E ex_d2].
Lemma hist_cons E x o ops : rop_ok E x o -> (forall E' x' e, x_step false E x o = (E', XOk x' e) -> hist_ok E' x' ops) -> hist_ok E x (o :: ops).
Proof. intros O H. split; [exact O|]. destruct (x_step false E x o) as [E' [x' e| | |]]; auto. eapply H. reflexivity. Qed.
Definition next_x (x : rx) (o : rop) : rx := match x_step false ex_E x o with (_, XOk x' _) => x' | _ => x end.
Lemma next_eq x o E' x' e : x_step false ex_E x o = (E', XOk x' e) -> x' = next_x x o.
Proof. intros H. unfold next_x. rewrite H. reflexivity. Qed.
Lemma ex_trunc_ok : hist_ok ex_E (rx_init 0 http_init ex_d) ex_trunc.
Proof.
  apply hist_cons; [exact Logic.I|]. intros E1 x1 e1 H1. assert (E1 = ex_E) as -> by (cbn [x_step] in H1; congruence). apply next_eq in H1.
  apply hist_cons; [exact Logic.I|]. intros E2 x2 e2 H2. assert (E2 = ex_E) as -> by (cbn [x_step] in H2; congruence). apply next_eq in H2.
  apply hist_cons; [|intros; exact Logic.I]. assert (K : b_dec (x_st x2) = ex_d) by (subst; vm_compute; reflexivity).
  cbn [rop_ok]. rewrite K. split; [repeat split|].
  apply de_encoder_stream with (d1 := ex_d2) (src := ex_enc) (n := 9); [byt|vm_compute; reflexivity|constructor].
Qed.
Theorem C23_truncation_refuted : ~ forall r sf E id d ops x evs, env_of r sf E -> envs_ok r sf ops -> reachable_dec d -> 0 <= id < 2 ^ 62 ->
  bytes (received ops) -> hist_ok E (rx_init id (http_of r) d) ops -> fin_last ops ->
  x_run false E (rx_init id (http_of r) d) ops = XOk x evs -> x_eof x = true -> x_shut x = false ->
  In BvEndStream evs \/ In (BvResetStream 270) evs \/ b_blk (x_st x) = true.
Proof.
  intros F. assert (X : exists x evs, x_run false ex_E (rx_init 0 http_init ex_d) ex_trunc = XOk x evs /\ x_eof x = true /\ x_shut x = false /\ b_blk (x_st x) = false /\ evs = [BvFrame 1 9; BvBeginHeaders]).
  { eexists. eexists. split; [vm_compute; reflexivity|]. repeat split; vm_compute; reflexivity. }
  destruct X as (x & evs & R & X1 & X2 & X3 & ->).
  assert (K : In BvEndStream [BvFrame 1 9; BvBeginHeaders] \/ In (BvResetStream 270) [BvFrame 1 9; BvBeginHeaders] \/ b_blk (x_st x) = true).
  { refine (F (Server false ex_sf) ex_sf ex_E 0 ex_d ex_trunc x _ _ _ ex_reach _ _ _ _ R X1 X2).
    - repeat split. - repeat constructor. - lia. - byt.
    - exact ex_trunc_ok.
    - unfold ex_trunc. split; [discriminate|]. split; [intros _; constructor; [exact Logic.I|constructor]|exact Logic.I]. }
  rewrite X3 in K. cbn in K. intuition discriminate.
Qed.
Example C23_ex_end : fin_last ex_ops /\ exists x evs, x_run false ex_E (rx_init 0 http_init ex_d) ex_ops = XOk x evs /\ x_eof x = true /\ x_shut x = false.
Proof. split; [cbn; repeat split; auto; try discriminate; intros _; constructor|]. eexists. eexists. split; [vm_compute; reflexivity|]. split; vm_compute; reflexivity. Qed.
Print Assumptions C23_end_reported.
Print Assumptions C23_truncation_refuted.
Print Assumptions C23_trace.
Print Assumptions C23_message.
Print Assumptions C23_order_enforced.
Print Assumptions C24_cut_independent.
Print Assumptions C25_accounting.
