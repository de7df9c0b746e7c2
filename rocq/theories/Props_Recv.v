(* C23, C25 and C47 at the level of the connection: for every history of API calls with any interleaving of streams. *)
From Verif Require Import Base BaseLemmas Chunk ConvModel RdVarint QpackTabModel QpackDecModel QpackDecProofs QpackHistModel HttpModel HttpSpec
  BidiModel BidiHist BidiSpec BidiProofs BidiRun BidiAcct BidiDec TraceSpec TraceHttp TraceProofs ControlModel GapModel PqModel PqProofs TxModel SchedModel
  ConnModel ConnStep ConnWf ConnDecomp ConnHist RecvSpec RecvLog ConnRecv ConnRecvStep ConnRecvHist ConnLimit ConnDemo.
Open Scope Z_scope.

(* ---- C23 ---- *)
(* Whatever was called before, the next call o on any stream or none: the callbacks made for a request stream since it
   was opened, this call included, follow the grammar of TraceSpec.v, also when the call fails. *)
Theorem C23_api_trace : forall K h c o id, 0 <= s_cap (ke_set K) -> history K h c -> op_ok o -> client_bidi id = true ->
  match kstep K c o with
  | KOk _ _ evs | KDead _ evs =>
    exists st, leads (role_of K (request_of (life id h ++ [mk_call o 0 [] c]))) AtStart (all_shown id (life id h) ++ shown id evs) st
  | KAbort => True
  end.
Proof. intros. apply api_trace; auto. Qed.
(* when end_stream has been reported, the callbacks are those of one complete well-formed message *)
Theorem C23_api_message : forall K h c id, 0 <= s_cap (ke_set K) -> history K h c -> client_bidi id = true ->
  In BvEndStream (all_shown id (life id h)) ->
  exists infos hs bd ts, message (role_of K (request_of (life id h))) infos hs bd ts /\ callbacks (all_shown id (life id h)) = message_events infos hs bd ts.
Proof. intros. apply api_message with (c := c); auto. Qed.
(* a stream that is not open, before and after the call, has no callbacks *)
Theorem C23_api_silent : forall K h c o c' rv evs id, 0 <= s_cap (ke_set K) -> history K h c -> op_ok o -> kstep K c o = KOk c' rv evs ->
  client_bidi id = true -> is_open c id = false -> is_open c' id = false -> shown id evs = [] /\ deferred_to id evs = 0.
Proof. intros. eapply api_silent; eauto. Qed.

(* ---- C25 ---- *)
(* what nghttp3_conn_read_stream returned, what deferred_consume reported and what was handed over as data never
   exceed the bytes received; the difference is held back for a stream that waits for the QPACK encoder *)
Theorem C25_api : forall K h c id, 0 <= s_cap (ke_set K) -> history K h c -> client_bidi id = true ->
  0 <= returned id (life id h) /\ 0 <= all_deferred id (life id h) /\ 0 <= held_back id (life id h) /\
  (held_back id (life id h) <> 0 -> exists n, waits_for c id n).
Proof. intros K h c id A B C. exact (api_accounting K A h c id B C). Qed.
(* and nothing is left when the stream is closed *)
Theorem C25_api_closed : forall K h c o c' rv evs id, 0 <= s_cap (ke_set K) -> history K h c -> op_ok o -> kstep K c o = KOk c' rv evs ->
  client_bidi id = true -> is_open c id = true -> is_open c' id = false -> held_back id (life id h ++ [mk_call o rv evs c']) = 0.
Proof. intros. eapply api_closed; eauto. Qed.

(* ---- C47 ---- *)
(* at most qpack_blocked_streams request streams wait at any time *)
Theorem C47_limit : forall K h c l, 0 <= TxModel.s_blk (ke_set K) -> history K h c -> NoDup l -> (forall id, In id l -> exists n, waits_for c id n) ->
  zlen l <= TxModel.s_blk (ke_set K).
Proof.
  intros K h c l B H ND A. rewrite <- (Z.max_r 0 (TxModel.s_blk (ke_set K)) B). apply (waiting_bound K h c l H ND). intros id Hi. destruct (A id Hi) as (n & s & F & BK & _). eauto.
Qed.
(* between two calls a stream waits only if the insertions it waits for have not all arrived *)
Theorem C47_waits : forall K h c id n, 0 <= s_cap (ke_set K) -> history K h c -> waits_for c id n -> inserted c < n.
Proof. intros. eapply api_waits; eauto. Qed.
(* while it waits, what it receives causes no callbacks, and it goes on waiting for the same insertions *)
Theorem C47_holds : forall K h c id n src fin c' rv evs, history K h c -> waits_for c id n -> kstep K c (ORead id src fin) = KOk c' rv evs ->
  evs = [] /\ waits_for c' id n.
Proof. intros. eapply api_holds; eauto. Qed.

(* ---- non-vacuity ---- *)
(* request 0 waits for the first insertion, its bytes are held back; the encoder stream 2 then delivers it *)
Definition ops47 : list cop := [ORead 0 [1; 6; 2; 0; 209; 215; 193; 128] true].
Definition ops47b : list cop := ops47 ++ [ORead 2 [2; 63; 225; 1; 192; 1; 97] false].
Example C47_applies : history (demo true) (demo_h true ops47) (demo_end true ops47) /\ waits_for (demo_end true ops47) 0 1 /\ inserted (demo_end true ops47) = 0 /\
  held_back 0 (life 0 (demo_h true ops47)) = 4 /\ all_shown 0 (life 0 (demo_h true ops47)) = [BvFrame 1 6; BvBeginHeaders].
Proof.
  split; [apply demo_ok; vm_compute; reflexivity|]. split; [eexists; split; [vm_compute; reflexivity|split; vm_compute; reflexivity]|]. repeat split; vm_compute; reflexivity.
Qed.
Example C23_api_applies : history (demo true) (demo_h true ops47b) (demo_end true ops47b) /\ In BvEndStream (all_shown 0 (life 0 (demo_h true ops47b))) /\
  held_back 0 (life 0 (demo_h true ops47b)) = 0 /\ returned 0 (life 0 (demo_h true ops47b)) = 4 /\ all_deferred 0 (life 0 (demo_h true ops47b)) = 4.
Proof. split; [apply demo_ok; vm_compute; reflexivity|]. split; [vm_compute; repeat (first [left; reflexivity|right])|]. repeat split; vm_compute; reflexivity. Qed.
Print Assumptions C23_api_trace.
Print Assumptions C23_api_message.
Print Assumptions C23_api_silent.
Print Assumptions C25_api.
Print Assumptions C25_api_closed.
Print Assumptions C47_limit.
Print Assumptions C47_waits.
Print Assumptions C47_holds.
