(* C42 and others: properties of histories of API calls on one connection.  [history K h c] (ConnHist.v): the calls h,
   none of which failed, lead from a new connection to c *)
From Verif Require Import Base BaseLemmas ConvModel QpackTabModel QpackDecModel HttpModel BidiModel BidiHist ControlModel GapModel PqModel TxModel SchedModel ConnModel ConnStep ConnWf ConnDecomp ConnHist ConnDemo ConnPri SchedProofs SchedWindow SchedFair.
Open Scope Z_scope.

(* C42.  An open request stream is one whose priority the API reports.  is_drained: shutdown was called, no request
   stream is open, everything of the local control stream (hence the GOAWAY) has been handed to the transport *)
Definition open_request (c : conn) (id : Z) : Prop := exists p, get_priority c id = Ok p.
Lemma open_request_iff c id : open_request c id <-> client_bidi id = true /\ find_stream c id <> None.
Proof.
  unfold open_request, get_priority. destruct (client_bidi id); cbn [negb].
  - destruct (find_stream c id); split; intros H; [split; congruence|eauto|destruct H; discriminate|destruct H; congruence].
  - split; intros [p H]; congruence.
Qed.
Theorem C42_drained : forall K h c, ke_server K = true -> history K h c ->
  is_drained c = true <-> In OShutdown (ops_of h) /\ (forall id, ~ open_request c id) /\ control_done c = true.
Proof.
  intros K h c S H. rewrite (drained_iff K h c S H). split; intros (A & B & C); repeat split; auto; intros id.
  - rewrite open_request_iff. intros [D E]. apply E, B, D.
  - intros D. destruct (find_stream c id) eqn:F; auto. elim (B id). apply open_request_iff. split; congruence.
Qed.
(* the number of open request streams, which decides whether the connection is drained, is exact *)
Theorem C42_count_exact : forall K h c, ke_server K = true -> history K h c ->
  exists l, NoDup l /\ (forall id, In id l <-> open_request c id) /\ k_num c = zlen l.
Proof.
  intros K h c S H. pose proof (h_wf _ _ _ H) as W. exists (filter client_bidi (keys c)). split; [apply NoDup_filter, (wf_nd _ _ W)|split].
  - intros id. rewrite filter_In, open_request_iff. unfold keys. rewrite <- find_in. tauto.
  - rewrite (wf_num _ _ W). apply nbidi_filter; auto.
Qed.
(* a drained connection is not closed to new request streams: one below the announced identifier is still taken *)
Definition ops42 : list cop := [OBindControl 3; OBindQpack 7 11; ORead 2 demo_ctl false; ORead 4 demo_req true; OClose 4 0; OShutdown; OWritev 4%nat; OAddWrite 3 20].
Example C42_drained_applies : history (demo true) (demo_h true ops42) (demo_end true ops42) /\ is_drained (demo_end true ops42) = true.
Proof. split; [apply demo_ok; vm_compute; reflexivity|vm_compute; reflexivity]. Qed.
Theorem C42_drained_accepts_none_refuted : exists K h c c' rv evs, ke_server K = true /\ history K h c /\ is_drained c = true /\
  kstep K c (ORead 0 demo_req true) = KOk c' rv evs /\ open_request c' 0 /\ In (KStream 0 BvEndHeaders) evs.
Proof.
  destruct (kstep (demo true) (demo_end true ops42) (ORead 0 demo_req true)) as [c' rv evs| |] eqn:S; [|vm_compute in S; discriminate S|vm_compute in S; discriminate S].
  exists (demo true), (demo_h true ops42), (demo_end true ops42), c', rv, evs. split; [reflexivity|]. split; [apply C42_drained_applies|]. split; [vm_compute; reflexivity|].
  split; [exact S|]. vm_compute in S. injection S as <- <- <-. split; [exists (mk_pri 3 0); vm_compute; reflexivity|]. repeat (first [left; reflexivity|right]).
Qed.
Print Assumptions C42_drained.
Print Assumptions C42_count_exact.
Print Assumptions C42_drained_accepts_none_refuted.

(* C40.  [signals id h]: what the calls since stream [id] was opened signalled about its priority, in order
   (nghttp3_conn_set_server_stream_priority, PRIORITY_UPDATE frames, priority header fields); [effective]: the last one set
   by the server, else the last update, else the header field, else urgency 3 and not incremental *)
Theorem C40_precedence : forall K h c id p, history K h c -> get_priority c id = Ok p -> p = effective (signals id h).
Proof. exact priority_of. Qed.
Theorem C40_valid : forall K h c id p, history K h c -> get_priority c id = Ok p -> 0 <= p_urg p <= 7 /\ (p_inc p = 0 \/ p_inc p = 1).
Proof.
  intros K h c id p H G. pose proof (hist_PV K h c H) as V. unfold get_priority in G. destruct (client_bidi id); [|discriminate]. cbn [negb] in G.
  destruct (find_stream c id) eqn:F; [|discriminate]. injection G as <-. specialize (V _ _ F). unfold pri_valid in V. lia.
Qed.
Definition req_pri : list Z := [1; 22; 0; 0; 209; 215; 193; 80; 1; 97; 39; 1; 112; 114; 105; 111; 114; 105; 116; 121; 3; 117; 61; 49].
Definition ops40 : list cop := [OBindControl 3; OMaxClient 100; ORead 2 demo_ctl false; ORead 0 req_pri false; ORead 4 req_pri false; ORead 8 demo_req false;
  ORead 2 (demo_pu 8) false; OServerPriority 0 (mk_pri 5 1); ORead 2 (demo_pu 0) false; ORead 12 demo_req false].
Example C40_applies : history (demo true) (demo_h true ops40) (demo_end true ops40) /\ map (get_priority (demo_end true ops40)) [0; 4; 8; 12] =
  [Ok (mk_pri 5 1); Ok (mk_pri 1 0); Ok (mk_pri 1 0); Ok (mk_pri 3 0)] /\
  map (fun id => signals id (demo_h true ops40)) [0; 4; 8; 12] = [[SHeader (mk_pri 1 0); SServer (mk_pri 5 1); SUpdate (mk_pri 1 0)]; [SHeader (mk_pri 1 0)]; [SUpdate (mk_pri 1 0)]; []].
Proof. split; [apply demo_ok; vm_compute; reflexivity|split; vm_compute; reflexivity]. Qed.
(* an update of a stream that is not yet open counts, unless too many gaps were left below it: then it is forgotten *)
Definition ops40b : list cop := OBindControl 3 :: OMaxClient 1000 :: ORead 2 demo_ctl false :: map (fun k => ORead (4 + 8 * Z.of_nat k) [] false) (seq 0 35) ++ [ORead 2 (demo_pu 0) false; ORead 0 demo_req false].
Theorem C40_update_before_open_refuted : exists K h c, history K h c /\ In (ORead 2 (demo_pu 0) false) (ops_of h) /\
  get_priority c 0 = Ok (mk_pri 3 0).
Proof.
  exists (demo true), (demo_h true ops40b), (demo_end true ops40b). split; [apply demo_ok; vm_compute; reflexivity|].
  split; [|vm_compute; reflexivity]. apply (in_map c_op (demo_h true ops40b) (nth 38%nat (demo_h true ops40b) (mk_call OShutdown 0 [] (conn_init (demo true))))).
  apply nth_In. vm_compute. repeat constructor.
Qed.
(* while without the gaps it is taken *)
Example C40_update_before_open : let ops := [OBindControl 3; OMaxClient 1000; ORead 2 demo_ctl false; ORead 2 (demo_pu 0) false; ORead 0 demo_req false] in
  history (demo true) (demo_h true ops) (demo_end true ops) /\ get_priority (demo_end true ops) 0 = Ok (mk_pri 1 0).
Proof. cbv zeta. split; [apply demo_ok; vm_compute; reflexivity|vm_compute; reflexivity]. Qed.
Print Assumptions C40_precedence.
Print Assumptions C40_valid.
Print Assumptions C40_update_before_open_refuted.
