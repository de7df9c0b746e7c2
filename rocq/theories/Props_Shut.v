(* C30: GOAWAY.  [goaways h]: the identifiers of the GOAWAY frames queued by the calls of h (nghttp3_conn_shutdown,
   nghttp3_conn_submit_shutdown_notice), in order; C30_frame says they are what the control stream is given *)
From Coq Require Import Sorted.
From Verif Require Import Base BaseLemmas ConvModel RdVarint QpackTabModel QpackDecModel HttpModel BidiModel BidiHist ControlModel GapModel PqModel PqProofs PqWeak TxModel SchedModel ConnModel ConnCtl ConnStep ConnRx ConnWf ConnDecomp ConnHist ConnRead ConnShut ConnDemo Props_Conn.
Open Scope Z_scope.

(* the calls queue exactly one frame, on the control stream *)
Theorem C30_frame : forall K h c o c' rv evs, history K h c -> o = ONotice \/ o = OShutdown -> kstep K c o = KOk c' rv evs ->
  exists g t s s', k_tctl c = Some t /\ find_stream c t = Some s /\ find_stream c' t = Some s' /\ t_frq (st_t s') = t_frq (st_t s) ++ [FGoaway g] /\
    goaways (h ++ [mk_call o rv evs c']) = goaways h ++ [g].
Proof.
  intros K h c o c' rv evs H O S. assert (G : is_goaway o = true) by (destruct O as [->| ->]; reflexivity).
  destruct (goaway_step _ _ _ _ _ _ G S) as (t & s & T & F & _ & _ & F' & _). exists (k_goaway c'), t, s. eexists. split; [auto|]. split; [auto|]. split; [exact F'|]. split; [reflexivity|].
  rewrite goaways_snoc. cbn [ConnHist.c_op c_post]. rewrite G. reflexivity.
Qed.
Theorem C30_never_increase : forall K h c, history K h c -> StronglySorted (fun a b => b <= a) (goaways h).
Proof. intros K h c H. apply Sorted_StronglySorted; [intros x y z; lia|]. apply (last_goaway K h c H). Qed.
(* the notice announces nothing but the largest identifier; shutdown of a server one above every request stream there
   has been so far (at most 2^62 - 4), of a client push identifier 0 *)
Theorem C30_notice_id : forall K h c c' rv evs, history K h c -> kstep K c ONotice = KOk c' rv evs ->
  goaways (h ++ [mk_call ONotice rv evs c']) = goaways h ++ [if ke_server K then 2 ^ 62 - 4 else 2 ^ 62 - 1].
Proof.
  intros K h c c' rv evs H S. destruct (goaway_step K c ONotice c' rv evs eq_refl S) as (t & s & _ & _ & _ & _ & _ & E & _).
  rewrite goaways_snoc. cbn [ConnHist.c_op c_post is_goaway]. rewrite E. unfold notice_id. destruct (ke_server K); reflexivity.
Qed.
Theorem C30_shutdown_id : forall K h c c' rv evs, history K h c -> kstep K c OShutdown = KOk c' rv evs -> exists g, goaways (h ++ [mk_call OShutdown rv evs c']) = goaways h ++ [g] /\
  (ke_server K = false -> g = 0) /\
  (ke_server K = true -> g <= 2 ^ 62 - 4 /\ (g = 2 ^ 62 - 4 \/ forall x id, In x h -> open_request (c_post x) id -> id + 4 <= g)).
Proof.
  intros K h c c' rv evs H S. destruct (goaway_step K c OShutdown c' rv evs eq_refl S) as (t & s & _ & _ & _ & _ & _ & E & _). exists (k_goaway c').
  rewrite goaways_snoc. cbn [ConnHist.c_op c_post is_goaway]. split; [reflexivity|]. unfold shutdown_id in E. split; intros SV; rewrite SV in E; [exact E|].
  split; [lia|]. destruct (Z.le_gt_cases (2 ^ 62 - 4) (k_maxid c + 4)); [left; lia|right]. intros x id I OR. apply open_request_iff in OR as [CB F].
  assert (SB : is_server_bidi K id = true) by (unfold is_server_bidi; rewrite SV, CB; auto). pose proof (proj2 (hist_below K h c H) x id I SB F). lia.
Qed.
(* a stream opened by the peer at or above an identifier already announced never reaches the application; the transport
   is told to stop and reset it when it first appears *)
Theorem C30_refused : forall K h1 h2 c1 c g id, ke_server K = true -> history K h1 c1 -> history K (h1 ++ h2) c -> In g (goaways h1) -> g <= id -> client_bidi id = true ->
  ~ open_request c1 id -> forall x e, In x h2 -> ~ In (KStream id e) (c_evs x).
Proof.
  intros K h1 h2 c1 c g id SV H1 H G L CB NO x e I. destruct (last_goaway K h1 c1 H1) as (Q & LE & _).
  assert (R : refusing id c1).
  { split; [apply Q; intros E; rewrite E in G; destruct G|]. split; [specialize (LE g G); lia|]. intros s F. elim NO. apply open_request_iff. split; congruence. }
  apply (proj2 (hist_refusing K id SV CB h1 c1 H1 R (h1 ++ h2) c H h2 eq_refl) x I e).
Qed.
Theorem C30_first_read : forall K h c id src fin c' rv evs, ke_server K = true -> history K h c -> client_bidi id = true -> ~ open_request c id -> bytes src ->
  kstep K c (ORead id src fin) = KOk c' rv evs ->
  ((exists g, In g (goaways h) /\ g <= id) -> evs = [KStop id 267; KReset id 267]) /\
  ((forall g, In g (goaways h) -> id < g) -> forall code, ~ In (KStop id code) evs /\ ~ In (KReset id code) evs).
Proof.
  intros K h c id src fin c' rv evs SV H CB NO BY S. destruct (last_goaway K h c H) as (Q & LE & LA & _).
  assert (F : find_stream c id = None). { destruct (find_stream c id) eqn:E; auto. elim NO. apply open_request_iff. split; congruence. }
  pose proof (h_wf _ _ _ H) as W. cbn [kstep] in S. apply read_cases in S as [RG S].
  assert (NP : peer_uni K id <> true) by (intros P; pose proof (bidi_uni id CB); pose proof (peer_is_uni K id P); congruence).
  assert (OP : forall c0 s pre, opened K c id c0 s pre -> rejected c id = true /\ pre = [KStop id 267; KReset id 267] /\ quiet (st_x s) \/ rejected c id = false /\ pre = []).
  { intros c0 s pre O. inversion O as [s1 F1 _|r gg s1 F1 SB _ ES|F1 PU]; subst; [congruence| |congruence]. destruct (rejected c id); [left; repeat split; auto|right; auto]. }
  assert (EV : (rejected c id = true -> evs = [KStop id 267; KReset id 267]) /\ (rejected c id = false -> forall code, ~ In (KStop id code) evs /\ ~ In (KReset id code) evs)).
  { inversion S as [F1 PU _ _|c0 s pre O _ _|c0 s pre c2 rv2 ev2 O _ NE RR|c0 s c2 rv2 ev2 O PU _ _]; subst; try congruence.
    - destruct (OP _ _ _ O) as [(R & E & _)|(R & E)]; subst; split; try congruence. intros _ code. split; intros [].
    - unfold read_request_stream in RR. pose proof (recv_fact false (benv_of K c0 s) (rx_now c0 s) src fin) as RF. destruct (recv _ _ _ _ _) as [x' be| | |] eqn:RE; try discriminate.
      destruct (after_read _ _ _ _ _); try discriminate. injection RR as _ _ E2. subst ev2. destruct (OP _ _ _ O) as [(R & E & QU)|(R & E)]; subst pre; split; try congruence.
      + intros _. destruct RF as [_ RF]. assert (QN : quiet (rx_now c0 s)) by (destruct QU as (A1 & A2 & A3); repeat split; auto). destruct (RF QN) as [_ ->]. reflexivity.
      + intros _ code. cbn [app]. split; intros I; apply in_map_iff in I as (y & Y & _); discriminate. }
  split.
  - intros (g & G & L). apply (proj1 EV). unfold rejected. rewrite (proj2 Q) by (intros E; rewrite E in G; destruct G). specialize (LE g G). cbn. lia.
  - intros AB. apply (proj2 EV). unfold rejected. destruct (k_queued c) eqn:QD; [|reflexivity]. cbn. assert (N : goaways h <> []) by (apply Q; auto).
    apply Z.leb_gt. rewrite (LA N). apply AB. destruct (exists_last N) as (l & z & E). rewrite E, last_last. apply in_app_iff. right. left. reflexivity.
Qed.
(* until the first shutdown both calls succeed, once the control stream is bound *)
Theorem C30_first_succeeds : forall K h c t o, history K h c -> In (OBindControl t) (ops_of h) -> ~ In OShutdown (ops_of h) -> o = ONotice \/ o = OShutdown ->
  exists c', kstep K c o = KOk c' 0 [].
Proof.
  intros K h c t o H B N O. destruct (hist_bound K h c t H B) as (id & T). pose proof (h_wf _ _ _ H) as W. destruct (wf_tx _ _ W id (or_introl T)) as (_ & s & F & _).
  pose proof (hist_notice K h c H N) as LE.
  assert (Q : forall g cm, g <= notice_id K -> exists c', queue_goaway c g cm = KOk c' 0 []).
  { intros g cm L. unfold queue_goaway. rewrite T, F. destruct (Z.ltb_spec (k_goaway c) g); [lia|eauto]. }
  destruct O as [->| ->]; cbn [kstep]; unfold submit_shutdown_notice, shutdown; apply Q; unfold notice_id; destruct (ke_server K); [reflexivity|reflexivity| |vm_compute; discriminate].
  unfold NOTICE_STREAM_ID. change (2 ^ 62 - 4) with 4611686018427387900. lia.
Qed.
(* a request refused beyond a shutdown, one accepted below it *)
Definition ops30 : list cop := [OBindControl 3; OBindQpack 7 11; ONotice; ORead 2 demo_ctl false; ORead 4 demo_req false; OShutdown].
Definition ops30b : list cop := [ORead 12 demo_req false; ORead 0 demo_req false; ORead 12 [1; 2; 3] true].
Example C30_applies : history (demo true) (demo_h true ops30) (demo_end true ops30) /\ goaways (demo_h true ops30) = [2 ^ 62 - 4; 8] /\
  history (demo true) (demo_h true (ops30 ++ ops30b)) (demo_end true (ops30 ++ ops30b)) /\
  map (fun x => filter (fun e => match e with KStream _ BvEndHeaders | KStop _ _ | KReset _ _ => true | _ => false end) (c_evs x)) (skipn 6 (demo_h true (ops30 ++ ops30b))) =
    [[KStop 12 267; KReset 12 267]; [KStream 0 BvEndHeaders]; []].
Proof. split; [apply demo_ok; vm_compute; reflexivity|]. split; [vm_compute; reflexivity|]. split; [apply demo_ok; vm_compute; reflexivity|vm_compute; reflexivity]. Qed.
(* but not after it: an assertion fails when a stream was refused in between, or when a notice follows *)
Theorem C30_shutdown_again_refuted : exists K h c, ke_server K = true /\ history K h c /\ In (OBindControl 3) (ops_of h) /\ kstep K c OShutdown = KAbort.
Proof.
  exists (demo true), (demo_h true (ops30 ++ ops30b)), (demo_end true (ops30 ++ ops30b)). split; [reflexivity|]. split; [apply C30_applies|]. split; [vm_compute; left; reflexivity|vm_compute; reflexivity].
Qed.
Theorem C30_notice_after_shutdown_refuted : exists K h c, ke_server K = true /\ history K h c /\ In (OBindControl 3) (ops_of h) /\ kstep K c ONotice = KAbort.
Proof.
  exists (demo true), (demo_h true ops30), (demo_end true ops30). split; [reflexivity|]. split; [apply C30_applies|]. split; [vm_compute; left; reflexivity|vm_compute; reflexivity].
Qed.
Print Assumptions C30_frame.
Print Assumptions C30_never_increase.
Print Assumptions C30_notice_id.
Print Assumptions C30_shutdown_id.
Print Assumptions C30_refused.
Print Assumptions C30_first_read.
Print Assumptions C30_first_succeeds.
Print Assumptions C30_shutdown_again_refuted.
Print Assumptions C30_notice_after_shutdown_refuted.
