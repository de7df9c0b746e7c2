(* C43 and C35 at the level of the API: what nghttp3_conn_writev_stream offers.  Statements; proofs in ConnSched.v,
   ConnOffer.v.  [history K h c] (ConnHist.v): the calls h, none of which failed, lead from a new connection to c.
   [tidy h]: the application submits responses on request streams only, and nothing schedules a stream that is closed
   but still kept because its header section waits for the QPACK encoder (C43_untidy_refuted: without it the library
   uses a deleted stream).  [offers id x]: call x offers bytes, or the end, of stream id *)
From Verif Require Import Base BaseLemmas ConvModel QpackTabModel QpackDecModel HttpModel BidiModel BidiHist ControlModel GapModel PqModel TxModel SchedModel ConnModel SchedProofs ConnStep ConnWf ConnDecomp ConnHist ConnDemo ConnShut ConnSched ConnOffer.
Open Scope Z_scope.

(* C43.  [shuts true id x]: the call is nghttp3_conn_block_stream, [shuts false id x]: nghttp3_conn_shutdown_stream_write *)
(* a request stream blocked or shut for writing is not offered, until a call or a signal of the peer that schedules it:
   unblock, resume, a submission, a report of written bytes, or a change of its priority *)
Theorem C43_request_stream : forall K h x g c b id, history K (h ++ x :: g) c -> tidy (h ++ x :: g) -> client_bidi id = true -> shuts b id x ->
  (forall y, In y g -> ~ stirs id y) -> forall y, In y g -> ~ offers id y.
Proof. exact blocked_not_offered. Qed.
(* if no frame of it is waiting, only an unblock or a submission can bring it back *)
Theorem C43_request_stream_no_frames : forall K h x g c b id, history K (h ++ x :: g) c -> tidy (h ++ x :: g) -> client_bidi id = true -> shuts b id x ->
  (forall s, find_stream (c_post x) id = Some s -> t_frq (st_t s) = []) ->
  (forall y, In y g -> ~ submits id y /\ (b = true -> ConnHist.c_op y <> OUnblock id)) -> forall y, In y g -> ~ offers id y.
Proof. exact drained_not_offered. Qed.
(* the control, encoder and decoder stream: blocked, not before it is unblocked; shut for writing, never *)
Theorem C43_critical_stream : forall K h x g c b id, history K (h ++ x :: g) c -> tidy (h ++ x :: g) -> local_uni K id = true -> is_open (c_post x) id = true -> shuts b id x ->
  (b = true -> forall y, In y g -> ConnHist.c_op y <> OUnblock id) -> forall y, In y g -> ~ offers id y.
Proof. exact uni_not_offered. Qed.

(* C35.  [ready c id]: an open request stream, neither blocked nor shut for writing, with bytes not yet written or with
   frames waiting that are not waiting for the data reader *)
Definition ready (c : conn) (id : Z) : Prop :=
  client_bidi id = true /\ exists s, find_stream c id = Some s /\ st_fc s = false /\ st_swr s = false /\ x_closed (st_x s) = false /\
    (write_done (st_t s) = false \/ (t_frq (st_t s) <> [] /\ t_rdblk (st_t s) = false)).
Lemma ready_sched c id : SI (fun _ => False) c -> ready c id -> sched (k_sch c) id = true.
Proof.
  intros (_ & _ & S) (B & s & F & Fc & Sw & Cl & R). destruct (S id s F B Fc Sw Cl) as [H|[]]; [|exact H].
  unfold require. rewrite Fc, Sw. destruct R as [->|[R ->]]; [reflexivity|]. destruct (t_frq (st_t s)); [congruence|]. cbn. apply orb_true_r.
Qed.
(* before the call c0: the request stream offered is at least as urgent as every other ready one *)
Theorem C35_offered_is_most_urgent : forall K h x c0 c id, history K (h ++ [x]) c -> tidy (h ++ [x]) -> history K h c0 -> client_bidi id = true -> offers id x ->
  exists p, get_priority c0 id = Ok p /\ forall j, ready c0 j -> exists q, get_priority c0 j = Ok q /\ p_urg p <= p_urg q.
Proof.
  intros K h x c0 c id H T H0 B (vs & fin & O). destruct (h_last K h x c H) as (c1 & H1 & Ok1 & St & _).
  pose proof (hist_det K h c1 H1 c0 H0) as ->. 
  pose proof (h_wf _ _ _ H0) as W. destruct (hist_SI K h c0 H0 (tidy_app _ _ T)) as [Si _].
  destruct (offer_writev K c0 _ _ _ _ W Ok1 St id vs fin O) as [n E]. rewrite E in St. cbn [kstep] in St. unfold writev_call in St.
  destruct (writev_stream K c0 n) as [[c' r]|e|] eqn:Wr; [|discriminate|discriminate].
  pose proof (writev_shape K c0 n c' r W Si Wr) as Cs.
  assert (exists vs fin, r = Some (id, vs, fin)) as (vs' & fin' & Hr).
  { destruct r as [[[i v] f]|]; injection St as _ _ E'; rewrite <- E' in O; [|destruct O]. destruct O as [O|[]]. injection O as -> _ _. eauto. }
  assert (forall i, bound c0 i -> i <> id) as NB by (intros i Bi ->; exact (bidi_not_bound K c0 id W B Bi)).
  assert (get_next_tx (k_sch c0) = Ok (Some id)) as G.
  { clear St. revert Hr. destruct Cs as [? ?|i v f Bi ? ? ?|? ? ?|d1 d2 j i s v f sc ? ? Bi ? ? ? ?|d1 d2 j s t es s1 v f sc ? G ? ? ? ? ? ? ?]; intros Hr.
    - discriminate.
    - injection Hr as -> _ _. elim (NB _ Bi eq_refl).
    - discriminate.
    - injection Hr as -> _ _. elim (NB _ Bi eq_refl).
    - destruct (Nat.eqb (length v) 0 && negb f); [discriminate|]. injection Hr as -> _ _. exact G. }
  pose proof (get_next_ok (k_sch c0) (proj1 Si)) as N. rewrite G in N. destruct N as [N1 N2].
  assert (forall j, sched (k_sch c0) j = true -> get_priority c0 j = Ok (n_pri (sc_n (k_sch c0) j))) as GP.
  { intros j Sj. destruct Si as (_ & S & _). destruct (S j Sj) as (s & F & Bj & _). unfold get_priority. rewrite Bj, F. reflexivity. }
  exists (n_pri (sc_n (k_sch c0) id)). split; [apply GP, N1|]. intros j R. pose proof (ready_sched c0 j Si R) as Sj.
  exists (n_pri (sc_n (k_sch c0) j)). split; [apply GP, Sj|]. exact (N2 j Sj).
Qed.

(* A server with two open responses, the critical streams already written *)
Definition nva0 : list ConvModel.nv := [mknv [58; 115; 116; 97; 116; 117; 115] [50; 48; 48] 0].
Definition setup43 : list cop := [OBindControl 3; OBindQpack 7 11; OMaxClient 100; ORead 2 demo_ctl false; ORead 0 demo_req false; ORead 4 demo_req false;
  OResponse 0 nva0 true; OResponse 4 nva0 true; OWritev 4%nat; OAddWrite 3 17; OWritev 4%nat; OAddWrite 11 1; OWritev 4%nat; OAddWrite 7 1].
Definition offered (x : kcall) : list kev := filter (fun e => match e with KOffer _ _ _ => true | _ => false end) (c_evs x).
(* stream 0 is blocked: stream 4 is offered; stream 0 is offered once it is unblocked *)
Definition ops43 : list cop := setup43 ++ [OBlock 0; OWritev 4%nat; OAddWrite 4 11; OWritev 4%nat; OUnblock 0; OWritev 4%nat].
Example C43_applies : history (demo true) (demo_h true ops43) (demo_end true ops43) /\ tidy (demo_h true ops43) /\
  concat (map offered (skipn 14 (demo_h true ops43))) = [KOffer 4 [[1; 4; 0; 0; 209; 215; 0; 3]; [1; 2; 3]] true; KOffer 0 [[1; 4; 0; 0; 209; 215; 0; 3]; [1; 2; 3]] true] /\
  exists h x g, demo_h true ops43 = h ++ x :: g /\ shuts true 0 x /\ length g = 5%nat /\ forall y, In y (firstn 3 g) -> ~ stirs 0 y.
Proof.
  split; [apply demo_ok; vm_compute; reflexivity|]. split; [apply tidy_plain; vm_compute; reflexivity|]. split; [vm_compute; reflexivity|].
  destruct (skipn 14 (demo_h true ops43)) as [|x g] eqn:E; [vm_compute in E; discriminate E|].
  exists (firstn 14 (demo_h true ops43)), x, g. split; [rewrite <- E; symmetry; apply firstn_skipn|]. vm_compute in E. injection E as <- <-.
  split; [reflexivity|]. split; [reflexivity|]. intros y I.
  assert (forall z : kcall, (match ConnHist.c_op z with OWritev _ => true | OAddWrite 4 _ => true | _ => false end) = true -> (forall e, In e (c_evs z) -> match e with KControl _ | KStream _ _ => False | _ => True end) -> ~ stirs 0 z) as A.
  { intros z Hz He [M|[(p & M)|(p & M)]]; [|exact (He _ M)|exact (He _ M)]. destruct (ConnHist.c_op z); try discriminate; try contradiction. subst. discriminate. }
  cbn [firstn In] in I. destruct I as [<-|[<-|[<-|[]]]]; (apply A; [reflexivity|]); cbn [c_evs In]; intuition (subst; exact I || auto).
Qed.

(* a blocked control stream; a stream blocked after its frames were all handed out, resumed and re-prioritised *)
Definition ops43c : list cop := [OBindControl 3; OBindQpack 7 11; OBlock 3; OWritev 4%nat; OAddWrite 11 1; OWritev 4%nat; OAddWrite 7 1; OWritev 4%nat; OUnblock 3; OWritev 4%nat].
Definition ops43d : list cop := setup43 ++ [OWritev 4%nat; OBlock 0; OResume 0; ORead 2 (demo_pu 0) false; OWritev 4%nat; OAddWrite 4 11; OWritev 4%nat].
Example C43_applies_more : history (demo true) (demo_h true ops43c) (demo_end true ops43c) /\ tidy (demo_h true ops43c) /\
  concat (map offered (demo_h true ops43c)) = [KOffer 11 [[3]] false; KOffer 7 [[2]] false; KOffer 3 [[0; 4; 14; 6; 255; 255; 255; 255; 255; 255; 255; 255; 1; 65; 0; 7; 4]] false] /\
  history (demo true) (demo_h true ops43d) (demo_end true ops43d) /\ tidy (demo_h true ops43d) /\
  match nth_error (demo_h true ops43d) 15 with Some x => shuts true 0 x /\ (forall s, find_stream (c_post x) 0 = Some s -> t_frq (st_t s) = []) | None => False end /\
  concat (map offered (skipn 15 (demo_h true ops43d))) = [KOffer 4 [[1; 4; 0; 0; 209; 215; 0; 3]; [1; 2; 3]] true].
Proof.
  split; [apply demo_ok; vm_compute; reflexivity|]. split; [apply tidy_plain; vm_compute; reflexivity|]. split; [vm_compute; reflexivity|].
  split; [apply demo_ok; vm_compute; reflexivity|]. split; [apply tidy_plain; vm_compute; reflexivity|]. split; [|vm_compute; reflexivity].
  destruct (nth_error (demo_h true ops43d) 15) as [x|] eqn:E; [|vm_compute in E; discriminate E]. vm_compute in E. injection E as <-.
  split; [reflexivity|]. intros s F. vm_compute in F. injection F as <-. reflexivity.
Qed.

(* Without "until something schedules it" and "no frames waiting" the claims are false: resuming a blocked stream
   brings it back, and so does the peer with a PRIORITY_UPDATE, even if the stream is shut for writing *)
Theorem C43_blocked_until_unblocked_refuted : exists K h x g y c id, history K (h ++ x :: g ++ [y]) c /\ tidy (h ++ x :: g ++ [y]) /\ client_bidi id = true /\ shuts true id x /\
  ~ In (OUnblock id) (ops_of (g ++ [y])) /\ (forall z, In z (g ++ [y]) -> ~ submits id z) /\ offers id y.
Proof.
  pose (ops := setup43 ++ [OBlock 0; OWritev 4%nat; OResume 0; OWritev 4%nat]).
  assert (history (demo true) (demo_h true ops) (demo_end true ops)) as H by (apply demo_ok; vm_compute; reflexivity).
  assert (tidy (demo_h true ops)) as T by (apply tidy_plain; vm_compute; reflexivity).
  destruct (skipn 14 (demo_h true ops)) as [|x [|g1 [|g2 [|y [|? ?]]]]] eqn:E; try (vm_compute in E; discriminate E).
  assert (demo_h true ops = firstn 14 (demo_h true ops) ++ x :: [g1; g2] ++ [y]) as D by (cbn [app]; rewrite <- E; symmetry; apply firstn_skipn).
  exists (demo true), (firstn 14 (demo_h true ops)), x, [g1; g2], y, (demo_end true ops), 0. rewrite <- D. split; [exact H|]. split; [exact T|].
  vm_compute in E. injection E as <- <- <- <-. split; [reflexivity|]. split; [reflexivity|]. split; [cbn; intuition discriminate|].
  split; [cbn [app In]; intros z [<-|[<-|[<-|[]]]]; cbn; auto|]. eexists _, _. left. reflexivity.
Qed.
Theorem C43_shut_never_offered_refuted : exists K h x g y c id, history K (h ++ x :: g ++ [y]) c /\ tidy (h ++ x :: g ++ [y]) /\ client_bidi id = true /\ shuts false id x /\
  (forall z, In z (g ++ [y]) -> match ConnHist.c_op z with OWritev _ | ORead _ _ _ => True | _ => False end) /\ offers id y.
Proof.
  pose (ops := setup43 ++ [OShutWrite 0; OWritev 4%nat; ORead 2 (demo_pu 0) false; OWritev 4%nat]).
  assert (history (demo true) (demo_h true ops) (demo_end true ops)) as H by (apply demo_ok; vm_compute; reflexivity).
  assert (tidy (demo_h true ops)) as T by (apply tidy_plain; vm_compute; reflexivity).
  destruct (skipn 14 (demo_h true ops)) as [|x [|g1 [|g2 [|y [|? ?]]]]] eqn:E; try (vm_compute in E; discriminate E).
  assert (demo_h true ops = firstn 14 (demo_h true ops) ++ x :: [g1; g2] ++ [y]) as D by (cbn [app]; rewrite <- E; symmetry; apply firstn_skipn).
  exists (demo true), (firstn 14 (demo_h true ops)), x, [g1; g2], y, (demo_end true ops), 0. rewrite <- D. split; [exact H|]. split; [exact T|].
  vm_compute in E. injection E as <- <- <- <-. split; [reflexivity|]. split; [reflexivity|]. split; [cbn [app In]; intros z [<-|[<-|[<-|[]]]]; cbn; auto|].
  eexists _, _. left. reflexivity.
Qed.
(* A stream closed while its trailers wait for the QPACK encoder is kept; a PRIORITY_UPDATE schedules it again, and when
   the encoder stream unblocks it, it is deleted while still in the queue.  The next nghttp3_conn_writev_stream uses it *)
Definition ops43b : list cop := setup43 ++ [ORead 0 [1; 3; 2; 0; 128] true; OClose 0 256; ORead 2 (demo_pu 0) false; ORead 6 [2; 63; 225; 1; 65; 97; 1; 98] false; OWritev 4%nat; OAddWrite 11 1].
Theorem C43_untidy_refuted : exists K h c, history K h c /\ find_stream c 0 = None /\ kstep K c (OWritev 4%nat) = KAbort.
Proof.
  exists (demo true), (demo_h true ops43b), (demo_end true ops43b). split; [apply demo_ok; vm_compute; reflexivity|]. split; vm_compute; reflexivity.
Qed.
(* C35: stream 0's reader has nothing yet; the call returns nothing although stream 4 is ready *)
Definition slow43 : Z -> txenv := fun id => if id =? 0 then mk_te (fun _ _ => Ok ([0; 0], [209; 215], [])) (fun k => RdErr ERR_WOULDBLOCK) else demo_tx id.
Definition demo_slow : kenv := mk_ke true demo_set demo_sf slow43 (fun _ src => Ok (zlen src)).
Definition ops35 : list cop := setup43 ++ [OWritev 4%nat; OAddWrite 0 6; OResume 0].
Theorem C35_nothing_offered_only_if_nothing_ready_refuted : exists K h c c', history K h c /\ tidy h /\ ready c 4 /\ kstep K c (OWritev 4%nat) = KOk c' 0 [].
Proof.
  destruct (kstep demo_slow (run_end demo_slow ops35) (OWritev 4%nat)) as [c' rv evs| |] eqn:S; [|vm_compute in S; discriminate S|vm_compute in S; discriminate S].
  exists demo_slow, (run_h demo_slow ops35), (run_end demo_slow ops35), c'. split; [apply run_ok; vm_compute; reflexivity|]. split; [apply tidy_plain; vm_compute; reflexivity|].
  split; [|rewrite S; vm_compute in S; injection S as _ <- <-; reflexivity].
  split; [reflexivity|]. destruct (find_stream (run_end demo_slow ops35) 4) as [s|] eqn:F; [|vm_compute in F; discriminate F]. exists s. split; [reflexivity|].
  vm_compute in F. injection F as <-. cbn. repeat split; auto. right. split; [discriminate|reflexivity].
Qed.
Definition ops35b : list cop := setup43 ++ [ORead 2 (demo_pu 4) false; OWritev 4%nat].
Example C35_offered_applies : history (demo true) (demo_h true ops35b) (demo_end true ops35b) /\ tidy (demo_h true ops35b) /\
  concat (map offered (skipn 14 (demo_h true ops35b))) = [KOffer 4 [[1; 4; 0; 0; 209; 215; 0; 3]; [1; 2; 3]] true] /\
  map (get_priority (demo_end true ops35b)) [0; 4] = [Ok (mk_pri 3 0); Ok (mk_pri 1 0)].
Proof. split; [apply demo_ok; vm_compute; reflexivity|]. split; [apply tidy_plain; vm_compute; reflexivity|]. split; vm_compute; reflexivity. Qed.
Print Assumptions C43_request_stream.
Print Assumptions C43_request_stream_no_frames.
Print Assumptions C43_critical_stream.
Print Assumptions C35_offered_is_most_urgent.
Print Assumptions C43_blocked_until_unblocked_refuted.
Print Assumptions C43_shut_never_offered_refuted.
Print Assumptions C43_untidy_refuted.
Print Assumptions C35_nothing_offered_only_if_nothing_ready_refuted.
