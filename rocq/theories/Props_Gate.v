(* C60: what the queries about a stream answer (GateSpec.v) *)
From Verif Require Import Base BaseLemmas ConvModel ConvSpec QpackTabModel QpackDecModel HttpModel BidiModel BidiHist BidiSpec ControlModel GapModel TxModel ConnModel ConnStep ConnDecomp ConnHist ConnUni CloseSpec
  RecvSpec RfcStreamSpec MeanApi MeanListen Props_Uni Props_Recv GateSpec GateProofs GateLeft SendDemo ConnDemo.
Open Scope Z_scope.

(* nghttp3_conn_is_stream_writable: the stream exists, the application has neither paused it nor ended its writing
   side nor asked to close it, and the read_data callback has something to give as far as is known. *)
Theorem C60_writable : forall K h c id, history K h c -> client_bidi id = true ->
  (is_stream_writable c id = true <->
   is_open c id = true /\ paused id (life id h) = false /\ write_ended id (life id h) = false /\ starved K id (life id h) = false /\ asked id (life id h) = None).
Proof. exact writable_iff. Qed.
(* nghttp3_conn_get_frame_payload_left: of the bytes given for the stream all but the ones held back (C25: none unless the
   stream waits for the encoder stream) have been processed, and the answer is what those are short of the frame they end in. *)
Theorem C60_left : forall K h c id, 0 <= s_cap (ke_set K) -> history K h c -> client_bidi id = true -> is_open c id = true ->
  (forall x, In x (life id h) -> ConnHist.c_op x <> OShutRead id /\ forall code, ~ In (KStop id code) (c_evs x) /\ ~ In (KStream id (BvStopSending code)) (c_evs x)) ->
  exists a b, given id (life id h) = a ++ b /\ zlen b = held_back id (life id h) /\ in_frame a (frame_payload_left K c id).
Proof.
  intros K h c id A B C D F. destruct (api_left K A h c id B C D) as (a & b & X & Y & Z); [|exists a, b; auto].
  apply (api_listens K id C h c B D). intros x I. destruct (F x I) as [F1 F2]. split; [exact F1|]. intros (code & [Q|Q]); destruct (F2 code); contradiction.
Qed.
(* unless the stream waits for the encoder stream that is all the bytes *)
Theorem C60_left_all : forall K h c id, 0 <= s_cap (ke_set K) -> history K h c -> client_bidi id = true -> is_open c id = true ->
  (forall x, In x (life id h) -> ConnHist.c_op x <> OShutRead id /\ forall code, ~ In (KStop id code) (c_evs x) /\ ~ In (KStream id (BvStopSending code)) (c_evs x)) ->
  (forall n, ~ waits_for c id n) -> in_frame (given id (life id h)) (frame_payload_left K c id).
Proof.
  intros K h c id A B C D F G. destruct (C60_left K h c id A B C D F) as (a & b & X & Y & Z).
  destruct (C25_api K h c id A B C) as (_ & _ & _ & W). assert (held_back id (life id h) = 0) as E by (destruct (Z.eq_dec (held_back id (life id h)) 0) as [E|E]; [exact E|destruct (W E) as (n & Q); destruct (G n Q)]).
  destruct b as [|y b]; [rewrite app_nil_r in X; rewrite X; exact Z|]. rewrite zlen_cons in Y. pose proof (zlen_nonneg _ b). lia.
Qed.
(* there is only one such number *)
Theorem C60_left_meaning : forall l n m, in_frame l n -> in_frame l m -> n = m.
Proof. intros l n m A B. exact (in_frame_fun l n A m B). Qed.
(* and no stream the peer does not have (or a bidirectional one that does not exist) has anything left *)
Theorem C60_left_none : forall K h c id, history K h c -> is_open c id = false -> frame_payload_left K c id = 0 /\ is_stream_writable c id = false.
Proof.
  intros K h c id _ O. unfold frame_payload_left, is_stream_writable. unfold is_open in O. destruct (find_stream c id); [discriminate|]. split; [|reflexivity].
  destruct (client_bidi id); [reflexivity|]. destruct (if ke_server K then _ else _); reflexivity.
Qed.

(* ---- non-vacuity ---- *)
Definition quiet60 (x : kcall) : bool :=
  (match ConnHist.c_op x with OShutRead j => negb (j =? 0) | _ => true end) &&
  forallb (fun e => match e with KStop j _ | KStream j (BvStopSending _) => negb (j =? 0) | _ => true end) (c_evs x).
Lemma quiet60_ok x : quiet60 x = true -> ConnHist.c_op x <> OShutRead 0 /\ forall code, ~ In (KStop 0 code) (c_evs x) /\ ~ In (KStream 0 (BvStopSending code)) (c_evs x).
Proof.
  unfold quiet60. intros Q. apply andb_prop in Q as [Q1 Q2]. rewrite forallb_forall in Q2. split; [intros E; rewrite E in Q1; discriminate|]. intros code. split; intros I; apply Q2 in I; discriminate.
Qed.
(* a request and the first byte of a DATA frame of five; then a request of which four bytes of the header section have arrived *)
Definition ops60 : list cop := [ORead 0 (demo_req ++ [0; 5; 120]) false].
Definition ops60b : list cop := [ORead 0 [1; 8; 0; 0; 209] false].
Definition shows60 (ops : list cop) : option (bool * bool * bool * Z * list Z * Z) :=
  Some (forallb op_okb ops && match demo_run true ops with Some _ => true | None => false end, is_open (demo_end true ops) 0, forallb quiet60 (life 0 (demo_h true ops)),
        frame_payload_left (demo true) (demo_end true ops) 0, given 0 (life 0 (demo_h true ops)), held_back 0 (life 0 (demo_h true ops))).
Example C60_left_applies : shows60 ops60 = Some (true, true, true, 4, demo_req ++ [0; 5; 120], 0) /\ shows60 ops60b = Some (true, true, true, 5, [1; 8; 0; 0; 209], 0).
Proof. split; vm_compute; reflexivity. Qed.
Example C60_left_reached : history (demo true) (demo_h true ops60) (demo_end true ops60) /\ in_frame (demo_req ++ [0; 5; 120]) 4.
Proof.
  assert (history (demo true) (demo_h true ops60) (demo_end true ops60)) as H by (apply demo_ok; vm_compute; reflexivity). split; [exact H|].
  assert (is_open (demo_end true ops60) 0 = true) as O by (vm_compute; reflexivity).
  pose proof (C60_left_all (demo true) _ _ 0 ltac:(cbn; unfold max_varint; lia) H eq_refl O) as X.
  replace (demo_req ++ [0; 5; 120]) with (given 0 (life 0 (demo_h true ops60))) by (vm_compute; reflexivity).
  replace 4 with (frame_payload_left (demo true) (demo_end true ops60) 0) by (vm_compute; reflexivity). apply X.
  - intros x I. assert (forallb quiet60 (life 0 (demo_h true ops60)) = true) as Q by (vm_compute; reflexivity). rewrite forallb_forall in Q. apply quiet60_ok. apply Q. exact I.
  - intros n (s & F & B & _). assert ((match find_stream (demo_end true ops60) 0 with Some s => b_blk (x_st (st_x s)) | None => false end) = false) as W by (vm_compute; reflexivity). rewrite F, B in W. discriminate W.
Qed.
(* a client: writable, paused, unpaused, its reader has nothing, resumed, ended *)
Definition gate (ops : list cop) : option (bool * bool * bool * bool * bool) :=
  match trail (send_k false) (conn_init (send_k false)) ops with
  | Some (h, c) => Some (is_stream_writable c 0, is_open c 0, paused 0 (life 0 h), write_ended 0 (life 0 h), starved (send_k false) 0 (life 0 h))
  | None => None
  end.
Definition ops_gate : list cop :=
  [OBindControl 2; OBindQpack 6 10; ORequest 0 nva1 true; OClientPriority 0 [117; 61; 49]; OBlock 0; OUnblock 0; OWritev 4%nat; OAddWrite 2 17; OWritev 4%nat; OAddWrite 2 9; OWritev 4%nat; OAddWrite 10 1;
   OWritev 4%nat; OAddWrite 6 1; OWritev 4%nat; OAddWrite 6 4; OWritev 1%nat; OAddWrite 0 4; OWritev 8%nat; OAddWrite 0 6; OUpdateAck 0 9; OWritev 8%nat; OAddWrite 0 3; OWritev 8%nat; OResume 0; OShutWrite 0].
Example C60_writable_applies : map (fun n => gate (firstn n ops_gate)) [3; 5; 6; 17; 25; 26]%nat =
  [Some (true, true, false, false, false); Some (false, true, true, false, false); Some (true, true, false, false, false);
   Some (false, true, false, false, true); Some (true, true, false, false, false); Some (false, true, false, true, false)].
Proof. vm_compute. reflexivity. Qed.
Print Assumptions C60_writable.
Print Assumptions C60_left.
Print Assumptions C60_left_all.
Print Assumptions C60_left_meaning.
Print Assumptions C60_left_none.
