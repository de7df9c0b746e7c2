(* C31-C34 and C48: what a connection sends, for every history of API calls (SendSpec.v).  Statements; proofs in SendApi.v *)
From Verif Require Import Base BaseLemmas ConvModel ConvSpec QpackTabModel QpackDecModel ControlModel TxModel TxSpec ConnModel ConnDecomp ConnHist ConnDemo SendSpec ConnTx SendApi SendDemo.
Open Scope Z_scope.

Lemma open_find c id : is_open c id = true -> exists s, find_stream c id = Some s.
Proof. unfold is_open. destruct (find_stream c id); [eauto|discriminate]. Qed.

(* C31: for every open stream there is one string of bytes such that everything offered to the transport since the stream
   was opened was its bytes from the point the transport had reached; the string begins with the type of the stream if the
   endpoint opened it as a unidirectional stream *)
Theorem C31_api_bytes : forall K h c id, env_fine K -> history K h c -> sending_ok K h -> is_open c id = true ->
  exists w, offered_from w (slog K id h) /\ (forall n, stype id h = Some n -> exists w', w = n :: w') /\
    0 <= l_acked (tled (slog K id h)) <= l_sent (tled (slog K id h)) /\ l_sent (tled (slog K id h)) <= l_hi (tled (slog K id h)) <= zlen w.
Proof.
  intros K h c id EF H S O. destruct (open_find _ _ O) as (s & F). destruct (hist_sends K EF h c id s H S F) as (wt & rest & op & j & D). exists (untag wt).
  split; [apply D|]. split; [apply D|]. destruct (sd_led _ _ _ _ _ _ _ _ D) as [A B]. unfold untag, zlen in *. rewrite map_length. auto.
Qed.
(* C32: acked_stream_data reported, in all, the reader's bytes among those acknowledged *)
Theorem C32_api_acks : forall K h c id, env_fine K -> history K h c -> sending_ok K h -> is_open c id = true ->
  exists wt j, offered_from (untag wt) (slog K id h) /\ l_hi (tled (slog K id h)) <= zlen wt /\ app_data wt = read_bytes (ke_tx K id) j /\
    treported (slog K id h) = app_bytes (upto (l_acked (tled (slog K id h))) wt).
Proof.
  intros K h c id EF H S O. destruct (open_find _ _ O) as (s & F). destruct (hist_sends K EF h c id s H S F) as (wt & rest & op & j & D). exists wt, j.
  split; [apply D|]. split; [apply D|]. split; apply D.
Qed.
(* and the stream holds every byte not acknowledged, and nothing once all are *)
Theorem C32_api_memory : forall K h c id s, env_fine K -> history K h c -> sending_ok K h -> find_stream c id = Some s ->
  exists w base, offered_from w (slog K id h) /\ l_hi (tled (slog K id h)) <= zlen w /\ 0 <= base <= l_acked (tled (slog K id h)) /\ held (st_t s) = Some (from base w) /\
    (l_acked (tled (slog K id h)) = zlen w -> t_chunks (st_t s) = [] /\ held (st_t s) = Some []).
Proof.
  intros K h c id s EF H S F. destruct (hist_sends K EF h c id s H S F) as (wt & rest & op & j & D). destruct (sd_held _ _ _ _ _ _ _ _ D) as (base & B & HD). exists (untag wt), base.
  assert (zlen (untag wt) = zlen wt) as ZL by (unfold untag, zlen; rewrite map_length; reflexivity). rewrite ZL. split; [apply D|]. split; [apply D|]. split; [exact B|]. split; [exact HD|apply D].
Qed.
(* C33: fin on a request stream: these bytes are the last ones of all the frames submitted, every reader has ended, and the
   caller or a reader said that nothing follows *)
Theorem C33_api_fin : forall K h c id pre vs post, env_fine K -> history K h c -> sending_ok K h -> is_open c id = true -> stype id h = None ->
  slog K id h = pre ++ TOffer vs true :: post -> Forall (fun e => ~ adds_frames e) post ->
  exists w j, carries (ke_tx K id) None (slog K id h) w [] false j /\ offered_from w (slog K id h) /\ from (l_sent (tled pre)) w = concat vs /\ ended (ke_tx K id) (slog K id h) j.
Proof.
  intros K h c id pre vs post EF H S O T E P. destruct (open_find _ _ O) as (s & F). destruct (hist_sends K EF h c id s H S F) as (wt & rest & op & j & D). rewrite T in D.
  destruct (sd_fin _ _ _ _ _ _ _ _ D (or_introl eq_refl) pre vs post E P) as (A & -> & -> & B). exists (untag wt), j. split; [apply D; auto|]. split; [apply D|]. auto.
Qed.
(* ... and conversely: what nghttp3_conn_writev_stream just offered, and when it sets fin *)
Theorem C33_api_offer : forall K h c id n rv evs vs fin, env_fine K -> history K (h ++ [mk_call (OWritev n) rv evs c]) c -> sending_ok K (h ++ [mk_call (OWritev n) rv evs c]) ->
  In (KOffer id vs fin) evs -> stype id (h ++ [mk_call (OWritev n) rv evs c]) = None ->
  let log := slog K id (h ++ [mk_call (OWritev n) rv evs c]) in
  exists w rest open j more, carries (ke_tx K id) None log w rest open j /\ from (l_sent (tled log)) w = concat vs ++ more /\ rv = zlen vs /\
    (length vs <= n)%nat /\ (more <> [] -> length vs = n) /\ Forall (fun v => v <> []) vs /\
    (fin = true <-> more = [] /\ rest = [] /\ open = false /\ ended (ke_tx K id) log j).
Proof.
  intros K h c id n rv evs vs fin EF H S I T log. destruct (hist_offer K EF h n rv evs c id vs fin H S I) as (N & s & F & WV & _ & _ & RV). destruct (hist_sends K EF _ c id s H S F) as (wt & rest & op & j & D). rewrite T in D.
  destruct (sd_next _ _ _ _ _ _ _ _ D n vs fin N WV) as (more & A & B & C1 & C2 & C3). exists (untag wt), rest, op, j, more. split; [apply D; auto|]. split; [exact A|]. split; [exact RV|]. split; [exact B|]. split; [exact C1|]. split; [exact C2|]. apply C3. auto.
Qed.
(* ... the critical streams are never ended *)
Theorem C33_api_critical_never : forall K h c id n pre vs fin post, env_fine K -> history K h c -> sending_ok K h -> stype id h = Some n ->
  slog K id h = pre ++ TOffer vs fin :: post -> fin = false.
Proof. intros K h c id n pre vs fin post EF H S T E. exact (hist_never_fin K EF h c id n H S T pre vs fin post E). Qed.
(* C34: what was offered on a request stream is a sequence of RFC 9114 frames: those submitted, in order, header sections as
   encoded, bodies as DATA frames that hold the reader's answers; [rest]: frames not yet turned into bytes *)
Theorem C34_api_frames : forall K h c id, env_fine K -> history K h c -> sending_ok K h -> is_open c id = true -> stype id h = None ->
  exists w rest open j, offered_from w (slog K id h) /\ l_hi (tled (slog K id h)) <= zlen w /\ carries (ke_tx K id) None (slog K id h) w rest open j.
Proof.
  intros K h c id EF H S O T. destruct (open_find _ _ O) as (s & F). destruct (hist_sends K EF h c id s H S F) as (wt & rest & op & j & D). rewrite T in D. exists (untag wt), rest, op, j.
  split; [apply D|]. split; [|apply D; auto]. replace (zlen (untag wt)) with (zlen wt) by (unfold untag, zlen; rewrite map_length; reflexivity). apply D.
Qed.
(* C48: the control stream: the type, one SETTINGS frame with the endpoint's settings, then one GOAWAY frame per call of
   nghttp3_conn_submit_shutdown_notice and nghttp3_conn_shutdown and one PRIORITY_UPDATE frame per call of
   nghttp3_conn_set_client_stream_priority, in the order of the calls *)
Theorem C48_control_stream : forall K h c id, env_fine K -> history K h c -> sending_ok K h -> stype id h = Some 0 ->
  exists w fs rest, offered_from (0 :: w) (slog K id h) /\ l_hi (tled (slog K id h)) <= zlen (0 :: w) /\ frames_of w fs /\
    exists l, FSettings (ke_set K) :: concat (map queued (tl (life id h))) = l ++ rest /\ Forall2 ctl_wire l (map fst fs).
Proof.
  intros K h c id EF H S T. destruct (stype_local K EF h c id 0 H S T) as (_ & _ & s & F). destruct (hist_sends K EF h c id s H S F) as (wt & rest & op & j & D). rewrite T in D.
  destruct (sd_frames _ _ _ _ _ _ _ _ D (or_intror eq_refl)) as (l & k & fs & w1 & SY & W & FR & SB). cbn [preamble app] in W.
  assert (zlen (untag wt) = zlen wt) as ZL by (unfold untag, zlen; rewrite map_length; reflexivity).
  exists w1, fs, rest. rewrite <- W, ZL. split; [apply D|]. split; [apply D|]. split; [exact FR|]. exists l. rewrite <- (hist_ctl_log K EF h c id H S T). split; [exact SB|].
  destruct (ctl_submitted _ (log_ctl K EF h c id 0 H S T)) as [FC _]. rewrite SB in FC. apply Forall_app in FC as [FC _]. apply (says_ctl _ _ _ _ _ _ SY FC).
Qed.
(* ... there is at most one, the one that was bound *)
Theorem C48_one_control_stream : forall K h c i j, env_fine K -> history K h c -> sending_ok K h -> stype i h = Some 0 -> stype j h = Some 0 -> i = j.
Proof. intros K h c i j EF H S T1 T2. apply (ConnSend2.hist_ctl K EF h c i H S) in T1. apply (ConnSend2.hist_ctl K EF h c j H S) in T2. congruence. Qed.
Print Assumptions C31_api_bytes.
Print Assumptions C32_api_acks.
Print Assumptions C32_api_memory.
Print Assumptions C33_api_fin.
Print Assumptions C33_api_offer.
Print Assumptions C33_api_critical_never.
Print Assumptions C34_api_frames.
Print Assumptions C48_control_stream.
Print Assumptions C48_one_control_stream.

(* a client that sends a request with a body (SendDemo.v) *)
Definition hs := run_h (send_k false) ops_send.
Definition cs := run_end (send_k false) ops_send.
Example C31_api_applies : env_fine (send_k false) /\ history (send_k false) hs cs /\ sending_ok (send_k false) hs /\ map (is_open cs) [0; 2; 6; 10] = [true; true; true; true] /\
  map (fun i => stype i hs) [0; 2; 6; 10] = [None; Some 0; Some 2; Some 3] /\
  slog (send_k false) 6 hs = [TOffer [[2]] false; TWritten 1; TOffer [[65; 97; 1; 98]] false; TWritten 4] /\
  slog (send_k false) 0 hs = [TSubmit [TxModel.FHeaders nva1; TxModel.FData] false; TOffer [[1; 4; 0; 0; 209; 215; 0; 5]] false; TWritten 4; TOffer [[209; 215; 0; 5]; [10; 11]; [12; 13; 14]] false;
    TWritten 6; TAck 9 [1]; TOffer [[12; 13; 14]] false; TWritten 3] ++ TOffer [[0; 2]; [20; 21]] true :: [TWritten 4; TAddAck 2 [1; 1]; TAck 17 [2; 2]] /\
  treported (slog (send_k false) 0 hs) = 7.
Proof.
  split; [apply send_fine|]. split; [apply run_ok; vm_compute; reflexivity|]. split; [apply sendb_ok; vm_compute; reflexivity|]. repeat split; vm_compute; reflexivity.
Qed.
Example C48_applies : (exists frs, submitted (slog (send_k false) 2 hs) = frs /\ frs = FSettings demo_set :: concat (map queued (tl (life 2 hs))) /\ tl frs = [FPrio 0 [117; 61; 49]; FGoaway 0]) /\
  exists x h', hs = h' ++ [x] ++ skipn 23 hs /\ ConnHist.c_op x = OWritev 8 /\ c_evs x = [KOffer 0 [[0; 2]; [20; 21]] true].
Proof.
  split; [eexists; split; [vm_compute; reflexivity|]; split; vm_compute; reflexivity|].
  destruct (skipn 22 hs) as [|x g] eqn:E; [vm_compute in E; discriminate E|]. exists x, (firstn 22 hs).
  assert (skipn 23 hs = g) as EG by (vm_compute in E; injection E as <- <-; vm_compute; reflexivity). rewrite EG. cbn [app]. rewrite <- E. split; [symmetry; apply firstn_skipn|]. vm_compute in E. injection E as <- <-. split; reflexivity.
Qed.
