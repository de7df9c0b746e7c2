(* C26, C27, C29 and C44 at the level of the connection: the peer's control stream along every history of API calls,
   on any streams and in any order, the control stream's bytes arriving in any pieces *)
From Verif Require Import Base BaseLemmas ConvModel ConvSpec HttpModel HttpSpec TxModel ControlModel ControlSpec ControlTrace ConnModel ConnDecomp ConnHist ConnUni Props_Uni CtlApiSpec CtlApi CtlTold CtlDead CtlNext CtlCut CtlLeftApi RfcStreamSpec ConnDemo.
From Verif Require SendSpec SendDemo ConnSched SafeSpec SafeMain Props_Safe.
Open Scope Z_scope.

(* ---- C26 ---- *)
(* the callbacks made for control stream frames follow the grammar of ControlSpec.v *)
Theorem C26_api_trace : forall K h c, history K h c -> exists st, cleads (ke_server K) (Fresh, 2 ^ 62) (control_events h) st.
Proof. exact api_trace. Qed.
(* the first frame taken is SETTINGS, and there is no other *)
Theorem C26_api_settings_first : forall K h c, history K h c ->
  frames_of (control_events h) = [] \/ exists fs, frames_of (control_events h) = SETTINGS :: fs /\ ~ In SETTINGS fs.
Proof.
  intros K h c H. destruct (api_trace K h c H) as (st & C). apply leads_fresh in C as [->|(n & evs & -> & N & _)]; [left; reflexivity|right].
  eexists. split; [reflexivity|exact N].
Qed.
(* ... also together with the callbacks of a call that fails with a connection error, which is the last one *)
Theorem C26_api_failing : forall K h c o e evs, history K h c -> op_ok o -> kstep K c o = KDead e evs ->
  (exists st, cleads (ke_server K) (Fresh, 2 ^ 62) (control_events h ++ control_evs evs) st) /\
  (frames_of (control_events h ++ control_evs evs) = [] \/
   exists fs, frames_of (control_events h ++ control_evs evs) = SETTINGS :: fs /\ ~ In SETTINGS fs).
Proof.
  intros K h c o e evs H OK D. destruct (api_trace_dead K h c o e evs H OK D) as (st & C). split; [exists st; exact C|].
  apply leads_fresh in C as [->|(n & l & -> & N & _)]; [left; reflexivity|right]. eexists. split; [reflexivity|exact N].
Qed.
(* Without a control stream of the peer nothing has been called back *)
Theorem C26_api_none : forall K h c, history K h c -> (forall id, ~ peer_stream K h c id 0) -> control_events h = [].
Proof.
  intros K h c H N. destruct (k_copen c) eqn:O.
  - destruct (proj1 (flag_peer K h c H 0 (or_introl eq_refl)) O) as (id & PS). destruct (N id PS).
  - exact (proj2 (ct_new K (fun _ => True) c _ _ (hist_CT K (fun _ => True) h c H (fun _ _ _ _ _ => Logic.I)) O)).
Qed.
(* What the frames mean.  bs: the bytes received on the peer's control stream behind the stream type, read with the
   limit n of nghttp3_conn_set_max_client_streams_bidi; p: the first frame.  It is SETTINGS, its payload consists of valid
   entries, and they are applied: recv_settings reports exactly what it says, once, and the encoder gets the table capacity
   and number of blocked streams.  Behind it, for every series of complete frames (ctl_told, by the table of ControlSpec),
   the callbacks made are those of the table, in order; [behind] belongs to the bytes behind the series.  And no frame
   the table refuses has been passed over. *)
Theorem C26_api_meaning : forall K h c n bs p ty payload tl, history K h c -> limit_is K h n -> (ke_server K = true -> no_long_value (control_events h)) ->
  control_bytes K h c bs -> bs = p ++ tl -> rfc_frame p = Some (ty, payload, []) ->
  ty = SETTINGS /\
  exists l r first more, rfc_settings_payload payload l /\ Forall (entry_valid (ke_server K)) l /\ applied (ke_server K) l r /\
    control_events h = first ++ more /\
    recv_settings_of (control_events h) = [r] /\ enc_caps (control_events h) = (if rs_cap r =? 0 then [] else [rs_cap r]) /\
    enc_blocked (control_events h) = (if rs_blocked r =? 0 then [] else [Z.min 100 (rs_blocked r)]) /\
    shutdowns_of first = [] /\ (forall id p, ~ In (CvPriority id p) first) /\
    forall cbs g' n' rest, ctl_told (ke_server K) (parse_priority (ke_sf K) (mk_pri 3 0)) n (2 ^ 62) 0 tl cbs g' n' rest ->
      (exists behind, ctl_callbacks more = cbs ++ behind) /\
      forall q ty' payload' tl' e, rest = q ++ tl' -> rfc_frame q = Some (ty', payload', []) ->
        ctl_frame (ke_server K) (parse_priority (ke_sf K) (mk_pri 3 0)) n g' n' ty' payload' <> Some (CtlErr e).
Proof. exact api_told. Qed.
(* The next frame.  h: a history in which the bytes on the peer's control stream were a first frame p and a series of
   complete frames.  A call with a complete frame q that the table refuses, and any bytes behind it, fails with the error
   of the table, and without a callback *)
Theorem C26_api_refused : forall K h c n id p ty payload tl cbs g' n' q ty' payload' tl' e, history K h c -> limit_is K h n -> (ke_server K = true -> no_long_value (control_events h)) ->
  peer_stream K h c id 0 -> behind_type (heard id h) = p ++ tl -> rfc_frame p = Some (ty, payload, []) ->
  ctl_told (ke_server K) (parse_priority (ke_sf K) (mk_pri 3 0)) n (2 ^ 62) 0 tl cbs g' n' [] ->
  bytes (q ++ tl') -> rfc_frame q = Some (ty', payload', []) ->
  ctl_frame (ke_server K) (parse_priority (ke_sf K) (mk_pri 3 0)) (stream_limit h) g' n' ty' payload' = Some (CtlErr e) ->
  exists evs, kstep K c (ORead id (q ++ tl') false) = KDead e evs /\ ctl_callbacks (control_evs evs) = [].
Proof. exact api_refused. Qed.
(* ... the first frame must be SETTINGS: a call with another complete frame, and any bytes behind it, fails *)
Theorem C26_api_first_refused : forall K h c n id q ty payload tl, history K h c -> limit_is K h n ->
  peer_stream K h c id 0 -> behind_type (heard id h) = [] -> bytes (q ++ tl) -> rfc_frame q = Some (ty, payload, []) -> ty <> SETTINGS ->
  exists evs, kstep K c (ORead id (q ++ tl) false) = KDead ERR_H3_MISSING_SETTINGS evs /\ control_evs evs = [].
Proof. exact api_first_refused. Qed.
(* ... and a call with a frame q that the table accepts takes all of it and makes the callbacks of the table *)
Theorem C26_api_taken : forall K h c n id p ty payload tl cbs g' n' q ty' payload' cbs' g2 n2, history K h c -> limit_is K h n -> (ke_server K = true -> no_long_value (control_events h)) ->
  peer_stream K h c id 0 -> behind_type (heard id h) = p ++ tl -> rfc_frame p = Some (ty, payload, []) ->
  ctl_told (ke_server K) (parse_priority (ke_sf K) (mk_pri 3 0)) n (2 ^ 62) 0 tl cbs g' n' [] ->
  bytes q -> rfc_frame q = Some (ty', payload', []) ->
  ctl_frame (ke_server K) (parse_priority (ke_sf K) (mk_pri 3 0)) (stream_limit h) g' n' ty' payload' = Some (CtlOk cbs' g2 n2) ->
  match kstep K c (ORead id q false) with
  | KOk _ rv evs => rv = zlen q /\ ctl_callbacks (control_evs evs) = cbs'
  | KDead _ _ => False
  | KAbort => exists i pr, In (CvPriority i pr) cbs'
  end.
Proof. exact api_taken. Qed.
(* ... for certain, where C49 excludes a failed assertion *)
Theorem C26_api_taken_lawful : forall K h c n id p ty payload tl cbs g' n' q ty' payload' cbs' g2 n2,
  SendSpec.env_fine K -> (forall n src, ke_dec K n src <> Abort) -> SendSpec.sending_ok K h -> ConnSched.tidy h -> SafeSpec.lawful K h (ORead id q false) ->
  history K h c -> limit_is K h n -> (ke_server K = true -> no_long_value (control_events h)) ->
  peer_stream K h c id 0 -> behind_type (heard id h) = p ++ tl -> rfc_frame p = Some (ty, payload, []) ->
  ctl_told (ke_server K) (parse_priority (ke_sf K) (mk_pri 3 0)) n (2 ^ 62) 0 tl cbs g' n' [] ->
  bytes q -> rfc_frame q = Some (ty', payload', []) ->
  ctl_frame (ke_server K) (parse_priority (ke_sf K) (mk_pri 3 0)) (stream_limit h) g' n' ty' payload' = Some (CtlOk cbs' g2 n2) ->
  exists c' evs, kstep K c (ORead id q false) = KOk c' (zlen q) evs /\ ctl_callbacks (control_evs evs) = cbs'.
Proof.
  intros K h c n id p ty payload tl cbs g' n' q ty' payload' cbs' g2 n2 EF DEC SO TD LW H L NL PS BT FR T BQ FQ CF.
  pose proof (C26_api_taken K h c n id p ty payload tl cbs g' n' q ty' payload' cbs' g2 n2 H L NL PS BT FR T BQ FQ CF) as X.
  pose proof (SafeMain.safe K EF DEC h c (ORead id q false) H SO TD BQ I LW) as NA.
  destruct (kstep K c (ORead id q false)) as [c' rv evs| |]; [destruct X as [-> X]; exists c', evs; auto|destruct X|congruence].
Qed.

(* ... also when a part r of the refused frame q was received in earlier calls: the call with the bytes that complete q, and
   any bytes behind it, fails with the error of the table, and without a callback *)
Theorem C26_api_refused_cut : forall K h c id p ty payload tl cbs g' n' r src q ty' payload' tl' e, history K h c -> limit_is K h (stream_limit h) -> (ke_server K = true -> no_long_value (control_events h)) ->
  peer_stream K h c id 0 -> behind_type (heard id h) = p ++ tl -> rfc_frame p = Some (ty, payload, []) ->
  ctl_told (ke_server K) (parse_priority (ke_sf K) (mk_pri 3 0)) (stream_limit h) (2 ^ 62) 0 tl cbs g' n' r ->
  bytes src -> src <> [] -> r ++ src = q ++ tl' -> rfc_frame q = Some (ty', payload', []) ->
  ctl_frame (ke_server K) (parse_priority (ke_sf K) (mk_pri 3 0)) (stream_limit h) g' n' ty' payload' = Some (CtlErr e) ->
  match kstep K c (ORead id src false) with
  | KDead e' evs => e' = e /\ ctl_callbacks (control_evs evs) = []
  | KAbort => ke_server K = true
  | KOk _ _ _ => False
  end.
Proof. exact api_refused_cut. Qed.
(* ... for certain, where C49 excludes a failed assertion *)
Theorem C26_api_refused_cut_lawful : forall K h c id p ty payload tl cbs g' n' r src q ty' payload' tl' e,
  SendSpec.env_fine K -> (forall n src, ke_dec K n src <> Abort) -> SendSpec.sending_ok K h -> ConnSched.tidy h -> SafeSpec.lawful K h (ORead id src false) ->
  history K h c -> limit_is K h (stream_limit h) -> (ke_server K = true -> no_long_value (control_events h)) ->
  peer_stream K h c id 0 -> behind_type (heard id h) = p ++ tl -> rfc_frame p = Some (ty, payload, []) ->
  ctl_told (ke_server K) (parse_priority (ke_sf K) (mk_pri 3 0)) (stream_limit h) (2 ^ 62) 0 tl cbs g' n' r ->
  bytes src -> src <> [] -> r ++ src = q ++ tl' -> rfc_frame q = Some (ty', payload', []) ->
  ctl_frame (ke_server K) (parse_priority (ke_sf K) (mk_pri 3 0)) (stream_limit h) g' n' ty' payload' = Some (CtlErr e) ->
  exists evs, kstep K c (ORead id src false) = KDead e evs /\ ctl_callbacks (control_evs evs) = [].
Proof.
  intros K h c id p ty payload tl cbs g' n' r src q ty' payload' tl' e EF DEC SO TD LW H L NL PS BT FR T BS NS CUT FQ CF.
  pose proof (C26_api_refused_cut K h c id p ty payload tl cbs g' n' r src q ty' payload' tl' e H L NL PS BT FR T BS NS CUT FQ CF) as X.
  pose proof (SafeMain.safe K EF DEC h c (ORead id src false) H SO TD BS I LW) as NA.
  destruct (kstep K c (ORead id src false)) as [c' rv evs|e' evs|]; [destruct X|destruct X as [-> X]; exists evs; auto|congruence].
Qed.

(* ... the first frame, also when a part of it was received in earlier calls *)
Theorem C26_api_first_refused_cut : forall K h c id src q ty payload tl, history K h c -> limit_is K h (stream_limit h) -> (ke_server K = true -> no_long_value (control_events h)) ->
  peer_stream K h c id 0 -> bytes src -> src <> [] -> behind_type (heard id h) ++ src = q ++ tl -> rfc_frame q = Some (ty, payload, []) -> ty <> SETTINGS ->
  match kstep K c (ORead id src false) with
  | KDead e evs => e = ERR_H3_MISSING_SETTINGS /\ control_evs evs = []
  | KAbort => ke_server K = true
  | KOk _ _ _ => False
  end.
Proof. exact api_first_refused_cut. Qed.
Theorem C26_api_first_refused_cut_lawful : forall K h c id src q ty payload tl,
  SendSpec.env_fine K -> (forall n src, ke_dec K n src <> Abort) -> SendSpec.sending_ok K h -> ConnSched.tidy h -> SafeSpec.lawful K h (ORead id src false) ->
  history K h c -> limit_is K h (stream_limit h) -> (ke_server K = true -> no_long_value (control_events h)) ->
  peer_stream K h c id 0 -> bytes src -> src <> [] -> behind_type (heard id h) ++ src = q ++ tl -> rfc_frame q = Some (ty, payload, []) -> ty <> SETTINGS ->
  exists evs, kstep K c (ORead id src false) = KDead ERR_H3_MISSING_SETTINGS evs /\ control_evs evs = [].
Proof.
  intros K h c id src q ty payload tl EF DEC SO TD LW H L NL PS BS NS CUT FQ N.
  pose proof (C26_api_first_refused_cut K h c id src q ty payload tl H L NL PS BS NS CUT FQ N) as X.
  pose proof (SafeMain.safe K EF DEC h c (ORead id src false) H SO TD BS I LW) as NA.
  destruct (kstep K c (ORead id src false)) as [c' rv evs|e' evs|]; [destruct X|destruct X as [-> X]; exists evs; auto|congruence].
Qed.

(* When the bytes received on the peer's control stream are a first frame p and a series of complete frames, in any pieces
   and with any other calls between them, the shutdown callbacks made and the priorities taken over are exactly those of
   the table, in order *)
Theorem C26_api_callbacks : forall K h c n id p ty payload tl cbs g' n', history K h c -> limit_is K h n -> (ke_server K = true -> no_long_value (control_events h)) ->
  peer_stream K h c id 0 -> behind_type (heard id h) = p ++ tl -> rfc_frame p = Some (ty, payload, []) ->
  ctl_told (ke_server K) (parse_priority (ke_sf K) (mk_pri 3 0)) n (2 ^ 62) 0 tl cbs g' n' [] -> told_of (control_events h) = cbs.
Proof. exact api_whole. Qed.

(* ---- C27 ---- *)
(* A client: what was called back for the control stream depends only on the bytes received on it.  Two histories, of two
   connections, that differ in everything else: in the calls, in the other streams, in the pieces *)
Theorem C27_api_client : forall K1 h1 c1 K2 h2 c2 bs, history K1 h1 c1 -> history K2 h2 c2 -> ke_server K1 = false -> ke_server K2 = false ->
  control_bytes K1 h1 c1 bs -> control_bytes K2 h2 c2 bs -> ke_sf K1 = ke_sf K2 -> control_events h1 = control_events h2.
Proof.
  intros K1 h1 c1 K2 h2 c2 bs H1 H2 S1 S2 B1 B2 F.
  destruct (api_ideal K1 h1 c1 0 bs H1 (client_limit _ _ _ H1 S1) B1 ltac:(congruence)) as [_ R1].
  destruct (api_ideal K2 h2 c2 0 bs H2 (client_limit _ _ _ H2 S2) B2 ltac:(congruence)) as [_ R2].
  assert (env K1 0 = env K2 0) as EE by (unfold env; congruence). rewrite EE in R1. congruence.
Qed.
(* A server: the same, if the limit of client streams was set to the same number before the control stream, and no
   priority field value is longer than 8 bytes (C27_leftover_refuted) *)
Theorem C27_api_server : forall K1 h1 c1 K2 h2 c2 n bs, history K1 h1 c1 -> history K2 h2 c2 -> ke_server K1 = true -> ke_server K2 = true ->
  control_bytes K1 h1 c1 bs -> control_bytes K2 h2 c2 bs -> ke_sf K1 = ke_sf K2 -> limit_is K1 h1 n -> limit_is K2 h2 n ->
  no_long_value (control_events h1) -> no_long_value (control_events h2) -> control_events h1 = control_events h2.
Proof.
  intros K1 h1 c1 K2 h2 c2 n bs H1 H2 S1 S2 B1 B2 F L1 L2 N1 N2.
  destruct (api_ideal K1 h1 c1 n bs H1 L1 B1 (fun _ => N1)) as [_ R1]. destruct (api_ideal K2 h2 c2 n bs H2 L2 B2 (fun _ => N2)) as [_ R2].
  assert (env K1 n = env K2 n) as EE by (unfold env; congruence). rewrite EE in R1. congruence.
Qed.

(* ---- C29 ---- *)
(* the identifiers reported by the shutdown callback never increase *)
Theorem C29_api_nonincreasing : forall K h c, history K h c -> nonincreasing (2 ^ 62) (shutdowns_of (control_events h)).
Proof.
  intros K h c H. destruct (api_trace K h c H) as (st & C). apply leads_fresh in C as [->|(n & evs & -> & _ & N)]; [exact Logic.I|exact N].
Qed.
(* ... also in a call that fails *)
Theorem C29_api_failing : forall K h c o e evs, history K h c -> op_ok o -> kstep K c o = KDead e evs ->
  nonincreasing (2 ^ 62) (shutdowns_of (control_events h ++ control_evs evs)).
Proof.
  intros K h c o e evs H OK D. destruct (api_trace_dead K h c o e evs H OK D) as (st & C).
  apply leads_fresh in C as [->|(n & l & -> & _ & N)]; [exact Logic.I|exact N].
Qed.
(* any other identifier is refused: one greater than the last one taken, or, at a client, one that is not of a client's
   bidirectional stream *)
Theorem C29_api_refused : forall K h c n id p ty payload tl cbs g' n' q payload' tl' i, history K h c -> limit_is K h n -> (ke_server K = true -> no_long_value (control_events h)) ->
  peer_stream K h c id 0 -> behind_type (heard id h) = p ++ tl -> rfc_frame p = Some (ty, payload, []) ->
  ctl_told (ke_server K) (parse_priority (ke_sf K) (mk_pri 3 0)) n (2 ^ 62) 0 tl cbs g' n' [] ->
  bytes (q ++ tl') -> rfc_frame q = Some (GOAWAY, payload', []) -> rfc_varint payload' = Some (i, []) ->
  last (shutdowns_of cbs) (2 ^ 62) < i \/ (ke_server K = false /\ i mod 4 <> 0) ->
  exists evs, kstep K c (ORead id (q ++ tl') false) = KDead ERR_H3_ID_ERROR evs /\ ctl_callbacks (control_evs evs) = [].
Proof.
  intros K h c n id p ty payload tl cbs g' n' q payload' tl' i H L NL PS BT FR T BQ FQ V R.
  eapply (api_refused K h c n id p ty payload tl cbs g' n' q GOAWAY payload' tl' ERR_H3_ID_ERROR); eauto.
  rewrite <- (told_last _ _ _ _ _ _ _ _ _ _ T) in R. unfold ctl_frame. change ((GOAWAY =? SETTINGS) || existsb (Z.eqb GOAWAY) never_on_control) with false.
  change (GOAWAY =? PRIORITY_UPDATE_PUSH) with false. change (GOAWAY =? GOAWAY) with true. cbv iota. rewrite V. replace ((g' <? i) || (negb (ke_server K) && negb (i mod 4 =? 0))) with true; [reflexivity|].
  symmetry. destruct R as [R|[-> R]]; [apply Z.ltb_lt in R; rewrite R; reflexivity|]. apply Z.eqb_neq in R. rewrite R. apply orb_true_r.
Qed.

(* ---- C44 ---- *)
(* SETTINGS of the peer, in whatever pieces and between whatever calls they came: as soon as the first frame on the control
   stream is complete, its entries are valid and applied as the specification says, and stay so *)
Theorem C44_api_applied : forall K h c n bs p ty payload tl l, history K h c -> limit_is K h n -> (ke_server K = true -> no_long_value (control_events h)) ->
  control_bytes K h c bs -> bs = p ++ tl -> rfc_frame p = Some (ty, payload, []) -> rfc_settings_payload payload l ->
  Forall (entry_valid (ke_server K)) l /\ exists r, applied (ke_server K) l r /\ recv_settings_of (control_events h) = [r] /\
    enc_caps (control_events h) = (if rs_cap r =? 0 then [] else [rs_cap r]) /\ enc_blocked (control_events h) = (if rs_blocked r =? 0 then [] else [Z.min 100 (rs_blocked r)]).
Proof.
  intros K h c n bs p ty payload tl l H L NL CB E FR SP. destruct (api_told K h c n bs p ty payload tl H L NL CB E FR) as (_ & l' & r & first & more & F1 & F2 & F3 & F4 & F5 & F6 & F7 & _).
  assert (l' = l) as ->.
  { clear -F1 SP. revert l' F1. induction SP; intros l' H'; inversion H'; subst; auto; try discriminate. rewrite H in *. injection H1 as <- <-. rewrite H0 in *. injection H2 as <- <-. f_equal. auto. }
  split; [exact F2|]. exists r. auto.
Qed.

(* ---- C60 ---- *)
(* nghttp3_conn_get_frame_payload_left of the peer's control stream, on which complete frames (frames_then: SETTINGS first) and then
   the bytes r have been received: what is missing of the payload if r is a frame whose payload is not complete (GOAWAY and
   MAX_PUSH_ID: as long as the identifier is not), and 0 if not even the header of a frame is *)
Theorem C60_left_control : forall K h c n id r, history K h c -> limit_is K h n -> (ke_server K = true -> no_long_value (control_events h)) ->
  peer_stream K h c id 0 -> frames_then K n (behind_type (heard id h)) r ->
  (forall ty len p, frame_head r ty len p -> zlen p < len -> (ty = GOAWAY \/ ty = MAX_PUSH_ID -> rfc_varint p = None) -> frame_payload_left K c id = len - zlen p) /\
  ((forall ty len p, ~ frame_head r ty len p) -> frame_payload_left K c id = 0).
Proof. exact api_left_control. Qed.
(* GOAWAY is an exception: the frame is over, for nghttp3, with its identifier (the deviation of C26) *)
Definition ops_goaway : list cop := [ORead 2 [0; 4; 0; 7; 2; 3] false].
Theorem C60_left_goaway_refuted : ~ (forall K h c n id r, history K h c -> limit_is K h n -> (ke_server K = true -> no_long_value (control_events h)) ->
  peer_stream K h c id 0 -> frames_then K n (behind_type (heard id h)) r ->
  forall ty len p, frame_head r ty len p -> zlen p < len -> frame_payload_left K c id = len - zlen p).
Proof.
  intros C. assert (H : history (demo true) (demo_h true ops_goaway) (demo_end true ops_goaway)) by (apply demo_ok; vm_compute; reflexivity).
  assert (HD : heard 2 (demo_h true ops_goaway) = [0; 4; 0; 7; 2; 3]) by (vm_compute; reflexivity).
  specialize (C (demo true) (demo_h true ops_goaway) (demo_end true ops_goaway) 0 2 [7; 2; 3] H).
  assert (E : frame_payload_left (demo true) (demo_end true ops_goaway) 2 = 2 - zlen [3]).
  { apply (C) with (ty := GOAWAY).
    - intros [|y a] x b E _; [reflexivity|]. vm_compute in E. destruct a; discriminate E.
    - intros _. vm_compute. repeat constructor.
    - split; [reflexivity|split; [vm_compute; discriminate|rewrite HD; vm_compute; reflexivity]].
    - right. exists [4; 0], [], [7; 2; 3], [], (2 ^ 62), 0. rewrite HD. split; [vm_compute; reflexivity|]. split; [reflexivity|]. constructor.
    - exists [2; 3]. split; reflexivity.
    - reflexivity. }
  vm_compute in E. discriminate E.
Qed.

(* ---- non-vacuity ---- *)
(* SETTINGS, and then two of the four bytes of a PRIORITY_UPDATE frame; of the 8 bytes of a greased frame; of its header *)
Definition ops_left (l : list Z) : list cop := [ORead 2 [0; 4; 0] false; ORead 2 l false].
Example C60_left_control_applies : map (fun l => frame_payload_left (demo true) (demo_end true (ops_left l)) 2) [[128; 15; 7; 0; 4; 4; 117]; [64; 96; 8; 1; 2]; [64]] = [2; 6; 0].
Proof. vm_compute. reflexivity. Qed.
Example C60_left_control_reached : history (demo true) (demo_h true (ops_left [64; 96; 8; 1; 2])) (demo_end true (ops_left [64; 96; 8; 1; 2])) /\
  peer_stream (demo true) (demo_h true (ops_left [64; 96; 8; 1; 2])) (demo_end true (ops_left [64; 96; 8; 1; 2])) 2 0 /\
  frames_then (demo true) 0 (behind_type (heard 2 (demo_h true (ops_left [64; 96; 8; 1; 2])))) [64; 96; 8; 1; 2] /\ frame_head [64; 96; 8; 1; 2] 96 8 [1; 2].
Proof.
  assert (HD : heard 2 (demo_h true (ops_left [64; 96; 8; 1; 2])) = [0; 4; 0; 64; 96; 8; 1; 2]) by (vm_compute; reflexivity).
  split; [apply demo_ok; vm_compute; reflexivity|]. split; [split; [reflexivity|split; [vm_compute; discriminate|rewrite HD; vm_compute; reflexivity]]|]. split.
  - right. exists [4; 0], [], [64; 96; 8; 1; 2], [], (2 ^ 62), 0. rewrite HD. split; [vm_compute; reflexivity|]. split; [reflexivity|]. constructor.
  - exists [8; 1; 2]. split; reflexivity.
Qed.
(* a server's peer: empty SETTINGS and GOAWAY 3 (push) on stream 2, cut, with a request between the pieces, then
   PRIORITY_UPDATE of stream 4 with "u=1"; the limit of client streams was set to 10 *)
Definition ops_ctl : list cop :=
  [OMaxClient 10; ORead 2 [0; 4; 2; 6] false; ORead 0 demo_req true; ORead 2 [50; 7] false; ORead 2 [1; 3; 128; 15; 7; 0; 4; 4; 117; 61; 49] false].
Definition bs_ctl : list Z := [4; 2; 6; 50; 7; 1; 3; 128; 15; 7; 0; 4; 4; 117; 61; 49].
Example CtlApi_hist : history (demo true) (demo_h true ops_ctl) (demo_end true ops_ctl).
Proof. apply demo_ok; vm_compute; reflexivity. Qed.
Example CtlApi_bytes : control_bytes (demo true) (demo_h true ops_ctl) (demo_end true ops_ctl) bs_ctl.
Proof. left. exists 2. split; [split; [reflexivity|split; [vm_compute; discriminate|vm_compute; reflexivity]]|vm_compute; reflexivity]. Qed.
Example CtlApi_events : control_events (demo_h true ops_ctl) =
  [CvFrame 4 2; CvSettings (mk_rset 50 0 0 0 0); CvFrame 7 1; CvShutdown 3; CvFrame 984832 4; CvElem 4 3; CvPriority 4 (mk_pri 1 0)].
Proof. vm_compute. reflexivity. Qed.
Lemma limit_first K n rv evs c' h : Forall (fun x => match c_op x with OMaxClient _ => False | _ => True end) h -> limit_is K (mk_call (OMaxClient n) rv evs c' :: h) n.
Proof.
  intros F a x b E (id & _ & _ & T). destruct a as [|y a].
  - exfalso. injection E as <- _. change (mk_call (OMaxClient n) rv evs c' :: nil) with ([] ++ [mk_call (OMaxClient n) rv evs c']) in T. rewrite app_nil_l, (heard_snoc id []) in T. destruct (is_open _ id); discriminate T.
  - injection E as <- ->. unfold stream_limit. cbn [ops_of map c_op last_limit]. apply Forall_app in F as [F _].
    assert (X : forall l, Forall (fun x => match c_op x with OMaxClient _ => False | _ => True end) l -> last_limit n (map c_op l) = n).
    { clear. induction 1 as [|x l A F IH]; [reflexivity|]. cbn [map last_limit]. destruct (c_op x); auto. destruct A. }
    apply X. exact F.
Qed.
Example CtlApi_limit : limit_is (demo true) (demo_h true ops_ctl) 10.
Proof.
  assert (E : match demo_h true ops_ctl with x :: h => c_op x = OMaxClient 10 /\ forallb (fun x => match c_op x with OMaxClient _ => false | _ => true end) h = true | [] => False end) by (vm_compute; auto).
  destruct (demo_h true ops_ctl) as [|[o rv evs c'] h]; [destruct E|]. cbn [c_op] in E. destruct E as [-> E]. apply limit_first. rewrite forallb_forall in E. apply Forall_forall.
  intros x I. specialize (E x I). destruct (c_op x); auto. discriminate E.
Qed.
(* the hypotheses and the conclusion of C26_api_meaning: GOAWAY 3 and the priority are told *)
Example CtlApi_told : ctl_told true (parse_priority (ke_sf (demo true)) (mk_pri 3 0)) 10 (2 ^ 62) 0 (skipn 4 bs_ctl) [CvShutdown 3; CvPriority 4 (mk_pri 1 0)] 3 0 [].
Proof.
  change (skipn 4 bs_ctl) with ([7; 1; 3] ++ [128; 15; 7; 0; 4; 4; 117; 61; 49] ++ []). change [CvShutdown 3; CvPriority 4 (mk_pri 1 0)] with ([CvShutdown 3] ++ [CvPriority 4 (mk_pri 1 0)] ++ []).
  eapply ct_frame; [vm_compute; reflexivity|vm_compute; reflexivity|]. eapply ct_frame; [vm_compute; reflexivity|vm_compute; reflexivity|]. constructor.
Qed.
Example C26_api_meaning_applies : exists first more, control_events (demo_h true ops_ctl) = first ++ more /\ recv_settings_of (control_events (demo_h true ops_ctl)) = [mk_rset 50 0 0 0 0] /\
  exists behind, ctl_callbacks more = [CvShutdown 3; CvPriority 4 (mk_pri 1 0)] ++ behind.
Proof.
  destruct (C26_api_meaning (demo true) _ _ 10 bs_ctl [4; 2; 6; 50] SETTINGS [6; 50] (skipn 4 bs_ctl) CtlApi_hist CtlApi_limit) as (_ & l & r & first & more & _ & _ & _ & A & B & _ & _ & _ & _ & T).
  - intros _. rewrite CtlApi_events. repeat constructor. discriminate.
  - exact CtlApi_bytes.
  - reflexivity.
  - reflexivity.
  - exists first, more. split; [exact A|]. split; [rewrite CtlApi_events; reflexivity|]. exact (proj1 (T _ _ _ _ CtlApi_told)).
Qed.
(* the same bytes in one piece, nothing else: the same callbacks *)
Definition ops_ctl2 : list cop := [OMaxClient 10; ORead 2 (0 :: bs_ctl) false].
Example C27_api_server_applies : control_events (demo_h true ops_ctl) = control_events (demo_h true ops_ctl2).
Proof.
  assert (H2 : history (demo true) (demo_h true ops_ctl2) (demo_end true ops_ctl2)) by (apply demo_ok; vm_compute; reflexivity).
  assert (E2 : control_events (demo_h true ops_ctl2) = control_events (demo_h true ops_ctl)) by (rewrite CtlApi_events; vm_compute; reflexivity).
  apply (C27_api_server (demo true) _ _ (demo true) _ (demo_end true ops_ctl2) 10 bs_ctl CtlApi_hist H2 eq_refl eq_refl CtlApi_bytes); auto using CtlApi_limit.
  - left. exists 2. split; [split; [reflexivity|split; [vm_compute; discriminate|vm_compute; reflexivity]]|vm_compute; reflexivity].
  - assert (E : match demo_h true ops_ctl2 with x :: h => c_op x = OMaxClient 10 /\ forallb (fun x => match c_op x with OMaxClient _ => false | _ => true end) h = true | [] => False end) by (vm_compute; auto).
    destruct (demo_h true ops_ctl2) as [|[o rv evs c'] h]; [destruct E|]. cbn [c_op] in E. destruct E as [-> E]. apply limit_first. rewrite forallb_forall in E. apply Forall_forall.
    intros x I. specialize (E x I). destruct (c_op x); auto. discriminate E.
  - rewrite CtlApi_events. repeat constructor. discriminate.
  - rewrite E2, CtlApi_events. repeat constructor. discriminate.
Qed.
(* hypotheses of C26_api_refused, C26_api_taken, C29_api_refused: a GOAWAY 4 is refused (3 was the last), a GOAWAY 2 is taken *)
Example Ctl_next_hyps : peer_stream (demo true) (demo_h true ops_ctl) (demo_end true ops_ctl) 2 0 /\ behind_type (heard 2 (demo_h true ops_ctl)) = [4; 2; 6; 50] ++ skipn 4 bs_ctl /\
  rfc_frame [4; 2; 6; 50] = Some (SETTINGS, [6; 50], []) /\ rfc_frame [7; 1; 4] = Some (GOAWAY, [4], []) /\ rfc_varint [4] = Some (4, []) /\ last (shutdowns_of [CvShutdown 3; CvPriority 4 (mk_pri 1 0)]) (2 ^ 62) < 4 /\
  stream_limit (demo_h true ops_ctl) = 10 /\ ctl_frame true (parse_priority (ke_sf (demo true)) (mk_pri 3 0)) 10 3 0 GOAWAY [2] = Some (CtlOk [CvShutdown 2] 2 0).
Proof. split; [split; [reflexivity|split; [vm_compute; discriminate|vm_compute; reflexivity]]|]. vm_compute. repeat split; reflexivity. Qed.
Example C29_api_refused_applies : exists evs, kstep (demo true) (demo_end true ops_ctl) (ORead 2 ([7; 1; 4] ++ [7; 1; 2]) false) = KDead ERR_H3_ID_ERROR evs /\ ctl_callbacks (control_evs evs) = [].
Proof.
  destruct Ctl_next_hyps as (A & B & C & D & V & R & _).
  apply (C29_api_refused (demo true) (demo_h true ops_ctl) _ 10 2 [4; 2; 6; 50] SETTINGS [6; 50] (skipn 4 bs_ctl) [CvShutdown 3; CvPriority 4 (mk_pri 1 0)] 3 0 [7; 1; 4] [4] [7; 1; 2] 4 CtlApi_hist CtlApi_limit); auto.
  - intros _. rewrite CtlApi_events. repeat constructor. discriminate.
  - exact CtlApi_told.
  - repeat constructor; discriminate.
Qed.
Example C26_api_first_refused_applies : exists evs, kstep (demo true) (demo_end true [ORead 2 [0] false]) (ORead 2 ([7; 1; 4] ++ [4]) false) = KDead ERR_H3_MISSING_SETTINGS evs /\ control_evs evs = [].
Proof.
  assert (H : history (demo true) (demo_h true [ORead 2 [0] false]) (demo_end true [ORead 2 [0] false])) by (apply demo_ok; vm_compute; reflexivity).
  apply (C26_api_first_refused (demo true) (demo_h true [ORead 2 [0] false]) _ 0 2 [7; 1; 4] GOAWAY [4] [4] H).
  - intros [|y a] x b E _; [reflexivity|]. vm_compute in E. destruct a; discriminate E.
  - split; [reflexivity|split; [vm_compute; discriminate|vm_compute; reflexivity]].
  - vm_compute; reflexivity.
  - repeat constructor; discriminate.
  - vm_compute; reflexivity.
  - discriminate.
Qed.
(* PRIORITY_UPDATE of stream 8 with an empty value, taken *)
Definition Ks : kenv := SendDemo.send_k true.
Example C26_api_taken_lawful_applies : exists c' evs, kstep Ks (run_end Ks ops_ctl) (ORead 2 [128; 15; 7; 0; 1; 8] false) = KOk c' 6 evs /\ ctl_callbacks (control_evs evs) = [CvPriority 8 (mk_pri 3 0)].
Proof.
  assert (H : history Ks (run_h Ks ops_ctl) (run_end Ks ops_ctl)) by (apply run_ok; vm_compute; reflexivity).
  assert (EV : control_events (run_h Ks ops_ctl) = [CvFrame 4 2; CvSettings (mk_rset 50 0 0 0 0); CvFrame 7 1; CvShutdown 3; CvFrame 984832 4; CvElem 4 3; CvPriority 4 (mk_pri 1 0)]) by (vm_compute; reflexivity).
  assert (HD : heard 2 (run_h Ks ops_ctl) = 0 :: bs_ctl) by (vm_compute; reflexivity).
  change 6 with (zlen [128; 15; 7; 0; 1; 8]).
  apply (C26_api_taken_lawful Ks (run_h Ks ops_ctl) _ 10 2 [4; 2; 6; 50] SETTINGS [6; 50] (skipn 4 bs_ctl) [CvShutdown 3; CvPriority 4 (mk_pri 1 0)] 3 0 _ 984832 [8] _ 3 0).
  - apply SendDemo.send_fine.
  - discriminate.
  - apply SendDemo.sendb_ok; vm_compute; reflexivity.
  - apply ConnSched.tidy_plain; vm_compute; reflexivity.
  - cbn [SafeSpec.lawful]. split; [unfold SafeSpec.stream_id; lia|]. split; [reflexivity|]. intros _ _ b V B. rewrite HD in V.
    assert (b = bs_ctl ++ [128; 15; 7; 0; 1; 8]) as -> by (vm_compute in V; injection V as <-; reflexivity).
    assert (C5 : Props_Safe.clearb 5 (bs_ctl ++ [128; 15; 7; 0; 1; 8]) = true) by (vm_compute; reflexivity). exact (Props_Safe.clearb_ok 5 (bs_ctl ++ [128; 15; 7; 0; 1; 8]) C5 B).
  - apply H.
  - assert (E : match run_h Ks ops_ctl with x :: h => c_op x = OMaxClient 10 /\ forallb (fun x => match c_op x with OMaxClient _ => false | _ => true end) h = true | [] => False end) by (vm_compute; auto).
    destruct (run_h Ks ops_ctl) as [|[o rv evs c'] h]; [destruct E|]. cbn [c_op] in E. destruct E as [-> E]. apply limit_first. rewrite forallb_forall in E. apply Forall_forall.
    intros x I. specialize (E x I). destruct (c_op x); auto. discriminate E.
  - intros _. rewrite EV. repeat constructor. discriminate.
  - split; [reflexivity|split; [vm_compute; discriminate|rewrite HD; vm_compute; reflexivity]].
  - rewrite HD. vm_compute. reflexivity.
  - reflexivity.
  - exact CtlApi_told.
  - repeat constructor; discriminate.
  - vm_compute. reflexivity.
  - vm_compute. reflexivity.
Qed.
(* a GOAWAY 2, taken, and then a GOAWAY 3 in the same call: the call fails with ERR_H3_ID_ERROR, and the callback of the first
   one was made *)
Example Ctl_failing_applies : match kstep (demo true) (demo_end true ops_ctl) (ORead 2 [7; 1; 2; 7; 1; 3] false) with
  | KDead e evs => e = ERR_H3_ID_ERROR /\ shutdowns_of (control_events (demo_h true ops_ctl) ++ control_evs evs) = [3; 2]
  | KOk _ _ _ | KAbort => False end.
Proof. vm_compute. split; reflexivity. Qed.
(* the first byte of a GOAWAY 4 was received, the other two come with a call: refused (3 was the last) *)
Definition ops_cut : list cop := ops_ctl ++ [ORead 2 [7] false].
Example C26_api_refused_cut_lawful_applies : exists evs, kstep Ks (run_end Ks ops_cut) (ORead 2 [1; 4; 33] false) = KDead ERR_H3_ID_ERROR evs /\ ctl_callbacks (control_evs evs) = [].
Proof.
  assert (H : history Ks (run_h Ks ops_cut) (run_end Ks ops_cut)) by (apply run_ok; vm_compute; reflexivity).
  assert (EV : control_events (run_h Ks ops_cut) = [CvFrame 4 2; CvSettings (mk_rset 50 0 0 0 0); CvFrame 7 1; CvShutdown 3; CvFrame 984832 4; CvElem 4 3; CvPriority 4 (mk_pri 1 0)]) by (vm_compute; reflexivity).
  assert (HD : heard 2 (run_h Ks ops_cut) = 0 :: bs_ctl ++ [7]) by (vm_compute; reflexivity).
  assert (SL : stream_limit (run_h Ks ops_cut) = 10) by (vm_compute; reflexivity).
  apply (C26_api_refused_cut_lawful Ks (run_h Ks ops_cut) _ 2 [4; 2; 6; 50] SETTINGS [6; 50] (skipn 4 bs_ctl ++ [7]) [CvShutdown 3; CvPriority 4 (mk_pri 1 0)] 3 0 [7] _ [7; 1; 4] GOAWAY [4] [33]).
  - apply SendDemo.send_fine.
  - discriminate.
  - apply SendDemo.sendb_ok; vm_compute; reflexivity.
  - apply ConnSched.tidy_plain; vm_compute; reflexivity.
  - cbn [SafeSpec.lawful]. split; [unfold SafeSpec.stream_id; lia|]. split; [reflexivity|]. intros _ _ b V B. rewrite HD in V.
    assert (b = bs_ctl ++ [7; 1; 4; 33]) as -> by (vm_compute in V; injection V as <-; reflexivity).
    assert (C5 : Props_Safe.clearb 5 (bs_ctl ++ [7; 1; 4; 33]) = true) by (vm_compute; reflexivity). exact (Props_Safe.clearb_ok 5 (bs_ctl ++ [7; 1; 4; 33]) C5 B).
  - apply H.
  - rewrite SL. assert (E : match run_h Ks ops_cut with x :: h => c_op x = OMaxClient 10 /\ forallb (fun x => match c_op x with OMaxClient _ => false | _ => true end) h = true | [] => False end) by (vm_compute; auto).
    destruct (run_h Ks ops_cut) as [|[o rv evs c'] h]; [destruct E|]. cbn [c_op] in E. destruct E as [-> E]. apply limit_first. rewrite forallb_forall in E. apply Forall_forall.
    intros x I. specialize (E x I). destruct (c_op x); auto. discriminate E.
  - intros _. rewrite EV. repeat constructor. discriminate.
  - split; [reflexivity|split; [vm_compute; discriminate|rewrite HD; vm_compute; reflexivity]].
  - rewrite HD. reflexivity.
  - reflexivity.
  - rewrite SL. change (skipn 4 bs_ctl ++ [7]) with ([7; 1; 3] ++ [128; 15; 7; 0; 4; 4; 117; 61; 49] ++ [7]). change [CvShutdown 3; CvPriority 4 (mk_pri 1 0)] with ([CvShutdown 3] ++ [CvPriority 4 (mk_pri 1 0)] ++ []).
    eapply ct_frame; [vm_compute; reflexivity|vm_compute; reflexivity|]. eapply ct_frame; [vm_compute; reflexivity|vm_compute; reflexivity|]. constructor.
  - repeat constructor; discriminate.
  - discriminate.
  - reflexivity.
  - vm_compute. reflexivity.
  - vm_compute. reflexivity.
Qed.
Print Assumptions C26_api_refused_cut.
Print Assumptions C26_api_refused_cut_lawful.
(* the first byte of a GOAWAY 4 was received in place of SETTINGS *)
Example C26_api_first_refused_cut_lawful_applies : exists evs, kstep Ks (run_end Ks [OMaxClient 10; ORead 2 [0; 7] false]) (ORead 2 [1; 4; 33] false) = KDead ERR_H3_MISSING_SETTINGS evs /\ control_evs evs = [].
Proof.
  set (ops := [OMaxClient 10; ORead 2 [0; 7] false]).
  assert (H : history Ks (run_h Ks ops) (run_end Ks ops)) by (apply run_ok; vm_compute; reflexivity).
  assert (HD : heard 2 (run_h Ks ops) = [0; 7]) by (vm_compute; reflexivity).
  assert (SL : stream_limit (run_h Ks ops) = 10) by (vm_compute; reflexivity).
  apply (C26_api_first_refused_cut_lawful Ks (run_h Ks ops) _ 2 [1; 4; 33] [7; 1; 4] GOAWAY [4] [33]).
  - apply SendDemo.send_fine.
  - discriminate.
  - apply SendDemo.sendb_ok; vm_compute; reflexivity.
  - apply ConnSched.tidy_plain; vm_compute; reflexivity.
  - cbn [SafeSpec.lawful]. split; [unfold SafeSpec.stream_id; lia|]. split; [reflexivity|]. intros _ _ b V B. rewrite HD in V.
    assert (b = [7; 1; 4; 33]) as -> by (vm_compute in V; injection V as <-; reflexivity).
    assert (C5 : Props_Safe.clearb 5 [7; 1; 4; 33] = true) by (vm_compute; reflexivity). exact (Props_Safe.clearb_ok 5 [7; 1; 4; 33] C5 B).
  - apply H.
  - rewrite SL. assert (E : match run_h Ks ops with x :: h => c_op x = OMaxClient 10 /\ forallb (fun x => match c_op x with OMaxClient _ => false | _ => true end) h = true | [] => False end) by (vm_compute; auto).
    destruct (run_h Ks ops) as [|[o rv evs c'] h]; [destruct E|]. cbn [c_op] in E. destruct E as [-> E]. apply limit_first. rewrite forallb_forall in E. apply Forall_forall.
    intros x I. specialize (E x I). destruct (c_op x); auto. discriminate E.
  - intros _. assert (EV : control_events (run_h Ks ops) = []) by (vm_compute; reflexivity). rewrite EV. constructor.
  - split; [reflexivity|split; [vm_compute; discriminate|rewrite HD; vm_compute; reflexivity]].
  - repeat constructor; discriminate.
  - discriminate.
  - rewrite HD. reflexivity.
  - vm_compute. reflexivity.
  - discriminate.
Qed.
Print Assumptions C26_api_first_refused_cut.
Print Assumptions C26_api_first_refused_cut_lawful.
Example C26_api_callbacks_applies : told_of (control_events (demo_h true ops_ctl)) = [CvShutdown 3; CvPriority 4 (mk_pri 1 0)].
Proof.
  destruct Ctl_next_hyps as (A & B & C & _).
  apply (C26_api_callbacks (demo true) (demo_h true ops_ctl) _ 10 2 [4; 2; 6; 50] SETTINGS [6; 50] (skipn 4 bs_ctl) _ 3 0 CtlApi_hist CtlApi_limit); auto.
  - intros _. rewrite CtlApi_events. repeat constructor. discriminate.
  - exact CtlApi_told.
Qed.
Print Assumptions C26_api_callbacks.
Print Assumptions C60_left_control.
Print Assumptions C60_left_goaway_refuted.
Print Assumptions C26_api_trace.
Print Assumptions C26_api_failing.
Print Assumptions C26_api_refused.
Print Assumptions C26_api_first_refused.
Print Assumptions C26_api_taken.
Print Assumptions C26_api_taken_lawful.
Print Assumptions C29_api_refused.
Print Assumptions C29_api_failing.
Print Assumptions C26_api_settings_first.
Print Assumptions C26_api_none.
Print Assumptions C26_api_meaning.
Print Assumptions C27_api_client.
Print Assumptions C27_api_server.
Print Assumptions C44_api_applied.
Print Assumptions C29_api_nonincreasing.
