(* C26, C27, C29, C44: the peer's control stream.  [read_pieces E cst_init ps] is the result of
   passing the pieces [ps], one call each, to a connection that has read the stream type; ROk: the
   state and the events; RErr: a connection error after those events; RAbort: an assertion failed *)
From Verif Require Import Base BaseLemmas ConvModel ConvSpec RdVarint HttpModel Chunk ControlModel ControlSpec ControlProofs ControlTrace ControlFrame.
Open Scope Z_scope.

(* ---- C26 ---- *)
(* however the bytes are delivered, the frames and callbacks follow the grammar of ControlSpec.v *)
Theorem C26_trace : forall E ps, bytes (concat ps) ->
  exists st, cleads (ce_server E) (Fresh, 2 ^ 62) (evs_ (read_pieces E cst_init ps)) st.
Proof. exact control_trace. Qed.
(* the first frame is SETTINGS and there is no other SETTINGS frame *)
Theorem C26_settings_first : forall E ps, bytes (concat ps) ->
  let fs := frames_of (evs_ (read_pieces E cst_init ps)) in fs = [] \/ exists fs', fs = SETTINGS :: fs' /\ ~ In SETTINGS fs'.
Proof. exact settings_first. Qed.
(* any other first frame is an error *)
Theorem C26_missing_settings : forall E p ty payload, bytes p -> rfc_frame p = Some (ty, payload, []) -> ty <> SETTINGS ->
  exists s', read_pieces E cst_init [p] = RErr ERR_H3_MISSING_SETTINGS s' [].
Proof. exact first_other. Qed.
(* each complete later frame has exactly the effect in the table [ctl_frame]; [tame]: no overlong
   PRIORITY_UPDATE value came before (see C27_leftover_refuted) or the endpoint is a client *)
Theorem C26_frame : forall E ps s ev p ty payload, bytes (concat ps) -> read_pieces E cst_init ps = ROk s ev -> tame E ev -> at_frame s -> frames_of ev <> [] ->
  bytes p -> rfc_frame p = Some (ty, payload, []) ->
  match ctl_frame (ce_server E) (parse_priority (ce_sf E) (mk_pri 3 0)) (ce_max E) (last (shutdowns_of ev) (2 ^ 62)) (c_pushes s) ty payload with
  | Some (CtlOk cbs g' n') => exists s' ev', read_pieces E s [p] = ROk s' ev' /\ ctl_callbacks ev' = cbs /\ at_frame s' /\
      c_goaway s' = g' /\ c_pushes s' = n' /\ c_set s' = c_set s /\ (ty = GOAWAY -> c_closing s' = true)
  | Some (CtlErr e) => exists s' ev', read_pieces E s [p] = RErr e s' ev' /\ ctl_callbacks ev' = []
  | None => True
  end.
Proof. exact frame_at. Qed.

(* ---- C27 ---- *)
Theorem C27_client : forall E ps1 ps2, ce_server E = false -> bytes (concat ps1) -> concat ps1 = concat ps2 ->
  read_pieces E cst_init ps1 <> RAbort /\ read_pieces E cst_init ps1 = read_pieces E cst_init ps2.
Proof. intros. apply client_cut; auto using c_inv_init. Qed.
(* a server: the same unless a priority value is longer than 8 bytes or the assertion of
   C27_abort_refuted fails *)
Theorem C27_server : forall E ps1 ps2, bytes (concat ps1) -> concat ps1 = concat ps2 ->
  read_pieces E cst_init ps1 <> RAbort -> read_pieces E cst_init ps2 <> RAbort ->
  no_long_value (evs_ (read_pieces E cst_init ps1)) -> no_long_value (evs_ (read_pieces E cst_init ps2)) ->
  read_pieces E cst_init ps1 = read_pieces E cst_init ps2.
Proof. intros. apply server_cut; auto using c_inv_init. intros Q; discriminate. Qed.

(* ---- C29 ---- *)
Theorem C29_nonincreasing : forall E ps, bytes (concat ps) -> nonincreasing (2 ^ 62) (shutdowns_of (evs_ (read_pieces E cst_init ps))).
Proof. exact shutdown_ids. Qed.
Theorem C29_goaway : forall E ps s ev p payload id, bytes (concat ps) -> read_pieces E cst_init ps = ROk s ev -> tame E ev -> at_frame s -> frames_of ev <> [] ->
  bytes p -> rfc_frame p = Some (GOAWAY, payload, []) -> rfc_varint payload = Some (id, []) ->
  let last := last (shutdowns_of ev) (2 ^ 62) in
  (id <= last /\ (ce_server E = false -> id mod 4 = 0) -> exists s' ev', read_pieces E s [p] = ROk s' ev' /\ ctl_callbacks ev' = [CvShutdown id] /\ c_closing s' = true) /\
  (last < id \/ (ce_server E = false /\ id mod 4 <> 0) -> exists s' ev', read_pieces E s [p] = RErr ERR_H3_ID_ERROR s' ev' /\ ctl_callbacks ev' = []).
Proof. exact goaway_at. Qed.

(* ---- C44 ---- *)
Theorem C44_applied : forall E p payload l s ev, bytes p -> rfc_frame p = Some (SETTINGS, payload, []) -> rfc_settings_payload payload l ->
  read_pieces E cst_init [p] = ROk s ev ->
  Forall (entry_valid (ce_server E)) l /\ at_frame s /\ exists r, applied (ce_server E) l r /\ c_set s = r /\ recv_settings_of ev = [r] /\
  enc_caps ev = (if rs_cap r =? 0 then [] else [rs_cap r]) /\ enc_blocked ev = (if rs_blocked r =? 0 then [] else [Z.min 100 (rs_blocked r)]).
Proof. exact settings_applied. Qed.
Theorem C44_accepted : forall E p payload l, bytes p -> rfc_frame p = Some (SETTINGS, payload, []) -> rfc_settings_payload payload l ->
  (NoDup (map fst l) -> Forall (entry_valid (ce_server E)) l -> exists s ev, read_pieces E cst_init [p] = ROk s ev) /\
  (~ Forall (entry_valid (ce_server E)) l -> exists s ev, read_pieces E cst_init [p] = RErr ERR_H3_SETTINGS_ERROR s ev).
Proof. exact settings_accepted. Qed.
Theorem C44_unparsable : forall E p payload, bytes p -> rfc_frame p = Some (SETTINGS, payload, []) -> (forall l, ~ rfc_settings_payload payload l) ->
  exists e s ev, read_pieces E cst_init [p] = RErr e s ev /\ (e = ERR_H3_FRAME_ERROR \/ e = ERR_H3_SETTINGS_ERROR).
Proof. exact settings_unparsable. Qed.

(* ---- examples ---- *)
Definition u1 : list Z := [117; 61; 49].
Definition exc_sf : sfparser := fun v => if list_eq_dec Z.eq_dec v u1 then ([([117], SfInt 1)], true) else ([], false).
Definition srv : cenv := mk_cenv true 100 exc_sf.
Definition cli : cenv := mk_cenv false 100 exc_sf.
Ltac byt := repeat constructor; unfold is_byte; lia.
(* SETTINGS (capacity 4096, blocked 200), a reserved frame, GOAWAY 8, GOAWAY 4, in pieces *)
Definition exc_ps : list (list Z) := [[4; 6; 1; 80; 0]; [7; 64; 200; 33]; [2; 9; 9; 7; 1; 8; 7]; [1; 4]].
Example C26_ex : bytes (concat exc_ps) /\ exists s, read_pieces cli cst_init exc_ps =
  ROk s [CvFrame 4 6; CvEncCap 4096; CvEncBlocked 100; CvSettings (mk_rset (2 ^ 62 - 1) 4096 200 0 0);
         CvFrame 33 2; CvFrame 7 1; CvShutdown 8; CvFrame 7 1; CvShutdown 4] /\ at_frame s.
Proof. split; [byt|]. eexists. split; [vm_compute; reflexivity|split; reflexivity]. Qed.
Example C26_ex_frame : rfc_frame [7; 1; 12] = Some (GOAWAY, [12], []) /\
  ctl_frame false (fun _ => None) 100 4 0 GOAWAY [12] = Some (CtlErr ERR_H3_ID_ERROR) /\
  ctl_frame false (fun _ => None) 100 4 0 GOAWAY [0] = Some (CtlOk [CvShutdown 0] 0 0).
Proof. repeat split. Qed.
Definition exc_prio : list Z := [4; 0; 128; 15; 7; 0; 4; 0] ++ u1.
Example C27_ex : bytes exc_prio /\
  read_pieces srv cst_init [exc_prio] <> RAbort /\ read_pieces srv cst_init [firstn 9 exc_prio; skipn 9 exc_prio] <> RAbort /\
  no_long_value (evs_ (read_pieces srv cst_init [exc_prio])) /\ no_long_value (evs_ (read_pieces srv cst_init [firstn 9 exc_prio; skipn 9 exc_prio])) /\
  ctl_callbacks (evs_ (read_pieces srv cst_init [exc_prio])) = [CvSettings rset_init; CvPriority 0 (mk_pri 1 0)].
Proof. split; [byt|]. split; [vm_compute; discriminate|]. split; [vm_compute; discriminate|]. split; [vm_compute; repeat constructor; discriminate|]. split; [vm_compute; repeat constructor; discriminate|]. vm_compute. reflexivity. Qed.
Example C44_ex : rfc_frame [4; 6; 1; 80; 0; 7; 64; 200] = Some (SETTINGS, [1; 80; 0; 7; 64; 200], []) /\
  rfc_settings_payload [1; 80; 0; 7; 64; 200] [(1, 4096); (7, 200)] /\ NoDup (map fst [(1, 4096); (7, 200)]) /\ Forall (entry_valid true) [(1, 4096); (7, 200)] /\
  ~ Forall (entry_valid true) [(2, 0)].
Proof.
  split; [reflexivity|]. split; [econstructor; [reflexivity|reflexivity|]; econstructor; [reflexivity|reflexivity|constructor]|].
  split; [repeat constructor; cbn; intuition discriminate|]. split; [repeat constructor; cbn; intuition discriminate|].
  intros H. inversion H; subst. destruct H2 as [H2 _]. apply H2. cbn. auto.
Qed.

(* ---- deviations ---- *)
(* RFC 9114 7.1: bytes behind the identifier of GOAWAY or MAX_PUSH_ID are an H3_FRAME_ERROR; here
   they are read as further frames *)
Theorem C26_trailing_bytes_refuted : ~ (forall E p payload id rest, bytes p -> rfc_frame p = Some (GOAWAY, payload, []) -> rfc_varint payload = Some (id, rest) -> rest <> [] ->
  exists s ev, read_pieces E cst_init [[4; 0] ++ p] = RErr ERR_H3_FRAME_ERROR s ev).
Proof.
  intros H. destruct (H cli [7; 3; 0; 33; 0] [0; 33; 0] 0 [33; 0] ltac:(byt) eq_refl eq_refl ltac:(discriminate)) as (s & ev & K). vm_compute in K. discriminate.
Qed.
(* what happens instead *)
Example C26_trailing_bytes_ex : exists s, read_pieces cli cst_init [[4; 0; 7; 3; 0; 33; 0]] = ROk s [CvFrame 4 0; CvSettings rset_init; CvFrame 7 3; CvShutdown 0; CvFrame 33 0].
Proof. eexists. vm_compute. reflexivity. Qed.
(* RFC 9114 7.2.7: a MAX_PUSH_ID smaller than before is an H3_ID_ERROR; here H3_FRAME_ERROR *)
Theorem C26_max_push_error_refuted : ~ (forall E a b, ce_server E = true -> 0 <= b < a -> a < 64 ->
  exists s ev, read_pieces E cst_init [[4; 0; 13; 1; a; 13; 1; b]] = RErr ERR_H3_ID_ERROR s ev).
Proof. intros H. destruct (H srv 5 3 eq_refl ltac:(lia) ltac:(lia)) as (s & ev & K). vm_compute in K. discriminate. Qed.
(* a piece that ends right behind the element ID of a PRIORITY_UPDATE frame fails assert(len > 0) *)
Theorem C27_abort_refuted : ~ (forall E ps, bytes (concat ps) -> read_pieces E cst_init ps <> RAbort).
Proof. intros H. apply (H srv [firstn 8 exc_prio; skipn 8 exc_prio]); [byt|]. vm_compute. reflexivity. Qed.
(* an overlong value that arrives in pieces leaves its first part in the buffer, and the value of
   the next PRIORITY_UPDATE frame is appended to it: the same bytes, two outcomes *)
Definition exc_long : list Z := [4; 0; 128; 15; 7; 0; 10; 0; 32; 32; 32; 32].
Definition exc_long2 : list Z := [32; 32; 32; 32; 32; 128; 15; 7; 0; 4; 0] ++ u1.
Theorem C27_leftover_refuted : ~ (forall E ps1 ps2, bytes (concat ps1) -> concat ps1 = concat ps2 ->
  read_pieces E cst_init ps1 <> RAbort -> read_pieces E cst_init ps2 <> RAbort -> read_pieces E cst_init ps1 = read_pieces E cst_init ps2).
Proof.
  intros H. specialize (H srv [exc_long ++ exc_long2] [exc_long; exc_long2] ltac:(byt) eq_refl ltac:(vm_compute; discriminate) ltac:(vm_compute; discriminate)).
  vm_compute in H. discriminate.
Qed.
(* a setting that occurs twice is not always rejected (RFC 9114 7.2.4) *)
Theorem C44_duplicates_refuted : ~ (forall E p payload l, bytes p -> rfc_frame p = Some (SETTINGS, payload, []) -> rfc_settings_payload payload l -> ~ NoDup (map fst l) ->
  exists s ev, read_pieces E cst_init [p] = RErr ERR_H3_SETTINGS_ERROR s ev).
Proof.
  intros H. destruct (H srv [4; 4; 6; 1; 6; 2] [6; 1; 6; 2] [(6, 1); (6, 2)] ltac:(byt) eq_refl) as (s & ev & K).
  - econstructor; [reflexivity|reflexivity|]. econstructor; [reflexivity|reflexivity|constructor].
  - intros N. inversion N; subst. apply H2. cbn. auto.
  - vm_compute in K. discriminate.
Qed.
(* SETTINGS_ENABLE_CONNECT_PROTOCOL, which only servers send (RFC 9220), is ignored by clients,
   whatever its value *)
Theorem C44_connect_on_client_refuted : ~ (forall E v s ev, 0 <= v < 64 -> read_pieces E cst_init [[4; 2; 8; v]] = ROk s ev -> rs_connect (c_set s) = v).
Proof.
  intros H. specialize (H cli 1). assert (K : exists s ev, read_pieces cli cst_init [[4; 2; 8; 1]] = ROk s ev /\ rs_connect (c_set s) = 0) by (eexists; eexists; split; vm_compute; reflexivity).
  destruct K as (s & ev & K1 & K2). rewrite (H s ev ltac:(lia) K1) in K2. discriminate.
Qed.

Print Assumptions C26_trace.
Print Assumptions C26_settings_first.
Print Assumptions C26_missing_settings.
Print Assumptions C26_frame.
Print Assumptions C26_trailing_bytes_refuted.
Print Assumptions C26_max_push_error_refuted.
Print Assumptions C27_client.
Print Assumptions C27_server.
Print Assumptions C27_abort_refuted.
Print Assumptions C27_leftover_refuted.
Print Assumptions C29_nonincreasing.
Print Assumptions C29_goaway.
Print Assumptions C44_applied.
Print Assumptions C44_accepted.
Print Assumptions C44_unparsable.
Print Assumptions C44_duplicates_refuted.
Print Assumptions C44_connect_on_client_refuted.
