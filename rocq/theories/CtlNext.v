(* The next frame on the peer's control stream, along a history of API calls: taken or refused by the table of ControlSpec *)
From Verif Require Import PqModel SchedModel GapModel Base BaseLemmas Chunk Chunk2 ConvModel ConvSpec ConvProofs RdVarint QpackTabModel QpackDecModel HttpModel TxModel BidiModel BidiHist ControlModel ControlSpec ControlProofs ControlTrace ControlFrame ConnModel ConnCtl ConnWf ConnStep ConnHist ConnRead ConnUni Props_Uni SafeMax CtlApiSpec CtlApi CtlTold CtlErr.
Open Scope Z_scope.

(* the scheduler and the identifier sets give no error code *)
Lemma ne_remove less p x e : pq_remove less p x <> Err e.
Proof. unfold pq_remove, pq_pop. repeat match goal with |- context [match ?x with _ => _ end] => destruct x end; discriminate. Qed.
Lemma ne_take s u x e : take_out s u x <> Err e.
Proof. unfold take_out. destruct (pq_remove _ _ _) eqn:R; try discriminate. destruct (ne_remove _ _ _ _ R). Qed.
Lemma ne_unschedule s x e : unschedule s x <> Err e.
Proof. unfold unschedule. destruct (negb _); [discriminate|]. destruct (negb _); [discriminate|apply ne_take]. Qed.
Lemma ne_first s u e : first_cycle s u <> Err e.
Proof. unfold first_cycle, pq_top. destruct (pq_empty _); [discriminate|]. destruct (Nat.eqb _ _); discriminate. Qed.
Lemma ne_schedule s x e : schedule s x <> Err e.
Proof.
  unfold schedule. destruct (negb _); [discriminate|]. destruct (tnode_schedule _ _ _) eqn:T; try discriminate. exfalso. revert T. unfold tnode_schedule. cbv zeta.
  destruct (negb _); [destruct (first_cycle _ _) eqn:R; try discriminate; destruct (ne_first _ _ _ R)|]. destruct (0 <? _); [|discriminate]. destruct (_ || _); [discriminate|].
  destruct (take_out _ _ _) eqn:R; try discriminate. destruct (ne_take _ _ _ _ R).
Qed.
Lemma ne_priority s x p r e : sc_priority s x p r <> Err e.
Proof.
  unfold sc_priority. destruct (SchedModel.pri_eq _ _); [discriminate|]. destruct (unschedule s x) eqn:U; try discriminate; [|destruct (ne_unschedule _ _ _ U)]. destruct r; [apply ne_schedule|discriminate].
Qed.
Lemma ne_open g i e : conn_bidi_idtr_open g i <> Err e.
Proof.
  unfold conn_bidi_idtr_open, idtr_open, is_pushed. destruct g as [|a g']; [destruct (gaptr_push _ _ _); try discriminate; destruct (negb _); discriminate|].
  destruct (snd _); [discriminate|]. destruct (_ =? 0); [cbn; discriminate|]. destruct (gaptr_push _ _ _); try discriminate; destruct (negb _); discriminate.
Qed.
Lemma no_err K c id p e : on_priority_update K c id p <> Err e.
Proof.
  unfold on_priority_update. destruct (find_stream c id) as [s|] eqn:F.
  - destruct (st_sp s); [discriminate|]. unfold update_priority. destruct (negb _); [discriminate|]. unfold sched_do. destruct (sc_priority _ _ _ _) eqn:P; try discriminate. destruct (ne_priority _ _ _ _ _ P).
  - destruct (_ && _); [discriminate|]. destruct (conn_bidi_idtr_open _ _) as [[rv g]| |] eqn:O; cbn [obind]; try discriminate; [|destruct (ne_open _ _ _ O)].
    destruct (negb _); [destruct (_ =? _); discriminate|]. unfold create_stream. match goal with |- context [find_stream ?c0 id] => change (find_stream c0 id) with (find_stream c id) end. rewrite F. cbn [obind]. discriminate.
Qed.
Lemma no_errs K evs e : forall c, apply_updates K c evs <> Err e.
Proof.
  induction evs as [|x evs IH]; intros c; cbn [apply_updates]; [discriminate|]. destruct x; try apply IH. destruct (on_priority_update _ _ _ _) eqn:O; cbn [obind]; [apply IH|destruct (no_err _ _ _ _ _ O)|discriminate].
Qed.
Lemma last_cons' (l : list Z) : forall a b, last (a :: l) b = last l a.
Proof. induction l as [|x l IH]; intros a b; [reflexivity|]. change (last (x :: l) b = last (x :: l) a). rewrite !IH. reflexivity. Qed.
Lemma told_last sv pp m g n bs cbs g' n' rest : ctl_told sv pp m g n bs cbs g' n' rest -> g' = last (shutdowns_of cbs) g.
Proof.
  induction 1 as [g n bs|g n p ty payload cbs g1 n1 bs evs g' n' rest FR CF T IH]; [reflexivity|].
  assert (X : (cbs = [CvShutdown g1]) \/ (shutdowns_of cbs = [] /\ g1 = g)).
  { clear -CF. revert CF. unfold ctl_frame. repeat match goal with |- context [match ?x with _ => _ end] => destruct x end; try discriminate; intros Q; inversion Q; subst; auto. }
  unfold shutdowns_of in *. rewrite flat_map_app. destruct X as [->|[-> ->]]; [|exact IH]. cbn [flat_map app].
  rewrite IH. symmetry. apply last_cons'.
Qed.
Section Next.
Variable K : kenv.
(* a call with bytes of the control stream is a call of read_control *)
Lemma ctl_call h c id src : history K h c -> peer_stream K h c id 0 -> src <> [] ->
  kstep K c (ORead id src false) = read_control_stream K c src.
Proof.
  intros H (P & F & T) N. destruct (find_stream c id) as [s|] eqn:FS; [|congruence]. destruct (u_typ _ _ _ (hist_U K h c H) id s P FS) as [B TY].
  destruct (wf_id _ _ (h_wf K h c H) id s FS) as [[R1 R2] _].
  unfold stream_type in T. rewrite stype_get in T by exact B. destruct (get_varint (heard id h)) as [[w r]|]; [|discriminate]. injection T as ->. destruct TY as [_ TY].
  assert (TY' : st_u s = UCtl) by exact TY. clear TY.
  cbn [kstep]. unfold read_stream.
  assert (E1 : (id <? 0) || (max_varint <? id) = false) by (apply orb_false_intro; apply Z.ltb_ge; assumption). rewrite E1, FS. clear E1.
  assert (E2 : client_bidi id || (if ke_server K then client_uni id else server_uni id) = true) by (unfold peer_uni in P; rewrite P; apply orb_true_r). rewrite E2. clear E2.
  assert (E3 : (zlen src =? 0) = false) by (apply Z.eqb_neq; pose proof (zpos _ _ N); lia). unfold read_existing. rewrite E3. cbn [andb].
  rewrite (peer_is_uni K id P). unfold read_uni. rewrite TY'. unfold read_uni_typed. rewrite TY'. reflexivity.
Qed.
(* behind a series of complete frames the reader is at the beginning of a frame *)
Lemma told_state h c n bs p ty payload tl cbs g' n' : history K h c -> limit_is K h n -> (ke_server K = true -> no_long_value (control_events h)) ->
  control_bytes K h c bs -> bs = p ++ tl -> rfc_frame p = Some (ty, payload, []) ->
  ctl_told (ke_server K) (parse_priority (ke_sf K) (mk_pri 3 0)) n (2 ^ 62) 0 tl cbs g' n' [] ->
  at_frame (k_ctl c) /\ c_seen (k_ctl c) = true /\ c_buf (k_ctl c) = [] /\ c_goaway (k_ctl c) = g' /\ c_pushes (k_ctl c) = n' /\ c_inv (env K n) (k_ctl c).
Proof.
  intros H L NL CB E FR T. destruct (api_ideal K h c n bs H L CB NL) as [B R]. subst bs.
  destruct (told_first (env K n) (k_ctl c) (control_events h) p ty payload tl B R NL FR) as (_ & l & r & e1 & s1 & e2 & _ & _ & _ & F4 & F5 & _ & _ & _ & _ & _ & A1 & A2 & A3 & A4 & A5 & A6).
  apply Forall_app in B as [_ B2].
  assert (SH : short (env K n) e2) by (intros SV; specialize (NL SV); rewrite F4 in NL; apply Forall_app in NL; tauto).
  destruct (told_run (env K n) _ _ _ _ _ _ _ T s1 (k_ctl c) e2 A1 A2 A3 A4 A5 A6 B2 F5 SH) as (f1 & t & f2 & -> & K1 & K2 & K3 & K4 & K5 & K6 & K7 & K8 & K9).
  apply ifeed_cons in K2 as (t1 & x1 & x2 & Q1 & Q2 & _). rewrite run_nil in Q1. injection Q1 as <- _. cbn [feed] in Q2. injection Q2 as <- _. auto 10.
Qed.
(* the verdict of the reader, from the beginning of a frame *)
Lemma next_ok c m q ty payload cbs g' n' : at_frame (k_ctl c) -> c_seen (k_ctl c) = true -> c_buf (k_ctl c) = [] -> bytes q -> rfc_frame q = Some (ty, payload, []) ->
  ctl_frame (ke_server K) (parse_priority (ke_sf K) (mk_pri 3 0)) m (c_goaway (k_ctl c)) (c_pushes (k_ctl c)) ty payload = Some (CtlOk cbs g' n') ->
  exists s' ev, read_control false (env K m) (k_ctl c) q = ROk s' ev /\ ctl_callbacks ev = cbs.
Proof.
  intros A SE BU B FR CF. pose proof (frame_one (env K m) (k_ctl c) q ty payload _ A SE BU B FR (long_frame q ty payload (k_ctl c) B FR)) as H.
  change (ce_server (env K m)) with (ke_server K) in H. change (ce_sf (env K m)) with (ke_sf K) in H. change (ce_max (env K m)) with m in H. rewrite CF in H.
  destruct H as (s' & ev & H1 & H2 & _). exists s', ev. split; [exact H1|exact H2].
Qed.
Lemma next_err c m q ty payload tl e : at_frame (k_ctl c) -> c_seen (k_ctl c) = true -> c_buf (k_ctl c) = [] -> c_inv (env K m) (k_ctl c) -> bytes (q ++ tl) -> rfc_frame q = Some (ty, payload, []) ->
  ctl_frame (ke_server K) (parse_priority (ke_sf K) (mk_pri 3 0)) m (c_goaway (k_ctl c)) (c_pushes (k_ctl c)) ty payload = Some (CtlErr e) ->
  exists s' ev, read_control false (env K m) (k_ctl c) (q ++ tl) = RErr e s' ev /\ ctl_callbacks ev = [].
Proof.
  intros A SE BU I B FR CF. apply Forall_app in B as [B1 B2].
  pose proof (frame_err (env K m) (k_ctl c) q ty payload _ A SE BU B1 FR (long_frame q ty payload (k_ctl c) B1 FR)) as H.
  change (ce_server (env K m)) with (ke_server K) in H. change (ce_sf (env K m)) with (ke_sf K) in H. change (ce_max (env K m)) with m in H. rewrite CF in H.
  destruct H as (s' & ev & H1 & H2 & H3). exists s', ev. split; [|exact H2]. unfold read_control, run.
  eapply (real_app (env K m) tl B2 _ (k_ctl c) q false e s' ev); [exact I|exact B1|discriminate|apply frame_fits; exact A|exact H1|exact H3|].
  unfold measure. rewrite app_length. lia.
Qed.
Theorem api_refused h c n id p ty payload tl cbs g' n' q ty' payload' tl' e : history K h c -> limit_is K h n -> (ke_server K = true -> no_long_value (control_events h)) ->
  peer_stream K h c id 0 -> behind_type (heard id h) = p ++ tl -> rfc_frame p = Some (ty, payload, []) ->
  ctl_told (ke_server K) (parse_priority (ke_sf K) (mk_pri 3 0)) n (2 ^ 62) 0 tl cbs g' n' [] ->
  bytes (q ++ tl') -> rfc_frame q = Some (ty', payload', []) ->
  ctl_frame (ke_server K) (parse_priority (ke_sf K) (mk_pri 3 0)) (stream_limit h) g' n' ty' payload' = Some (CtlErr e) ->
  exists evs, kstep K c (ORead id (q ++ tl') false) = KDead e evs /\ ctl_callbacks (control_evs evs) = [].
Proof.
  intros H L NL PS BT FR T BQ FQ CF.
  destruct (told_state h c n (p ++ tl) p ty payload tl cbs g' n' H L NL ltac:(left; exists id; auto) eq_refl FR T) as (A & SE & BU & G & P & I).
  rewrite <- (hist_limit K h c H), <- G, <- P in CF.
  destruct (next_err c (k_maxcl c) q ty' payload' tl' e A SE BU I BQ FQ CF) as (s' & ev & R & C).
  exists (map KControl ev). split; [|rewrite ctl_evs_ctl; exact C].
  rewrite (ctl_call h c id _ H PS) by (destruct q; discriminate).
  unfold read_control_stream. change (mk_cenv (ke_server K) (k_maxcl c) (ke_sf K)) with (env K (k_maxcl c)). rewrite R. reflexivity.
Qed.
(* without PRIORITY_UPDATE nothing but the reader is touched *)
Theorem api_taken h c n id p ty payload tl cbs g' n' q ty' payload' cbs' g2 n2 : history K h c -> limit_is K h n -> (ke_server K = true -> no_long_value (control_events h)) ->
  peer_stream K h c id 0 -> behind_type (heard id h) = p ++ tl -> rfc_frame p = Some (ty, payload, []) ->
  ctl_told (ke_server K) (parse_priority (ke_sf K) (mk_pri 3 0)) n (2 ^ 62) 0 tl cbs g' n' [] ->
  bytes q -> rfc_frame q = Some (ty', payload', []) ->
  ctl_frame (ke_server K) (parse_priority (ke_sf K) (mk_pri 3 0)) (stream_limit h) g' n' ty' payload' = Some (CtlOk cbs' g2 n2) ->
  match kstep K c (ORead id q false) with
  | KOk _ rv evs => rv = zlen q /\ ctl_callbacks (control_evs evs) = cbs'
  | KDead _ _ => False
  | KAbort => exists i pr, In (CvPriority i pr) cbs'
  end.
Proof.
  intros H L NL PS BT FR T BQ FQ CF.
  destruct (told_state h c n (p ++ tl) p ty payload tl cbs g' n' H L NL ltac:(left; exists id; auto) eq_refl FR T) as (A & SE & BU & G & P & I).
  rewrite <- (hist_limit K h c H), <- G, <- P in CF.
  destruct (next_ok c (k_maxcl c) q ty' payload' cbs' g2 n2 A SE BU BQ FQ CF) as (s' & ev & R & C).
  rewrite (ctl_call h c id _ H PS) by (destruct q; discriminate).
  unfold read_control_stream. change (mk_cenv (ke_server K) (k_maxcl c) (ke_sf K)) with (env K (k_maxcl c)). rewrite R.
  assert (X : forall l c0, (exists c1, apply_updates K c0 l = Ok c1) \/ exists i pr, In (CvPriority i pr) (ctl_callbacks l)).
  { clear. induction l as [|x l IH]; intros c0; [left; eexists; reflexivity|].
    destruct x; cbn [apply_updates]; try (destruct (IH c0) as [Y|(i & pr & Y)]; [left; exact Y|right; exists i, pr; unfold ctl_callbacks in *; cbn [filter]; try (right; exact Y); exact Y]).
    right. eexists; eexists; left; reflexivity. }
  destruct (X ev (kk_ctl c s')) as [(c1 & AU)|Y].
  - rewrite AU. split; [reflexivity|]. rewrite ctl_evs_ctl. exact C.
  - rewrite C in Y. destruct (apply_updates _ _ _) eqn:AU; try exact Y; [|destruct (no_errs _ _ _ _ AU)]. split; [reflexivity|]. rewrite ctl_evs_ctl. exact C.
Qed.
(* the first frame *)
Theorem api_first_refused h c n id q ty payload tl : history K h c -> limit_is K h n ->
  peer_stream K h c id 0 -> behind_type (heard id h) = [] -> bytes (q ++ tl) -> rfc_frame q = Some (ty, payload, []) -> ty <> SETTINGS ->
  exists evs, kstep K c (ORead id (q ++ tl) false) = KDead ERR_H3_MISSING_SETTINGS evs /\ control_evs evs = [].
Proof.
  intros H L PS BT BQ FQ N. destruct (api_env K h c n [] H L ltac:(left; exists id; auto)) as (ps & CE & _ & R).
  assert (E0 : k_ctl c = cst_init).
  { assert (P : Forall (fun q => q = []) ps) by (clear -CE; induction ps as [|x ps IH]; [constructor|]; cbn in CE; apply app_eq_nil in CE as [-> CE]; constructor; auto).
    revert R. unfold read_pieces. clear -P. generalize cst_init, (control_events h), (k_ctl c). clear h. induction P as [|x ps -> P IH]; intros s ev z; cbn [feed]; [intros [= <- _]; reflexivity|].
    rewrite run_nil. cbn [seq_res]. destruct (feed _ _ _ s ps) eqn:Q; cbn [rev_]; try discriminate. intros [= <- _]. eapply IH. exact Q. }
  pose proof BQ as BQ'. apply Forall_app in BQ' as [B1 B2]. destruct (frame_parts _ _ _ B1 FQ) as (p1 & G1 & G2 & BP & LN).
  assert (R1 : run_fuel (c_step false (env K (k_maxcl c))) (S (measure 3 c_rank cst_init q)) cst_init q false = RErr ERR_H3_MISSING_SETTINGS cst_init []).
  { rewrite (head_run (env K (k_maxcl c)) cst_init q ty p1 (zlen payload) payload _ ltac:(split; reflexivity) B1 G1 G2) by (unfold measure; lia).
    unfold c_frame_start. cbn [c_seen c_ty cst_init negb andb]. change FRAME_SETTINGS with SETTINGS. apply Z.eqb_neq in N. rewrite N. cbn [negb]. reflexivity. }
  exists []. split; [|reflexivity]. rewrite (ctl_call h c id _ H PS) by (destruct q; discriminate).
  unfold read_control_stream. change (mk_cenv (ke_server K) (k_maxcl c) (ke_sf K)) with (env K (k_maxcl c)). rewrite E0. unfold read_control, run.
  rewrite (real_app (env K (k_maxcl c)) tl B2 _ cst_init q false ERR_H3_MISSING_SETTINGS _ [] (c_inv_init _) B1 ltac:(discriminate) ltac:(intros X; discriminate X) R1 ltac:(constructor)); [reflexivity|].
  unfold measure. rewrite app_length. lia.
Qed.
End Next.
