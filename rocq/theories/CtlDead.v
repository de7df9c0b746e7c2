(* The control stream in a call that fails *)
From Verif Require Import Base BaseLemmas Chunk ConvModel ConvSpec RdVarint HttpModel QpackDecModel BidiModel BidiHist ControlModel ControlSpec ControlProofs ControlTrace GapModel PqModel PqProofs TxModel SchedModel SchedFair
  ConnModel ConnCtl ConnStep ConnRx ConnWf ConnDecomp ConnHist ConnRead ConnRecv ConnRecvStep ConnUni Props_Uni CtlApiSpec CtlApi CtlTold.
Open Scope Z_scope.

Section D.
Context (K : kenv).
(* what a failing call says of the control stream is what its reader said of some bytes, from where it was *)
Definition CR (c : conn) (l : list cev) : Prop :=
  l = [] \/ exists src r, bytes src /\ read_control false (env K (k_maxcl c)) (k_ctl c) src = r /\ r <> RAbort /\ l = evs_ r.
Lemma CR_none c evs : control_evs evs = [] -> CR c (control_evs evs).
Proof. left. assumption. Qed.
Lemma CR_same c c' l : k_ctl c' = k_ctl c -> k_maxcl c' = k_maxcl c -> CR c' l -> CR c l.
Proof. unfold CR. intros -> ->. auto. Qed.
Lemma unblock_dead_ev f : forall c e evs, unblock_loop K f c = KDead e evs -> control_evs evs = [].
Proof.
  induction f as [|f IH]; intros c e evs; cbn [unblock_loop]; [discriminate|]. destruct (pq_empty _); [discriminate|]. destruct (pq_top _) as [id| |]; try discriminate. destruct (find_stream c id) as [s|]; [|discriminate].
  destruct (_ <? _); [discriminate|]. destruct (pq_pop _ _) as [q| |]; try discriminate. cbv zeta.
  destruct (resume _ _ _) as [x' ev|x' ev|e' ev|]; try discriminate.
  - destruct (after_read _ _ _ _ _) as [c1| |]; try discriminate; [|intros [= _ <-]; apply ctl_evs_stream].
    destruct (unblock_loop K f c1) as [c2 r2 e2|e2 ev2|] eqn:U; cbn [k_evs]; try discriminate. intros [= _ <-]. rewrite !ctl_evs_app, ctl_evs_stream, ctl_evs_def, (IH _ _ _ U). reflexivity.
  - destruct (after_read _ _ _ _ _) as [c1| |]; try discriminate; [|intros [= _ <-]; apply ctl_evs_stream].
    destruct (drop_stream _ _ _ _ _) as [c2 r2 e2|e2 ev2|] eqn:DR; try discriminate.
    2: { exfalso. unfold drop_stream in DR. destruct (is_server_bidi K id); [destruct (_ <=? _)|]; discriminate DR. }
    apply (drop_ev K) in DR; [|rewrite ctl_evs_app, ctl_evs_stream, ctl_evs_def; reflexivity].
    destruct (unblock_loop K f c2) as [c3 r3 e3|e3 ev3|] eqn:U; cbn [k_evs]; try discriminate. intros [= _ <-]. rewrite ctl_evs_app, DR, (IH _ _ _ U). reflexivity.
  - intros [= _ <-]. apply ctl_evs_stream.
Qed.
Lemma typed_CR c id s src fin e evs : bytes src -> read_uni_typed K c id s src fin = KDead e evs -> CR c (control_evs evs).
Proof.
  intros B. unfold read_uni_typed. destruct (st_u s); try discriminate.
  - destruct fin; [intros [= _ <-]; left; reflexivity|]. unfold read_control_stream. change (mk_cenv (ke_server K) (k_maxcl c) (ke_sf K)) with (env K (k_maxcl c)).
    destruct (read_control _ _ _ _) as [s' ev| |e' x ev|] eqn:R; try discriminate.
    + destruct (apply_updates _ _ _); try discriminate. intros [= _ <-]. right. exists src, (ROk s' ev). rewrite ctl_evs_ctl. repeat split; auto. discriminate.
    + intros [= _ <-]. right. exists src, (RErr e' x ev). rewrite ctl_evs_ctl. repeat split; auto. discriminate.
  - destruct fin; [intros [= _ <-]; left; reflexivity|]. unfold read_qpack_encoder. destruct (read_encoder (k_dec c) src) as [d [n| |]]; try discriminate; [|intros [= _ <-]; left; reflexivity].
    destruct (unblock_loop _ _ _) as [c1 r1 e1|e1 ev1|] eqn:U; try discriminate. intros [= _ <-]. left. eapply unblock_dead_ev; eauto.
  - destruct fin; [intros [= _ <-]; left; reflexivity|]. destruct (ke_dec K (k_ndec c) src); try discriminate. intros [= _ <-]. left. reflexivity.
Qed.
Lemma uni_CR c i s src fin e evs : bytes src -> read_uni K c i s src fin = KDead e evs -> CR c (control_evs evs).
Proof.
  intros B. assert (Z0 : CR c (control_evs [])) by (left; reflexivity). unfold read_uni. destruct (st_u s) as [rvi| | | |] eqn:U; try (apply typed_CR; exact B).
  destruct ((zlen src =? 0) && fin).
  - destruct (negb _); [intros [= _ <-]; exact Z0|]. unfold delete_stream, drop_stream. destruct (is_server_bidi K i); [destruct (_ <=? _)|]; discriminate.
  - unfold read_type. destruct (rd_varint rvi src fin) as [rv'|v rest| |] eqn:RV; cbn [obind]; try discriminate; [|intros [= _ <-]; exact Z0].
    destruct (identify c v) as [[c1 u]| |] eqn:ID; cbn [obind]; try discriminate; [|intros [= _ <-]; exact Z0].
    cbv zeta. destruct (zlen rest =? 0); [discriminate|]. intros H. destruct (read_uni_typed _ _ _ _ _ _) as [c2 n e2|e2 ev2|] eqn:RT; try discriminate. injection H as _ <-.
    apply typed_CR in RT; [|eapply bytes_rest; eauto]. revert RT. apply CR_same; unfold identify in ID; repeat match type of ID with context [if ?b then _ else _] => destruct b end; try discriminate ID; injection ID as <- _; reflexivity.
Qed.
Lemma existing_CR c i s src fin e evs : bytes src -> read_existing K c i s src fin = KDead e evs -> CR c (control_evs evs).
Proof.
  intros B. unfold read_existing. destruct ((zlen src =? 0) && negb fin); [discriminate|]. destruct (stream_uni i) eqn:U.
  - apply uni_CR. exact B.
  - unfold read_request_stream. cbv zeta. destruct (recv _ _ _ _ _) as [x' ev|x' ev|e' ev|]; try discriminate.
    + destruct (after_read c i s x' ev) as [c2|e2|]; try discriminate. intros [= _ <-]. left. apply ctl_evs_stream.
    + intros [= _ <-]. left. apply ctl_evs_stream.
Qed.
Lemma add_ctl c i s : k_ctl (add_stream K c i s) = k_ctl c /\ k_maxcl (add_stream K c i s) = k_maxcl c.
Proof. unfold add_stream. destruct (is_server_bidi K i); split; reflexivity. Qed.
Lemma read_CR c i src fin e evs : bytes src -> kstep K c (ORead i src fin) = KDead e evs -> CR c (control_evs evs).
Proof.
  intros B. assert (Z0 : CR c (control_evs [])) by (left; reflexivity). cbn [kstep]. unfold read_stream. destruct ((i <? 0) || (max_varint <? i)); [discriminate|].
  destruct (find_stream c i) as [s|] eqn:F; [destruct (client_bidi i || _); [|discriminate]; apply existing_CR; exact B|]. cbv zeta.
  destruct (is_server_bidi K i) eqn:SB.
  - destruct (conn_bidi_idtr_open (k_idtr c) i) as [[r g]| |]; try discriminate; [|intros [= _ <-]; exact Z0].
    set (c0 := kk_maxid (kk_idtr c g) (Z.max (k_maxid c) i)).
    match goal with |- context [create_stream K c0 i ?s] => set (s1 := s); destruct (create_stream K c0 i s1) as [c1| |] eqn:CR1; try discriminate end; [|intros [= _ <-]; exact Z0].
    apply create_ok in CR1 as [F1 ->]. intros H. destruct (read_existing _ _ _ _ _ _) as [c2 r2 e2|e2 ev2|] eqn:RE; cbn [k_evs] in H; try discriminate. injection H as _ <-.
    apply existing_CR in RE; [|exact B]. destruct (add_ctl c0 i s1) as [A1 A2]. apply (CR_same c0) in RE; [|exact A1|exact A2]. rewrite ctl_evs_app. destruct (_ && _); exact RE.
  - destruct (if ke_server K then client_uni i else server_uni i) eqn:PU; [|intros [= _ <-]; exact Z0]. destruct ((zlen src =? 0) && fin); [discriminate|].
    destruct (create_stream _ _ _ _) as [c1| |] eqn:CR1; try discriminate; [|intros [= _ <-]; exact Z0]. apply create_ok in CR1 as [F1 ->]. intros H.
    apply existing_CR in H; [|exact B]. match type of H with CR (add_stream K c i ?s) _ => destruct (add_ctl c i s) as [A1 A2] end. apply (CR_same c) in H; auto.
Qed.
Lemma api_trace_dead h c o e evs : history K h c -> op_ok o -> kstep K c o = KDead e evs -> exists st, cleads (ke_server K) (Fresh, 2 ^ 62) (control_events h ++ control_evs evs) st.
Proof.
  intros H O SS. assert (ND : match o with ORead _ _ _ => False | _ => True end -> evs = []) by (intros N; exact (dead_silent K c o e evs N SS)).
  assert (CRx : CR c (control_evs evs)). { destruct o; try (rewrite ND by exact Logic.I; left; reflexivity). exact (read_CR c _ _ _ _ _ O SS). }
  destruct CRx as [->|(src & r & B & R & NA & ->)]; [rewrite app_nil_r; eapply api_trace; eauto|].
  destruct (bytes_exist K h c H) as (bs & CB). destruct (api_pieces K (fun _ => True) h c bs H (fun _ _ _ _ _ => Logic.I) CB) as (ps & P1 & P2 & _ & P4).
  pose proof (read_all_trace K ps cst_init _ r_inv_init ltac:(rewrite P1; exact P2) (clink_init _)) as T. rewrite P4 in T. destruct T as (RI & st & C & L).
  pose proof (run_trace (env K (k_maxcl c)) (S (measure 3 c_rank (k_ctl c) src)) (k_ctl c) src false st RI B L) as T. unfold read_control, run in R. change (ke_server K) with (ce_server (env K (k_maxcl c))). rewrite R in T.
  destruct r as [s1 e1|s1 r1 e1|e1 s1 ev1|]; cbn [evs_].
  - destruct T as (_ & st1 & C1 & _). exists st1. eapply cleads_app; eauto.
  - destruct T.
  - destruct T as (st1 & C1). exists st1. eapply cleads_app; eauto.
  - congruence.
Qed.
End D.
