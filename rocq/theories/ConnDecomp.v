(* Every call of the API is a sequence of elementary actions *)
From Verif Require Import Base BaseLemmas Chunk ConvModel RdVarint QpackTabModel QpackDecModel HttpModel BidiModel BidiHist ControlModel GapModel PqModel PqProofs PqWeak TxModel SchedModel SchedProofs SchedFair ConnModel ConnCtl ConnStep ConnRx ConnWf.
Open Scope Z_scope.

Lemma ksts_wf K c l c' : wf K c -> ksts K c l c' -> wf K c'.
Proof. intros W H. induction H; auto. apply IHksts. eapply kst_wf; eauto. Qed.
Lemma decomp_wf P K c o c' evs acts : wf K c -> decompP P K c o c' evs acts -> wf K c'.
Proof. intros W [H _]. eapply ksts_wf; eauto. Qed.
Definition decsP (P : Z -> pri -> Prop) (K : kenv) (c : conn) (o : cop) (c' : conn) (evs : list kev) : Prop := exists acts, decompP P K c o c' evs acts.
Definition decs (K : kenv) (c : conn) (o : cop) (c' : conn) (evs : list kev) : Prop := decsP (said evs) K c o c' evs.
Lemma dsP_nil P K c o : decsP P K c o c [].
Proof. exists []. apply dc_nil. Qed.
Lemma dsP_app (P Q R : Z -> pri -> Prop) K c o c1 e1 c2 e2 : decsP P K c o c1 e1 -> decsP Q K c1 o c2 e2 -> (forall id p, P id p -> R id p) -> (forall id p, Q id p -> R id p) -> decsP R K c o c2 (e1 ++ e2).
Proof. intros [a A] [b B] H1 H2. exists (a ++ b). eapply dc_mono; [eapply dc_app; eauto|]. intros id p [H|H]; auto. Qed.
Lemma ds_nil K c o : decs K c o c [].
Proof. apply dsP_nil. Qed.
Lemma ds_app K c o c1 e1 c2 e2 : decs K c o c1 e1 -> decs K c1 o c2 e2 -> decs K c o c2 (e1 ++ e2).
Proof. intros A B. eapply dsP_app; [exact A|exact B| |]; unfold said; intros; apply in_app_iff; auto. Qed.
Lemma ds_one K c o a c' : kst K c a c' -> allowed0 K o a -> decs K c o c' (vis a).
Proof. intros. exists [a]. apply dc_one; auto. Qed.
Lemma ds_wf K c o c' evs : wf K c -> decs K c o c' evs -> wf K c'.
Proof. intros W [a A]. eapply decomp_wf; eauto. Qed.
Lemma dsP_wf P K c o c' evs : wf K c -> decsP P K c o c' evs -> wf K c'.
Proof. intros W [a A]. eapply decomp_wf; eauto. Qed.
Lemma ds_silent K c o a c1 c2 evs : kst K c a c1 -> allowed0 K o a -> vis a = [] -> decs K c1 o c2 evs -> decs K c o c2 evs.
Proof. intros H A V D. change evs with ([] ++ evs). rewrite <- V. eapply ds_app; eauto using ds_one. Qed.
Lemma ds_end K c o c1 evs a c2 : decs K c o c1 evs -> kst K c1 a c2 -> allowed0 K o a -> vis a = [] -> decs K c o c2 evs.
Proof. intros D H A V. rewrite <- (app_nil_r evs). rewrite <- V. eapply ds_app; eauto using ds_one. Qed.
(* an action, then the priorities it announced *)
Lemma ds_then K c o a c1 c2 (P : Z -> pri -> Prop) : kst K c a c1 -> allowed0 K o a -> decsP P K c1 o c2 [] -> (forall id p, P id p -> said (vis a) id p) -> decs K c o c2 (vis a).
Proof. intros H A D HP. unfold decs. rewrite <- (app_nil_r (vis a)) at 2. eapply dsP_app; [apply (ds_one _ _ _ _ _ H A)|exact D|auto|auto]. Qed.

Section Read.
Context (K : kenv) (id0 : Z) (src0 : list Z) (fin0 : bool).
Let o := ORead id0 src0 fin0.
Lemma in_prios p evs : In p (prios evs) -> In (BvPriority p) evs.
Proof.
  unfold prios. intros H. apply in_concat in H as (l & H1 & H2). apply in_map_iff in H1 as (e & <- & H3). destruct e; try destruct H2; subst; auto. destruct H.
Qed.
Definition announced (id : Z) (l : list pri) (i : Z) (p : pri) : Prop := i = id /\ In p l.
Lemma ds_prios l : forall c id s c', find_stream c id = Some s -> (forall p, In p l -> ke_server K = true /\ st_pu s = false /\ st_sp s = false /\ pri_valid p) ->
  apply_prios c id s l = Ok c' -> decsP (announced id l) K c o c' [] /\ find_stream c' id = Some s.
Proof.
  induction l as [|p l IH]; cbn [apply_prios]; intros c id s c' F HP H; [injection H as <-; split; auto using dsP_nil|].
  unfold update_priority in H. destruct (client_bidi id) eqn:CB; cbn in H; [|discriminate]. unfold sched_do in H.
  destruct (sc_priority (k_sch c) id p (require s)) as [sch'| |] eqn:SP; try discriminate.
  destruct (HP p (or_introl eq_refl)) as (P1 & P2 & P3 & P4).
  destruct (IH (kk_sch c sch') id s c' F ltac:(intros; apply HP; right; auto) H) as [D F']. split; auto.
  change (@nil kev) with (@nil kev ++ @nil kev). eapply (dsP_app (announced id (p :: l)) (announced id l)); [|exact D|auto|].
  - exists [APriority id p]. apply dc_prio; [eapply t_priority; eauto|exists id0, src0, fin0; reflexivity|]. split; [reflexivity|left; reflexivity].
  - intros i q [A B]. split; [exact A|right; exact B].
Qed.
Lemma find_mid c id s s0 x j : find_stream c id = Some s0 -> find_stream (mid c id s x) j = if j =? id then Some (ss_x s x) else find_stream c j.
Proof.
  intros F. unfold mid. destruct (_ && _); [change (find_stream (put c id (ss_x s x)) j = if j =? id then Some (ss_x s x) else find_stream c j)|change (find_stream (put c id (ss_x s x)) j = if j =? id then Some (ss_x s x) else find_stream c j)]; rewrite find_put, F; auto.
Qed.
Lemma ds_after c id s x evs c' s0 : find_stream c id = Some s0 -> (forall p, In (BvPriority p) evs -> ke_server K = true /\ st_pu s = false /\ st_sp s = false /\ pri_valid p) ->
  after_read c id s x evs = Ok c' -> decsP (announced id (prios evs)) K (mid c id s x) o c' [] /\ find_stream c' id = Some (ss_x s x).
Proof.
  intros F HP H. unfold after_read in H. fold (mid c id s x) in H. change (apply_prios (mid c id s x) id (ss_x s x) (prios evs) = Ok c') in H. revert H. apply ds_prios.
  - rewrite (find_mid _ _ _ _ _ _ F), Z.eqb_refl. reflexivity.
  - intros p Hp. apply HP. apply in_prios. exact Hp.
Qed.
Lemma ann_ok c s evs s1 s2 : pri_valid (h_pri (b_http s1)) -> rfact (benv_of K c s) s1 evs s2 -> forall p, In (BvPriority p) evs -> ke_server K = true /\ st_pu s = false /\ st_sp s = false /\ pri_valid p.
Proof. intros V R p H. destruct (rf_ann _ _ _ _ R V p H) as (A & B & C). cbn in A, B. apply orb_false_iff in B as [B1 B2]. auto. Qed.
Lemma ds_request c s c' rv evs : wf K c -> find_stream c id0 = Some s -> client_bidi id0 = true -> (zlen src0 =? 0) && negb fin0 = false ->
  read_request_stream K c id0 s src0 fin0 = KOk c' rv evs -> decs K c o c' evs.
Proof.
  intros W F CB NE. unfold read_request_stream. destruct (recv false (benv_of K c s) (rx_now c s) src0 fin0) as [x' ev| | |] eqn:R; try discriminate.
  destruct (after_read c id0 s x' ev) as [c1| |] eqn:A; try discriminate. intros [= <- _ <-].
  pose proof (recv_fact false (benv_of K c s) (rx_now c s) src0 fin0) as RF. rewrite R in RF. destruct RF as [[RF _ _ _] _].
  destruct (ds_after _ _ _ _ _ _ _ F (ann_ok c s ev (x_st (rx_now c s)) _ (proj2 (wf_x _ _ W _ _ F)) RF) A) as [D _].
  change (map (KStream id0) ev) with (vis (ARecv id0 src0 fin0 ev)). eapply ds_then; [eapply t_recv; eauto|reflexivity|exact D|].
  intros i p [-> H]. unfold said. cbn [vis]. apply in_map. apply in_prios. exact H.
Qed.
Lemma drop_ok c id s s1 evs c' rv ev : drop_stream K c id s evs = KOk c' rv ev -> find_stream c id = Some s1 -> st_code s1 = st_code s ->
  b_blk (x_st (st_x s1)) = false -> client_bidi id = true \/ st_u s1 = UUnk \/ (peer_uni K id = true /\ exists rv, st_u s1 = UNone rv) ->
  (client_bidi id = true -> n_sched (sc_n (k_sch c) id) = false \/ x_closed (st_x s1) = true) -> forall n, evs = deferred id n ->
  kst K c (ADel id n (st_code s1)) c' /\ ev = vis (ADel id n (st_code s1)).
Proof.
  unfold drop_stream. intros H F C B U S n ->. rewrite C. cbn [vis].
  assert (c' = rem_stream K c id /\ ev = deferred id n ++ (if client_bidi id then [KClosed id (st_code s)] else [])) as [-> ->].
  { unfold rem_stream. destruct (is_server_bidi K id); [destruct (k_num c <=? 0); [discriminate|]|]; injection H as <- _ <-; auto. }
  split; auto. rewrite <- C. eapply t_del; eauto.
Qed.
Lemma resume_gone pre E x x' evs : resume pre E x = XGone x' evs -> b_blk (x_st x') = false /\ x_closed x' = true.
Proof.
  unfold resume. pose proof (process_fact pre E (S (length (x_inq x))) x) as P. destruct (process_blocked _ _ _ _) as [y e|y e| |]; try discriminate; [|destruct P].
  destruct (b_blk (x_st y)) eqn:B; cbn; [discriminate|]. destruct (x_closed y) eqn:C; [|discriminate]. unfold x_delete. intros [= <- _]. cbn. auto.
Qed.
Lemma deferred_0 id : deferred id 0 = []. Proof. reflexivity. Qed.
Lemma ds_unblock f : forall c c' rv evs, wf K c -> unblock_loop K f c = KOk c' rv evs -> decs K c o c' evs.
Proof.
  induction f as [|f IH]; intros c c' rv evs W; cbn [unblock_loop]; [discriminate|].
  destruct (pq_empty (k_blk c)) eqn:PE; [intros [= <- _ <-]; apply ds_nil|].
  destruct (pq_top (k_blk c)) as [id| |] eqn:PT; try discriminate. destruct (find_stream c id) as [s|] eqn:F; [|discriminate].
  destruct (Z.ltb_spec (next_absidx (d_ctx (k_dec c))) (ricnt c id)) as [|RI]; [intros [= <- _ <-]; apply ds_nil|].
  destruct (pq_pop (ricnt_less c) (k_blk c)) as [q| |] eqn:PP; try discriminate. cbv zeta.
  change (x_set_st (rx_now (kk_blk c q) s) (st_blk (x_st (rx_now (kk_blk c q) s)) false)) with (unblocked c s).
  change (benv_of K (kk_blk c q) (ss_x s (unblocked c s))) with (benv_of K (kk_blk c q) s).
  change (x_def (unblocked c s)) with (x_def (st_x s)).
  destruct (wf_pop K c id s q W PE PT F PP) as (CB & _ & _).
  pose proof (resume_fact false (benv_of K (kk_blk c q) s) (unblocked c s)) as RF. pose proof (resume_gone false (benv_of K (kk_blk c q) s) (unblocked c s)) as RG.
  pose proof (proj2 (wf_x _ _ W _ _ F)) as PV.
  destruct (resume false (benv_of K (kk_blk c q) s) (unblocked c s)) as [x' ev|x' ev| |] eqn:R; try discriminate.
  - destruct (after_read _ _ _ _ _) as [c1| |] eqn:A; try discriminate. destruct RF as [RF _ _ _].
    destruct (ds_after (kk_blk c q) id (ss_x s (unblocked c s)) _ _ _ s F (ann_ok (kk_blk c q) s ev (x_st (unblocked c s)) _ PV RF) A) as [D _].
    assert (kst K c (AResume id ev (x_def x' - x_def (st_x s))) (mid (kk_blk c q) id (ss_x s (unblocked c s)) x')) as T by (eapply t_resume; eauto).
    assert (decs K c o c1 (vis (AResume id ev (x_def x' - x_def (st_x s))))) as D1.
    { eapply ds_then; [exact T|exists id0, src0, fin0; reflexivity|exact D|]. intros i p [-> H]. unfold said. cbn [vis]. apply in_app_iff. left. apply in_map. apply in_prios. exact H. }
    intros H. destruct (unblock_loop K f c1) as [c2 r2 e2| |] eqn:U; cbn [k_evs] in H; try discriminate. injection H as <- _ <-.
    eapply ds_app; [exact D1|]. eapply IH; [eapply ds_wf; eauto|exact U].
  - destruct (after_read _ _ _ _ _) as [c1| |] eqn:A; try discriminate. destruct RF as [RF _ _ _]. destruct (RG _ _ eq_refl) as [RG1 RG2].
    destruct (ds_after (kk_blk c q) id (ss_x s (unblocked c s)) _ _ _ s F (ann_ok (kk_blk c q) s ev (x_st (unblocked c s)) _ PV RF) A) as [D F1].
    assert (kst K c (AResume id ev (x_def x' - x_def (st_x s))) (mid (kk_blk c q) id (ss_x s (unblocked c s)) x')) as T by (eapply t_resume_gone; eauto).
    assert (decs K c o c1 (vis (AResume id ev (x_def x' - x_def (st_x s))))) as D1.
    { eapply ds_then; [exact T|exists id0, src0, fin0; reflexivity|exact D|]. intros i p [-> H]. unfold said. cbn [vis]. apply in_app_iff. left. apply in_map. apply in_prios. exact H. }
    intros H. destruct (drop_stream _ _ _ _ _) as [c2 r2 e2| |] eqn:DR; try discriminate.
    assert (exists e3, drop_stream K c1 id (ss_x s (unblocked c s)) (deferred id 0) = KOk c2 r2 e3 /\ e2 = vis (AResume id ev (x_def x' - x_def (st_x s))) ++ e3) as (e3 & DR3 & E3).
    { revert DR. unfold drop_stream. cbn [vis]. rewrite deferred_0. destruct (is_server_bidi K id); [destruct (k_num c1 <=? 0); [discriminate|]|]; intros [= <- <- <-]; eauto. }
    destruct (drop_ok _ _ _ (ss_x s x') _ _ _ _ DR3 F1 eq_refl RG1 (or_introl CB) (fun _ => or_intror RG2) 0 eq_refl) as [T2 V2].
    assert (decs K c o c2 e2) as D2. { rewrite E3, V2. eapply ds_app; [exact D1|]. apply ds_one; [exact T2|]. left. exists id0, src0, fin0; reflexivity. }
    destruct (unblock_loop K f c2) as [c3 r3 e4| |] eqn:U; cbn [k_evs] in H; try discriminate. injection H as <- _ <-.
    eapply ds_app; [exact D2|]. eapply IH; [eapply ds_wf; eauto|exact U].
Qed.
Lemma ds_encoder c src c' rv evs : wf K c -> read_qpack_encoder K c src = KOk c' rv evs -> decs K c o c' evs.
Proof.
  intros W. unfold read_qpack_encoder. destruct (read_encoder (k_dec c) src) as [d [n| |]] eqn:R; try discriminate.
  destruct (unblock_loop _ _ _) as [c1 r1 e1| |] eqn:U; try discriminate. intros [= <- _ <-].
  eapply (ds_silent K c o (ADec src)); [apply t_dec; eapply dc_read; eauto|exact I|reflexivity|]. eapply ds_unblock; [apply wf_dec; auto|exact U].
Qed.

Ltac ord := exists id0, src0, fin0; reflexivity.
Lemma ds_prio_update c id p c' : wf K c -> good_cev (ke_server K) (CvPriority id p) -> on_priority_update K c id p = Ok c' -> decs K c o c' [KControl (CvPriority id p)].
Proof.
  intros W (G1 & G2 & G3 & G4). unfold on_priority_update. destruct (find_stream c id) as [s|] eqn:F.
  - destruct (st_sp s) eqn:SP.
    + intros [= <-]. change [KControl (CvPriority id p)] with (vis (AUpdateIgn id p)). apply ds_one; [|ord]. apply t_update_ign; auto. intros s' F'. congruence.
    + unfold update_priority. rewrite G2. cbn [negb]. unfold sched_do. change (k_sch (put c id (ss_pu s true))) with (k_sch c).
      destruct (sc_priority _ _ _ _) as [sch'| |] eqn:SC; try discriminate. intros [= <-].
      change [KControl (CvPriority id p)] with (vis (AUpdate id p true)). apply ds_one; [|ord]. eapply t_update; eauto.
  - destruct (k_queued c && (k_goaway c <=? id)) eqn:GA.
    { intros [= <-]. change [KControl (CvPriority id p)] with (vis (AUpdateIgn id p)). apply ds_one; [|ord]. apply t_update_ign; auto. intros s' F'. congruence. }
    destruct (conn_bidi_idtr_open (k_idtr c) id) as [[rv g]| |] eqn:IT; cbn; try discriminate. destruct (rv =? 0) eqn:RV; cbn [negb].
    + destruct (create_stream _ _ _ _) as [c1| |] eqn:CR; cbn; try discriminate. intros [= <-]. apply create_ok in CR as [F1 ->].
      set (c0 := kk_maxid (kk_idtr c g) (Z.max (k_maxid c) id)) in *.
      eapply (ds_silent K c o AMisc c0); [|exact I|reflexivity|].
      { assert (c0 = kk_ndec (kk_maxcl (kk_maxid (kk_idtr c g) (Z.max (k_maxid c) id)) (k_maxcl c)) (k_ndec c)) as -> by (unfold c0; destruct c; reflexivity). apply t_misc; [right; eexists _, _; split; [|eassumption]; first [assumption|exact G4|unfold id_range in *; lia]|lia|lia]. }
      change [KControl (CvPriority id p)] with (vis (AUpdate id p false)). apply ds_one; [|ord].
      apply (t_update_new K c0 id p); auto. unfold c0; cbn; lia.
    + destruct (rv =? ERR_STREAM_IN_USE); [|discriminate]. intros [= <-].
      change [KControl (CvPriority id p)] with (vis (AUpdateIgn id p)). apply ds_one; [|ord]. apply t_update_ign; auto. intros s' F'. congruence.
Qed.
Lemma ds_updates evs : forall c c', wf K c -> Forall (good_cev (ke_server K)) evs -> apply_updates K c evs = Ok c' -> decs K c o c' (map KControl evs).
Proof.
  induction evs as [|e evs IH]; intros c c' W G H; cbn [apply_updates] in H; [injection H as <-; apply ds_nil|]. inversion G as [|? ? G1 G2]; subst.
  assert ((exists id p, e = CvPriority id p) \/ (forall id p, e <> CvPriority id p)) as [(id & p & ->)|N] by (destruct e; [right; congruence|right; congruence|right; congruence|right; congruence|right; congruence|right; congruence|left; eauto]).
  - destruct (on_priority_update K c id p) as [c1| |] eqn:O; cbn in H; try discriminate. pose proof (ds_prio_update _ _ _ _ W G1 O) as D.
    change (map KControl (CvPriority id p :: evs)) with ([KControl (CvPriority id p)] ++ map KControl evs). eapply ds_app; [exact D|]. eapply IH; eauto. eapply ds_wf; eauto.
  - assert (apply_updates K c evs = Ok c') as H' by (destruct e; auto; exfalso; eapply N; eauto).
    change (map KControl (e :: evs)) with (vis (AControl e) ++ map KControl evs). eapply ds_app; [apply ds_one; [apply t_control; auto|ord]|]. apply IH; auto.
Qed.
Lemma ds_control c src c' rv evs : wf K c -> bytes src -> read_control_stream K c src = KOk c' rv evs -> decs K c o c' evs.
Proof.
  intros W B. unfold read_control_stream. pose proof (read_control_fact (mk_cenv (ke_server K) (k_maxcl c) (ke_sf K)) (k_ctl c) src (wf_ctl _ _ W) B) as R.
  destruct (read_control _ _ _ _) as [s' ev| | |] eqn:RC; try discriminate. destruct R as [R1 R2].
  destruct (apply_updates _ _ _) as [c1| |] eqn:A; try discriminate. intros [= <- _ <-].
  assert (kst K c (ACtl src) (kk_ctl c s')) as T by (eapply t_ctl; eauto).
  eapply (ds_silent K c o (ACtl src)); [exact T|ord|reflexivity|]. eapply ds_updates; eauto. eapply kst_wf; eauto.
Qed.
Lemma ds_typed c id s src fin c' rv evs : wf K c -> bytes src -> read_uni_typed K c id s src fin = KOk c' rv evs -> decs K c o c' evs.
Proof.
  intros W B. unfold read_uni_typed. destruct (st_u s); try discriminate.
  - destruct fin; [discriminate|]. apply ds_control; auto.
  - destruct fin; [discriminate|]. apply ds_encoder; auto.
  - destruct fin; [discriminate|]. destruct (ke_dec K (k_ndec c) src) as [n| |]; try discriminate. intros [= <- _ <-].
    eapply (ds_silent K c o AMisc); [|exact I|reflexivity|apply ds_nil].
    assert (kk_ndec c (S (k_ndec c)) = kk_ndec (kk_maxcl (kk_maxid (kk_idtr c (k_idtr c)) (k_maxid c)) (k_maxcl c)) (S (k_ndec c))) as -> by (destruct c; reflexivity). apply t_misc; [left; reflexivity|lia|lia].
  - intros [= <- _ <-]. destruct fin; [apply ds_nil|]. change [KStop id H3_STREAM_CREATION_ERROR] with (vis (ASee (KStop id H3_STREAM_CREATION_ERROR))). apply ds_one; [apply t_see; eauto|ord].
Qed.
Lemma bytes_rest rv p f v rest : rd_varint rv p f = VDone v rest -> bytes p -> bytes rest.
Proof. unfold rd_varint. destruct (read_varint rv p f) as [[rv' n]| |]; try discriminate. destruct (_ =? 0); [|discriminate]. intros [= _ <-]. apply bytes_skipn. Qed.
Lemma ds_uni c s src fin c' rv evs : src = src0 -> fin = fin0 -> wf K c -> find_stream c id0 = Some s -> peer_uni K id0 = true -> bytes src -> read_uni K c id0 s src fin = KOk c' rv evs -> decs K c o c' evs.
Proof.
  intros -> -> W F PU B. unfold read_uni. destruct (st_u s) as [rvi| | | |] eqn:U; try (apply ds_typed; auto).
  destruct ((zlen src0 =? 0) && fin0).
  - destruct (negb _); [discriminate|]. unfold delete_stream. intros H.
    destruct (drop_ok c id0 s s _ _ _ _ H F eq_refl (wf_ux _ _ W _ _ F (peer_is_uni _ _ PU))) with (n := buffered_len (x_inq (st_x s))) as [T ->]; auto.
    + right. right. split; auto. eauto.
    + intros CB. exfalso. eapply peer_not_bidi; eauto.
    + apply ds_one; [exact T|left; ord].
  - unfold read_type. destruct (rd_varint rvi src0 fin0) as [rv'|v rest| |] eqn:RV; cbn; try discriminate.
    + intros [= <- _ <-]. eapply (ds_silent K c o (AType id0 (UNone rv'))); [eapply t_typing; eauto| |reflexivity|apply ds_nil]. exists src0, fin0. reflexivity.
    + destruct (identify c v) as [[c1 u]| |] eqn:ID; cbn; try discriminate.
      assert (kst K c (AType id0 u) (put c1 id0 (ss_u s u))) as T by (eapply t_type; eauto).
      assert (allowed K o (AType id0 u)) as AL by (exists src0, fin0; reflexivity).
      destruct (zlen rest =? 0).
      * intros [= <- _ <-]. eapply (ds_silent K c o (AType id0 u)); [exact T|exact AL|reflexivity|apply ds_nil].
      * intros H. destruct (read_uni_typed _ _ _ _ _ _) as [c2 n e2| |] eqn:RT; try discriminate. injection H as <- _ <-.
        eapply (ds_silent K c o (AType id0 u)); [exact T|exact AL|reflexivity|]. eapply ds_typed; [eapply kst_wf; eauto| |exact RT]. eapply bytes_rest; eauto.
Qed.
Lemma ds_existing c s c' rv evs : wf K c -> find_stream c id0 = Some s -> client_bidi id0 = true \/ peer_uni K id0 = true -> bytes src0 ->
  read_existing K c id0 s src0 fin0 = KOk c' rv evs -> decs K c o c' evs.
Proof.
  intros W F KD B. unfold read_existing. destruct ((zlen src0 =? 0) && negb fin0) eqn:NE; [intros [= <- _ <-]; apply ds_nil|].
  destruct (stream_uni id0) eqn:SU.
  - destruct KD as [KD|KD]; [apply bidi_uni in KD; congruence|]. apply ds_uni; auto.
  - destruct KD as [KD|KD]; [|apply peer_is_uni in KD; congruence]. apply ds_request; auto.
Qed.
Lemma find_add c id s j : find_stream c id = None -> find_stream (add_stream K c id s) j = if j =? id then Some s else find_stream c j.
Proof.
  intros F. unfold add_stream, find_stream. destruct (is_server_bidi K id); cbn; rewrite (Z.eqb_sym j id); destruct (id =? j); auto.
Qed.
Lemma ds_read c c' rv evs : wf K c -> bytes src0 -> read_stream K c id0 src0 fin0 = KOk c' rv evs -> decs K c o c' evs.
Proof.
  intros W B. unfold read_stream. fold (peer_uni K id0). destruct ((id0 <? 0) || (max_varint <? id0)) eqn:RG; [discriminate|].
  assert (id_range id0) as RNG by (apply orb_false_iff in RG; unfold id_range; lia).
  destruct (find_stream c id0) as [s|] eqn:F.
  - destruct (client_bidi id0 || peer_uni K id0) eqn:CP; [|discriminate]. apply orb_true_iff in CP. apply ds_existing; auto.
  - destruct (is_server_bidi K id0) eqn:SB.
    + destruct (conn_bidi_idtr_open (k_idtr c) id0) as [[r g]| |] eqn:IT; try discriminate. cbv zeta.
      set (c0 := kk_maxid (kk_idtr c g) (Z.max (k_maxid c) id0)).
      assert (kst K c AMisc c0) as T0.
      { assert (c0 = kk_ndec (kk_maxcl (kk_maxid (kk_idtr c g) (Z.max (k_maxid c) id0)) (k_maxcl c)) (k_ndec c)) as -> by (unfold c0; destruct c; reflexivity). apply t_misc; [right; eexists _, _; split; [|eassumption]; first [assumption|exact G4|unfold id_range in *; lia]|lia|lia]. }
      match goal with |- context [create_stream K c0 id0 ?s] => set (s1 := s); destruct (create_stream K c0 id0 s1) as [c1| |] eqn:CR; try discriminate end.
      apply create_ok in CR as [F1 ->].
      assert (kst K c0 (ANew id0 s1) (add_stream K c0 id0 s1)) as T1.
      { apply t_new; auto. - left. split; auto. - intros _. unfold c0. cbn. lia. }
      assert (wf K (add_stream K c0 id0 s1)) as W1 by (eapply kst_wf; [eapply kst_wf; [exact W|exact T0]|exact T1]).
      assert (find_stream (add_stream K c0 id0 s1) id0 = Some s1) as F2 by (rewrite find_add, Z.eqb_refl; auto).
      intros H. destruct (read_existing _ _ _ _ _ _) as [c2 r2 e2| |] eqn:RE; cbn [k_evs] in H; try discriminate. injection H as <- _ <-.
      eapply (ds_silent K c o AMisc); [exact T0|exact I|reflexivity|]. eapply (ds_silent K c0 o (ANew id0 s1)); [exact T1|left; exists src0, fin0; reflexivity|reflexivity|].
      assert (client_bidi id0 = true) as CB by (unfold is_server_bidi in SB; apply andb_true_iff in SB; tauto).
      pose proof (ds_existing _ _ _ _ _ W1 F2 (or_introl CB) B RE) as D.
      change (k_queued c0 && (k_goaway c0 <=? id0)) with (k_queued c && (k_goaway c <=? id0)). destruct (k_queued c && (k_goaway c <=? id0)); [|exact D].
      change (decs K (add_stream K c0 id0 s1) o c2 (vis (ASee (KStop id0 H3_REQUEST_REJECTED)) ++ vis (ASee (KReset id0 H3_REQUEST_REJECTED)) ++ e2)).
      eapply ds_app; [apply ds_one; [apply t_see; eauto|ord]|]. eapply ds_app; [apply ds_one; [apply t_see; eauto|ord]|exact D].
    + destruct (peer_uni K id0) eqn:PU; [|discriminate]. destruct ((zlen src0 =? 0) && fin0); [intros [= <- _ <-]; apply ds_nil|].
      destruct (create_stream _ _ _ _) as [c1| |] eqn:CR; try discriminate. apply create_ok in CR as [F1 ->].
      set (s1 := new_stream id0 (rx_init id0 http_init (k_dec c))).
      assert (kst K c (ANew id0 s1) (add_stream K c id0 s1)) as T1.
      { apply t_new; auto. - right. left. split; auto. - congruence. }
      intros H. eapply (ds_silent K c o (ANew id0 s1)); [exact T1|left; exists src0, fin0; reflexivity|reflexivity|].
      eapply ds_existing; eauto; [eapply kst_wf; eauto|]. rewrite find_add, Z.eqb_refl; auto.
Qed.
End Read.

(* writing *)
Section Write.
Context (K : kenv) (n0 : nat).
Let o := OWritev n0.
Lemma ds_out c id s t : find_stream c id = Some s -> stream_uni id = true -> out_change (ke_tx K id) (st_t s) t -> decs K c o (put c id (ss_t s t)) [].
Proof. intros. eapply (ds_silent K c o (AOut id)); [eapply t_out; eauto|exact I|reflexivity|apply ds_nil]. Qed.
Lemma ds_ebufs es : forall c c', wf K c -> add_ebufs c es = Ok c' -> decs K c o c' [].
Proof.
  induction es as [|e es IH]; intros c c' W; cbn [add_ebufs]; [intros [= <-]; apply ds_nil|].
  destruct (k_tenc c) as [q|] eqn:Q; [|discriminate]. destruct (find_stream c q) as [s|] eqn:F; [|discriminate].
  destruct (write_ebuf (st_t s) e) as [t| |] eqn:WE; cbn; try discriminate. intros H.
  assert (stream_uni q = true) as U by (eapply local_is_uni; apply (wf_tx _ _ W); auto).
  change (@nil kev) with (@nil kev ++ []). eapply ds_app; [eapply ds_out; eauto; eapply oc_ebuf; eauto|]. apply IH; auto. apply wf_put_t; auto.
Qed.
(* what conn_writev_stream offers comes from a stream that exists *)
Definition offered (c : conn) (r : option (Z * list (list Z) * bool)) : Prop :=
  match r with Some (id, vs, fin) => exists s n, find_stream c id = Some s /\ writev (st_t s) n = Ok (vs, fin) | None => True end.
Lemma conn_writev_split c id n c1 r : conn_writev K c id n = Ok (c1, r) -> exists s t es, find_stream c id = Some s /\ tx_fill (ke_tx K id) (st_t s) = Ok (t, es) /\
  add_ebufs (put c id (ss_t s t)) es = Ok c1 /\ offered c1 r /\ (forall i vs fin, r = Some (i, vs, fin) -> i = id \/ (stream_uni id = false /\ k_tenc c1 = Some i)).
Proof.
  unfold conn_writev. destruct (find_stream c id) as [s|] eqn:F; [|discriminate]. destruct (tx_fill _ _) as [[t es]| |] eqn:TF; cbn; try discriminate.
  destruct (add_ebufs _ _) as [c2| |] eqn:AE; cbn; try discriminate. intros H. exists s, t, es. split; auto. split; auto.
  assert ((match find_stream c2 id with Some s0 => let! (vs, fin) := writev (st_t s0) n in Ok (c2, if Nat.eqb (length vs) 0 && negb fin then None else Some (id, vs, fin)) | None => Abort end = Ok (c1, r)) ->
    add_ebufs (put c id (ss_t s t)) es = Ok c1 /\ offered c1 r /\ (forall i vs fin, r = Some (i, vs, fin) -> i = id \/ (stream_uni id = false /\ k_tenc c1 = Some i))) as L.
  { intros L. destruct (find_stream c2 id) as [s0|] eqn:F2; [|discriminate]. destruct (writev (st_t s0) n) as [[vs fin]| |] eqn:WV; cbn in L; try discriminate. injection L as <- <-.
    split; auto. destruct (_ && _); [split; cbn; [auto|discriminate]|]. split; [exists s0, n; auto|]. intros i v f [= <- _ _]. auto. }
  destruct (if stream_uni id then None else k_tenc c2) as [q|] eqn:Q2; cbn [obind] in H; [|apply L; exact H].
  assert (stream_uni id = false /\ k_tenc c2 = Some q) as [Q3 Q4] by (destruct (stream_uni id); [discriminate|auto]).
  destruct (find_stream c2 q) as [sq|] eqn:Fq; cbn [obind] in H; [|discriminate]. destruct (is_blocked sq); cbn [obind] in H; [apply L; exact H|].
  destruct (writev (st_t sq) n) as [[vs fin]| |] eqn:WV; cbn in H; try discriminate. destruct (Nat.eqb (length vs) 0); [apply L; exact H|].
  injection H as <- <-. split; auto. split; [exists sq, n; auto|]. intros i v f [= <- _ _]. auto.
Qed.
Lemma ds_try c w n c1 r : wf K c -> (w = k_tctl c \/ w = k_tenc c \/ w = k_tdec c) -> try_uni K c w n = Ok (c1, r) -> decs K c o c1 [] /\ offered c1 r /\ (forall i vs fin, r = Some (i, vs, fin) -> w = Some i).
Proof.
  intros W CR. unfold try_uni. destruct w as [id|]; [|intros [= <- <-]; cbn; split; [apply ds_nil|split; [auto|discriminate]]].
  assert (local_uni K id = true) as LU by (apply (wf_tx _ _ W); destruct CR as [C|[C|C]]; auto).
  destruct (find_stream c id) as [s|] eqn:F; [|discriminate]. destruct (is_blocked s); [intros [= <- <-]; cbn; split; [apply ds_nil|split; [auto|discriminate]]|].
  destruct (conn_writev K c id n) as [[c2 r2]| |] eqn:CW; cbn; try discriminate. intros [= <- <-].
  destruct (conn_writev_split _ _ _ _ _ CW) as (s' & t & es & F' & TF & AE & OF & WH). assert (s' = s) as -> by congruence.
  assert (stream_uni id = true) as U by (eapply local_is_uni; eauto).
  split; [|split].
  - change (@nil kev) with (@nil kev ++ []). eapply ds_app; [eapply ds_out; eauto; eapply oc_fill; eauto|]. eapply ds_ebufs; eauto. apply wf_put_t; auto.
  - destruct r2 as [[[i vs] fin]|]; cbn; auto. destruct (Nat.eqb _ _); cbn; auto.
  - intros i vs fin H. destruct r2 as [[[i2 vs2] fin2]|]; [|discriminate]. destruct (Nat.eqb _ _); [discriminate|]. injection H as -> -> ->.
    destruct (WH _ _ _ eq_refl) as [->|[WH1 _]]; [auto|congruence].
Qed.
Lemma ds_flush c c1 : wf K c -> flush_decoder c = Ok c1 -> decs K c o c1 [].
Proof.
  intros W. unfold flush_decoder. destruct (k_tdec c) as [id|] eqn:T; [|intros [= <-]; apply ds_nil]. destruct (find_stream c id) as [s|] eqn:F; [|discriminate].
  destruct (is_blocked s); [intros [= <-]; apply ds_nil|]. destruct (_ =? 0); [intros [= <-]; apply ds_nil|].
  destruct (write_decoder _ _) as [[d l]| |] eqn:WD; cbn; try discriminate. destruct (write_raw _ _) as [t| |] eqn:WR; cbn; try discriminate. intros [= <-].
  eapply (ds_silent K c o (ADec [])); [apply t_dec; eapply dc_flush; eauto|reflexivity|reflexivity|]. apply ds_out; auto.
  - eapply local_is_uni. apply (wf_tx _ _ W). auto.
  - eapply oc_raw; eauto.
Qed.
Lemma ds_offer c id vs fin : offered c (Some (id, vs, fin)) -> decs K c o c [KOffer id vs fin].
Proof. intros (s & n & F & W). change [KOffer id vs fin] with (vis (AOffer id vs fin)). apply ds_one; [eapply t_offer; eauto|cbn; exists n0; reflexivity]. Qed.
Lemma add_ebufs_sch es : forall c c1, add_ebufs c es = Ok c1 -> k_sch c1 = k_sch c.
Proof. intros c c1. apply (add_ebufs_P (fun x => k_sch x = k_sch c)); auto. Qed.
Lemma ds_writev c c' rv evs : wf K c -> writev_call K c n0 = KOk c' rv evs -> decs K c o c' evs.
Proof.
  intros W. unfold writev_call. destruct (writev_stream K c n0) as [[c1 r]| |] eqn:WS; try discriminate. intros H.
  assert (decs K c o c1 [] /\ offered c1 r) as [D OF].
  2:{ destruct r as [[[id vs] fin]|]; injection H as <- _ <-; [|exact D]. change [KOffer id vs fin] with ([] ++ [KOffer id vs fin]). eapply ds_app; [exact D|]. apply ds_offer; auto. }
  clear H. unfold writev_stream in WS. destruct (Nat.eqb n0 0); [injection WS as <- <-; split; [apply ds_nil|exact I]|].
  destruct (try_uni K c (k_tctl c) n0) as [[c2 r2]| |] eqn:T1; cbn [obind] in WS; try discriminate.
  destruct (ds_try _ _ _ _ _ W (or_introl eq_refl) T1) as (D1 & O1 & _). destruct r2 as [x|]; [injection WS as <- <-; auto|].
  pose proof (ds_wf _ _ _ _ _ W D1) as W2. destruct (flush_decoder c2) as [c3| |] eqn:T2; cbn [obind] in WS; try discriminate.
  pose proof (ds_flush _ _ W2 T2) as D2. pose proof (ds_wf _ _ _ _ _ W2 D2) as W3. pose proof (ds_app _ _ _ _ _ _ _ D1 D2) as D12.
  destruct (try_uni K c3 (k_tdec c3) n0) as [[c4 r4]| |] eqn:T3; cbn [obind] in WS; try discriminate.
  destruct (ds_try _ _ _ _ _ W3 (or_intror (or_intror eq_refl)) T3) as (D3 & O3 & _). pose proof (ds_wf _ _ _ _ _ W3 D3) as W4. pose proof (ds_app _ _ _ _ _ _ _ D12 D3) as D13.
  destruct r4 as [x|]; [injection WS as <- <-; auto|].
  destruct (try_uni K c4 (k_tenc c4) n0) as [[c5 r5]| |] eqn:T4; cbn [obind] in WS; try discriminate.
  destruct (ds_try _ _ _ _ _ W4 (or_intror (or_introl eq_refl)) T4) as (D4 & O4 & _). pose proof (ds_wf _ _ _ _ _ W4 D4) as W5. pose proof (ds_app _ _ _ _ _ _ _ D13 D4) as D14.
  destruct r5 as [x|]; [injection WS as <- <-; auto|].
  destruct (get_next_tx (k_sch c5)) as [[id|]| |] eqn:GN; cbn [obind] in WS; try discriminate; [|injection WS as <- <-; split; [exact D14|exact I]].
  destruct (conn_writev K c5 id n0) as [[c6 r6]| |] eqn:CW; cbn [obind] in WS; try discriminate.
  destruct (conn_writev_split _ _ _ _ _ CW) as (s & t & es & F & TF & AE & OF & _).
  destruct (find_stream c6 id) as [s1|] eqn:F6; [|discriminate]. unfold sched_do in WS. rewrite (add_ebufs_sch _ _ _ AE) in WS. cbn [k_sch put kk_str] in WS.
  destruct (if client_bidi id then sc_offered (k_sch c5) id (require s1) else Ok (k_sch c5)) as [sch'| |] eqn:SO; cbn [obind] in WS; try discriminate. injection WS as <- <-.
  split; [|exact OF]. change (@nil kev) with (@nil kev ++ []). eapply ds_app; [exact D14|].
  eapply (ds_silent K c5 o (AFill id)); [eapply t_fill; eauto|exists n0; reflexivity|reflexivity|apply ds_nil].
Qed.
End Write.

(* the bytes delivered are bytes *)
Definition op_ok (o : cop) : Prop := match o with ORead _ src _ => bytes src | _ => True end.
Lemma bind_not_bidi K id : local_uni K id = true -> is_server_bidi K id = false.
Proof. intros H. unfold is_server_bidi. destruct (client_bidi id) eqn:C; [exfalso; eapply local_not_bidi; eauto|apply andb_false_r]. Qed.
Lemma ds_open K c id u ty frs c' o : wf K c -> critical u -> local_uni K id = true -> id_ok id = true -> (forall nva, ~ In (TxModel.FHeaders nva) frs) -> ~ In TxModel.FData frs ->
  (o = OBindControl id \/ exists a b, o = OBindQpack a b /\ (id = a \/ id = b)) -> open_uni K c id u ty frs = Ok c' ->
  decs K c o c' [] /\ (exists s, find_stream c' id = Some s /\ st_u s = u) /\ (forall j t, find_stream c j = Some t -> find_stream c' j = Some t) /\
  k_tctl c' = k_tctl c /\ k_tenc c' = k_tenc c /\ k_tdec c' = k_tdec c.
Proof.
  intros W CU LU IO N1 N2 HO. unfold open_uni. set (s := ss_u (new_stream id (rx_init id http_init (k_dec c))) u).
  destruct (create_stream K c id s) as [c1| |] eqn:CR; cbn [obind]; try discriminate. apply create_ok in CR as [F1 ->].
  change (st_t s) with tx_init. destruct (write_raw tx_init [ty]) as [t| |] eqn:WR; cbn [obind]; try discriminate. intros H. apply RdVarint.ok_inj in H. subst c'.
  set (c1 := add_stream K c id s).
  assert (find_stream c1 id = Some s) as F2 by (unfold c1; rewrite find_add, Z.eqb_refl; auto).
  assert (stream_uni id = true) as U by (eapply local_is_uni; eauto).
  assert (forall j x, find_stream c j = Some x -> find_stream c1 j = Some x /\ j <> id) as FO by (intros j x Fj; unfold c1; rewrite find_add by auto; destruct (Z.eqb_spec j id); [subst; congruence|auto]).
  assert (k_tctl c1 = k_tctl c /\ k_tenc c1 = k_tenc c /\ k_tdec c1 = k_tdec c) as TX by (unfold c1, add_stream; destruct (is_server_bidi K id); auto).
  split; [|split; [|split]].
  - eapply (ds_silent K c o (ANew id s)).
    + apply t_new; auto. * unfold id_ok in IO. apply andb_true_iff in IO. lia. * right. right. left. split; auto. split; auto. exists u. auto. * rewrite bind_not_bidi by auto. discriminate.
    + cbn. right. right. exact HO.
    + reflexivity.
    + eapply (ds_silent K c1 o (AOut id)); [eapply t_out; eauto; eapply oc_raw; exact WR|destruct HO as [->|(? & ? & -> & _)]; exact I|reflexivity|].
      rewrite <- (put_put c1 id (ss_t s t) (ss_t s (tx_submit t frs false))). eapply (ds_silent K _ o (AOut id)); [|destruct HO as [->|(? & ? & -> & _)]; exact I|reflexivity|apply ds_nil].
      eapply (t_out K _ id (ss_t s t)); [eapply find_put_same; eauto|auto|]. apply oc_submit; auto.
  - eexists. split; [eapply find_put_same; eauto|]. reflexivity.
  - intros j x Fj. destruct (FO j x Fj). rewrite find_put_other; auto.
  - exact TX.
Qed.
Lemma obind_ok A B (x : outcome A) (f : A -> outcome B) y : obind x f = Ok y -> exists a, x = Ok a /\ f a = Ok y.
Proof. destruct x; cbn; try discriminate. eauto. Qed.
Lemma lift_ok o0 c' rv evs : k_lift o0 = KOk c' rv evs -> o0 = Ok c' /\ rv = 0 /\ evs = [].
Proof. destruct o0; cbn; try discriminate. intros [= <- <- <-]. auto. Qed.
Lemma ds_bind_control K c id c' rv evs : wf K c -> bind_control K c id = KOk c' rv evs -> decs K c (OBindControl id) c' evs.
Proof.
  intros W. unfold bind_control. destruct (id_ok id) eqn:IO; cbn; [|discriminate]. destruct (local_uni K id) eqn:LU; cbn; [|discriminate].
  destruct (k_tctl c) as [t|] eqn:TC; [intros [= <- _ <-]; apply ds_nil|]. intros H. apply lift_ok in H as (H & _ & ->). apply obind_ok in H as (c1 & H1 & H2). injection H2 as <-.
  destruct (ds_open K c id UCtl 0 [FSettings (ke_set K)] c1 (OBindControl id) W) as (D & (s & F & U) & FO & T1 & T2 & T3); auto.
  { left; auto. } { intros nva [Q|[]]; discriminate. } { intros [Q|[]]; discriminate. }
  pose proof (ds_wf _ _ _ _ _ W D) as W1.
  eapply ds_end; [exact D|apply (t_bind K c1 (Some id) (k_tenc c1) (k_tdec c1))|left; eauto|reflexivity]; auto.
  - left. congruence.
  - intros j [Q|[Q|Q]]; [injection Q as <-; split; auto; exists s; split; auto; left; auto|apply (wf_tx _ _ W1); auto|apply (wf_tx _ _ W1); auto].
Qed.
Lemma ds_bind_qpack K c e d c' rv evs : wf K c -> bind_qpack K c e d = KOk c' rv evs -> decs K c (OBindQpack e d) c' evs.
Proof.
  intros W. unfold bind_qpack. destruct (id_ok e) eqn:IE; cbn; [|discriminate]. destruct (id_ok d) eqn:ID; cbn; [|discriminate].
  destruct (local_uni K e) eqn:LE; cbn; [|discriminate]. destruct (local_uni K d) eqn:LD; cbn; [|discriminate].
  destruct (k_tenc c) as [t|] eqn:TC; [intros [= <- _ <-]; apply ds_nil|]. destruct (k_tdec c) as [t|] eqn:TD; [intros [= <- _ <-]; apply ds_nil|].
  intros H. apply lift_ok in H as (H & _ & ->). apply obind_ok in H as (c1 & H1 & H). apply obind_ok in H as (c2 & H2 & H). injection H as <-.
  destruct (ds_open K c e UEnc 2 [] c1 (OBindQpack e d) W) as (D & (s & F & U) & FO & T1 & T2 & T3); auto.
  { right; left; auto. } { right; eauto. }
  pose proof (ds_wf _ _ _ _ _ W D) as W1.
  set (c1' := kk_tx c1 (k_tctl c1) (Some e) None) in *.
  assert (decs K c (OBindQpack e d) c1' []) as D1.
  { eapply ds_end; [exact D|apply (t_bind K c1 (k_tctl c1) (Some e) None)|right; eauto|reflexivity]; auto.
    - left. congruence. - left. congruence.
    - intros j [Q|[Q|Q]]; [apply (wf_tx _ _ W1); auto|injection Q as <-; split; auto; exists s; split; auto; right; left; auto|discriminate]. }
  assert (c1' = kk_tx c1 (k_tctl c1) (Some e) (k_tdec c1)) as EQ by (unfold c1'; rewrite T3, TD; auto). rewrite <- EQ in H2.
  pose proof (ds_wf _ _ _ _ _ W D1) as W1'.
  destruct (ds_open K c1' d UDec 3 [] c2 (OBindQpack e d) W1') as (D2 & (s2 & F2 & U2) & FO2 & T12 & T22 & T32); auto.
  { right; right; auto. } { right; eauto. }
  pose proof (ds_app _ _ _ _ _ _ _ D1 D2) as D12. pose proof (ds_wf _ _ _ _ _ W D12) as W2.
  eapply ds_end; [exact D12|apply (t_bind K c2 (k_tctl c2) (k_tenc c2) (Some d))|right; eauto|reflexivity]; auto.
  - intros j [Q|[Q|Q]]; [apply (wf_tx _ _ W2); auto|apply (wf_tx _ _ W2); auto|injection Q as <-; split; auto; exists s2; split; auto; right; right; auto].
Qed.
Lemma unsched_flag s x s' : unschedule s x = Ok s' -> n_sched (sc_n s' x) = false.
Proof.
  unfold unschedule, take_out. destruct (negb _); [discriminate|]. destruct (n_sched (sc_n s x)) eqn:E; cbn; [|intros [= <-]; auto].
  destruct (pq_remove _ _ _); try discriminate. intros [= <-]. cbn. rewrite upd_z_same. reflexivity.
Qed.
Lemma ds_submit K c id s nva dr fin c' rv evs o : find_stream c id = Some s -> allowed0 K o (ASubmit id nva dr fin) -> submit_headers c id s nva dr fin = KOk c' rv evs -> decs K c o c' evs.
Proof.
  intros F A H. unfold submit_headers in H. apply lift_ok in H as (H & _ & ->). unfold sched_do in H.
  destruct (sc_submit _ _ _) as [sch'| |] eqn:SC; try discriminate. injection H as <-.
  eapply (ds_silent K c o (ASubmit id nva dr fin)); [|exact A|reflexivity|apply ds_nil]. eapply t_submit; eauto.
Qed.
Theorem step_decomp K c o c' rv evs : wf K c -> op_ok o -> kstep K c o = KOk c' rv evs -> exists acts, decomp K c o c' evs acts.
Proof.
  intros W OK. change (kstep K c o = KOk c' rv evs -> decs K c o c' evs). destruct o; cbn [kstep].
  - apply ds_bind_control; auto.
  - apply ds_bind_qpack; auto.
  - apply ds_read; auto.
  - apply ds_writev; auto.
  - (* add_write_offset *) unfold add_write_offset. destruct (find_stream c id) as [s|] eqn:F; [|intros [= <- _ <-]; apply ds_nil].
    intros H. apply lift_ok in H as (H & _ & ->). apply obind_ok in H as (t & H1 & H2).
    assert (exists sch', (if client_bidi id then sc_written (k_sch c) id n (require (ss_t s t)) else Ok (k_sch c)) = Ok sch' /\ c' = kk_sch (put c id (ss_t s t)) sch') as (sch' & SC & ->).
    { unfold sched_do in H2. cbn [k_sch put kk_str] in H2. destruct (client_bidi id).
      - destruct (sc_written _ _ _ _) as [sch'| |]; try discriminate. injection H2 as <-. eauto.
      - injection H2 as <-. exists (k_sch c). split; auto. }
    eapply (ds_silent K c _ (AWritten id n)); [eapply t_written; eauto|reflexivity|reflexivity|apply ds_nil].
  - (* add_ack_offset *) unfold ack_call. destruct (find_stream c id) as [s|] eqn:F; [|intros [= <- _ <-]; apply ds_nil].
    destruct (tx_add_ack (st_t s) n) as [[t calls]| |] eqn:A; try discriminate; intros [= <- _ <-]; [|apply ds_nil].
    change (map (KAcked id) calls) with (vis (AAcked id calls)). apply ds_one; [|cbn; eauto]. apply (t_acked K c id s t calls F). exists (t_acko (st_t s) + n). exact A.
  - unfold ack_call. destruct (find_stream c id) as [s|] eqn:F; [|intros [= <- _ <-]; apply ds_nil].
    destruct (tx_update_ack (st_t s) off) as [[t calls]| |] eqn:A; try discriminate; intros [= <- _ <-]; [|apply ds_nil].
    change (map (KAcked id) calls) with (vis (AAcked id calls)). apply ds_one; [|cbn; eauto]. apply (t_acked K c id s t calls F). exists off.
    unfold tx_update_ack in A. destruct (_ <? _); [discriminate|exact A].
  - (* request *) unfold submit_request. destruct (ke_server K) eqn:SV; cbn [orb]; [discriminate|]. destruct (has_enc c); cbn [andb negb]; [|discriminate].
    destruct (id_ok id) eqn:IO; cbn [andb negb]; [|discriminate]. destruct (client_bidi id) eqn:CB; cbn [andb negb]; [|discriminate].
    destruct (c_closing _); [intros [= <- _ <-]; apply ds_nil|]. destruct (find_stream c id) as [s|] eqn:F; [intros [= <- _ <-]; apply ds_nil|]. cbv zeta.
    match goal with |- context [create_stream K c id ?s] => set (s1 := s); destruct (create_stream K c id s1) as [c1| |] eqn:CR; try discriminate end.
    apply create_ok in CR as [_ ->]. intros H.
    eapply (ds_silent K c _ (ANew id s1)); [apply t_new; auto| |reflexivity|].
    + unfold id_ok in IO. apply andb_true_iff in IO. lia.
    + right. right. right. split; auto. split; auto. split; auto. exists nva. reflexivity.
    + unfold is_server_bidi. rewrite SV. discriminate.
    + cbn. right. left. eauto.
    + eapply ds_submit; [|cbn; left; reflexivity|exact H]. rewrite find_add, Z.eqb_refl; auto.
  - unfold submit_info. destruct (negb _); [discriminate|]. destruct (find_stream c id) as [s|] eqn:F; [|intros [= <- _ <-]; apply ds_nil].
    intros H. eapply ds_submit; [exact F|cbn; right; right; split; auto|exact H].
  - unfold submit_response. destruct (negb (_ && _)); [discriminate|]. destruct (find_stream c id) as [s|] eqn:F; [|intros [= <- _ <-]; apply ds_nil].
    intros H. eapply ds_submit; [exact F|cbn; right; left; reflexivity|exact H].
  - unfold submit_trailers. destruct (negb _); [discriminate|]. destruct (find_stream c id) as [s|] eqn:F; [|intros [= <- _ <-]; apply ds_nil].
    destruct (t_end _); [intros [= <- _ <-]; apply ds_nil|]. intros H. eapply ds_submit; [exact F|cbn; right; right; split; auto|exact H].
  - unfold submit_shutdown_notice, queue_goaway. destruct (k_tctl c) as [t|] eqn:T; [|discriminate]. destruct (find_stream c t) as [s|] eqn:F; [|discriminate].
    match goal with |- context [k_goaway c <? ?g] => destruct (Z.ltb_spec (k_goaway c) g) as [|G]; [discriminate|]; set (gid := g) in * end. intros [= <- _ <-].
    eapply (ds_silent K c _ (AGoaway gid false)); [eapply t_goaway; eauto|reflexivity|reflexivity|apply ds_nil].
  - unfold shutdown, queue_goaway. destruct (k_tctl c) as [t|] eqn:T; [|discriminate]. destruct (find_stream c t) as [s|] eqn:F; [|discriminate].
    match goal with |- context [k_goaway c <? ?g] => destruct (Z.ltb_spec (k_goaway c) g) as [|G]; [discriminate|]; set (gid := g) in * end. intros [= <- _ <-].
    eapply (ds_silent K c _ (AGoaway gid true)); [eapply t_goaway; eauto|reflexivity|reflexivity|apply ds_nil].
  - (* block *) unfold block_with. destruct (find_stream c id) as [s|] eqn:F; [|intros [= <- _ <-]; apply ds_nil].
    intros H. apply lift_ok in H as (H & _ & ->).
    assert (exists sch', (if client_bidi id then sc_block (k_sch c) id else Ok (k_sch c)) = Ok sch' /\ c' = kk_sch (put c id (ss_fc s true)) sch') as (sch' & SC & ->).
    { unfold sched_do in H. cbn [k_sch put kk_str] in H. destruct (client_bidi id).
      - destruct (sc_block _ _) as [sch'| |]; try discriminate. injection H as <-. eauto.
      - injection H as <-. exists (k_sch c). split; auto. }
    eapply (ds_silent K c _ (ABlock id true)); [eapply (t_block K c id s true); eauto|reflexivity|reflexivity|apply ds_nil].
  - (* unblock *) unfold wake_with. destruct (find_stream c id) as [s|] eqn:F; [|intros [= <- _ <-]; apply ds_nil].
    intros H. apply lift_ok in H as (H & _ & ->).
    assert (exists sch', (if client_bidi id then sc_wake (k_sch c) id (require (ss_fc s false)) else Ok (k_sch c)) = Ok sch' /\ c' = kk_sch (put c id (ss_fc s false)) sch') as (sch' & SC & ->).
    { unfold sched_do in H. cbn [k_sch put kk_str] in H. destruct (client_bidi id).
      - destruct (sc_wake _ _ _) as [sch'| |]; try discriminate. injection H as <-. eauto.
      - injection H as <-. exists (k_sch c). split; auto. }
    eapply (ds_silent K c _ (AWake id true)); [eapply (t_wake K c id s true); eauto|reflexivity|reflexivity|apply ds_nil].
  - unfold block_with. destruct (find_stream c id) as [s|] eqn:F; [|intros [= <- _ <-]; apply ds_nil].
    intros H. apply lift_ok in H as (H & _ & ->).
    assert (exists sch', (if client_bidi id then sc_block (k_sch c) id else Ok (k_sch c)) = Ok sch' /\ c' = kk_sch (put c id (ss_swr s true)) sch') as (sch' & SC & ->).
    { unfold sched_do in H. cbn [k_sch put kk_str] in H. destruct (client_bidi id).
      - destruct (sc_block _ _) as [sch'| |]; try discriminate. injection H as <-. eauto.
      - injection H as <-. exists (k_sch c). split; auto. }
    eapply (ds_silent K c _ (ABlock id false)); [eapply (t_block K c id s false); eauto|reflexivity|reflexivity|apply ds_nil].
  - unfold wake_with. destruct (find_stream c id) as [s|] eqn:F; [|intros [= <- _ <-]; apply ds_nil].
    intros H. apply lift_ok in H as (H & _ & ->).
    assert (exists sch', (if client_bidi id then sc_wake (k_sch c) id (require (ss_t s (tx_resume (st_t s)))) else Ok (k_sch c)) = Ok sch' /\ c' = kk_sch (put c id (ss_t s (tx_resume (st_t s)))) sch') as (sch' & SC & ->).
    { unfold sched_do in H. cbn [k_sch put kk_str] in H. destruct (client_bidi id).
      - destruct (sc_wake _ _ _) as [sch'| |]; try discriminate. injection H as <-. eauto.
      - injection H as <-. exists (k_sch c). split; auto. }
    eapply (ds_silent K c _ (AWake id false)); [eapply (t_wake K c id s false); eauto|reflexivity|reflexivity|apply ds_nil].
  - (* close *) unfold close_stream. destruct (find_stream c id) as [s|] eqn:F; [|intros [= <- _ <-]; apply ds_nil].
    destruct (stream_uni id && _) eqn:CR; [discriminate|]. cbv zeta. unfold sched_do. cbn [k_sch put kk_str].
    assert (stream_uni id = true -> st_u s = UUnk) as U by (intros U; rewrite U in CR; destruct (st_u s); try discriminate; auto).
    destruct (sc_close (k_sch c) id) as [sch'| |] eqn:SC; try discriminate. cbn [st_x ss_code].
    pose proof (t_close K c id s code sch' F U SC) as T. cbv zeta in T. cbn [st_x ss_code] in T.
    destruct (b_blk (x_st (st_x s))) eqn:B.
    + intros [= <- _ <-]. eapply (ds_silent K c _ (AClose id code)); [|reflexivity|reflexivity|apply ds_nil].
      assert (put (kk_sch (put c id (ss_code s code)) sch') id (ss_x (ss_code s code) (x_close (st_x s))) = kk_sch (put c id (ss_x (ss_code s code) (x_close (st_x s)))) sch') as ->; [|exact T].
      change (kk_sch (put (put c id (ss_code s code)) id (ss_x (ss_code s code) (x_close (st_x s)))) sch' = kk_sch (put c id (ss_x (ss_code s code) (x_close (st_x s)))) sch'). rewrite put_put. reflexivity.
    + unfold delete_stream. cbn [st_x ss_code]. intros H. change evs with ([] ++ evs).
      assert (find_stream (kk_sch (put c id (ss_code s code)) sch') id = Some (ss_code s code)) as F1 by (eapply find_put_same; eauto).
      destruct (drop_ok K _ id (ss_code s code) (ss_code s code) _ _ _ _ H F1 eq_refl B) with (n := buffered_len (x_inq (st_x s))) as [T2 ->]; auto.
      * cbn. destruct (wf_id _ _ W _ _ F) as [_ [C|C]]; auto.
      * intros _. left. apply (unsched_flag _ _ _ SC).
      * eapply (ds_silent K c _ (AClose id code)); [exact T|reflexivity|reflexivity|]. apply ds_one; [exact T2|right; eauto].
  - (* shutdown_stream_read *) unfold shutdown_read. destruct (negb (id_ok id)); [discriminate|]. destruct (client_bidi id) eqn:CB; cbn [negb]; [|intros [= <- _ <-]; apply ds_nil].
    destruct (find_stream c id) as [s|] eqn:F.
    + destruct (x_shut (st_x s)) eqn:SH; [intros [= <- _ <-]; apply ds_nil|]. cbn [k_dec put kk_str]. destruct (dec_cancel_stream (k_dec c) id) as [d| |] eqn:D; try discriminate. intros [= <- _ <-].
      eapply (ds_silent K c _ (AShut id)); [eapply t_shut; eauto|reflexivity|reflexivity|apply ds_nil].
    + destruct (dec_cancel_stream (k_dec c) id) as [d| |] eqn:D; try discriminate. intros [= <- _ <-].
      eapply (ds_silent K c _ (ADec [])); [apply t_dec; eapply dc_cancel; eauto|reflexivity|reflexivity|apply ds_nil].
  - unfold set_max_client. destruct (ke_server K); cbn [andb]; [|discriminate]. destruct (Z.leb_spec (k_maxcl c) n) as [L|]; [|discriminate]. intros [= <- _ <-].
    eapply (ds_silent K c _ AMisc); [|exact I|reflexivity|apply ds_nil].
    assert (kk_maxcl c n = kk_ndec (kk_maxcl (kk_maxid (kk_idtr c (k_idtr c)) (k_maxid c)) n) (k_ndec c)) as -> by (destruct c; reflexivity). apply t_misc; [left; reflexivity|lia|lia].
  - unfold set_max_concurrent. intros [= <- _ <-]. eapply (ds_silent K c _ (ADec [])); [apply t_dec; apply dc_max|reflexivity|reflexivity|apply ds_nil].
  - unfold set_client_priority. destruct (_ || _); [discriminate|]. destruct (negb _); [intros [= <- _ <-]; apply ds_nil|]. destruct (find_stream c id); [|intros [= <- _ <-]; apply ds_nil].
    destruct (k_tctl c) as [t|] eqn:T; [|discriminate]. destruct (find_stream c t) as [st|] eqn:F; [|discriminate]. intros [= <- _ <-].
    eapply (ds_silent K c _ (AOut t)); [|exact I|reflexivity|apply ds_nil]. eapply t_out; eauto.
    + eapply local_is_uni. apply (wf_tx _ _ W). auto.
    + apply oc_submit; [intros nva [Q|[]]|intros [Q|[]]]; discriminate.
  - unfold set_server_priority. destruct (ke_server K) eqn:SV; cbn [andb negb]; [|discriminate]. destruct (urg_ok (p_urg p)) eqn:UO; cbn [andb negb]; [|discriminate].
    destruct ((p_inc p =? 0) || (p_inc p =? 1)) eqn:PI; cbn [andb negb]; [|discriminate]. destruct (id_ok id); cbn [negb]; [|discriminate].
    destruct (client_bidi id) eqn:CB; cbn [negb]; [|intros [= <- _ <-]; apply ds_nil]. destruct (find_stream c id) as [s|] eqn:F; [|intros [= <- _ <-]; apply ds_nil].
    intros H. apply lift_ok in H as (H & _ & ->). unfold update_priority in H. rewrite CB in H. cbn [negb] in H. unfold sched_do in H. cbn [k_sch put kk_str] in H.
    destruct (sc_priority _ _ _ _) as [sch'| |] eqn:SC; try discriminate. injection H as <-.
    eapply (ds_silent K c _ (AServer id p)); [eapply t_server; eauto|reflexivity|reflexivity|apply ds_nil].
Qed.
Theorem step_wf K c o c' rv evs : wf K c -> op_ok o -> kstep K c o = KOk c' rv evs -> wf K c'.
Proof. intros W OK H. destruct (step_decomp _ _ _ _ _ _ W OK H) as (acts & D). eapply decomp_wf; eauto. Qed.
