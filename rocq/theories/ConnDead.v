(* A call of the API that fails: elementary actions, then what the failing step showed *)
From Verif Require Import Base BaseLemmas Chunk ConvModel RdVarint QpackTabModel QpackDecModel HttpModel BidiModel BidiHist ControlModel GapModel PqModel PqProofs PqWeak TxModel SchedModel SchedProofs SchedFair ConnModel ConnCtl ConnStep ConnRx ConnWf ConnDecomp.
Open Scope Z_scope.

Definition x_result (r : xres) : option (list bev) := match r with XOk _ l | XGone _ l | XErr _ l => Some l | XAbort => None end.
(* what the step that fails can show: frames of the control stream; what is read of the stream the call is for; what a
   stream that waited for the encoder stream goes on with *)
Inductive dlast (K : kenv) (o : cop) (c : conn) : list kev -> Prop :=
| dl_none : dlast K o c []
| dl_control evs : (exists id src fin, o = ORead id src fin) -> dlast K o c (map KControl evs)
| dl_recv id s src fin evs : o = ORead id src fin -> client_bidi id = true -> find_stream c id = Some s ->
    x_result (recv false (benv_of K c s) (rx_now c s) src fin) = Some evs -> dlast K o c (map (KStream id) evs)
| dl_resume id s q evs : (exists i src fin, o = ORead i src fin) -> pq_empty (k_blk c) = false -> pq_top (k_blk c) = Ok id -> find_stream c id = Some s ->
    ricnt c id <= next_absidx (d_ctx (k_dec c)) -> pq_pop (ricnt_less c) (k_blk c) = Ok q ->
    x_result (resume false (benv_of K (kk_blk c q) s) (unblocked c s)) = Some evs -> dlast K o c (map (KStream id) evs).
Definition dead_at (K : kenv) (c : conn) (o : cop) (evs : list kev) : Prop :=
  exists c1 e1 e2, decs K c o c1 e1 /\ evs = e1 ++ e2 /\ dlast K o c1 e2.
Lemma dd_last K c o evs : dlast K o c evs -> dead_at K c o evs.
Proof. intros H. exists c, [], evs. split; [apply ds_nil|auto]. Qed.
Lemma dd_app K c o c1 e1 evs : decs K c o c1 e1 -> dead_at K c1 o evs -> dead_at K c o (e1 ++ evs).
Proof. intros D (c2 & e2 & e3 & D2 & -> & L). exists c2, (e1 ++ e2), e3. split; [eapply ds_app; eauto|]. split; [apply app_assoc|exact L]. Qed.
Lemma dd_silent K c o a c1 evs : kst K c a c1 -> allowed0 K o a -> vis a = [] -> dead_at K c1 o evs -> dead_at K c o evs.
Proof. intros H A V D. change evs with ([] ++ evs). rewrite <- V. eapply dd_app; [apply ds_one; eauto|exact D]. Qed.

Section Read.
Context (K : kenv) (id0 : Z) (src0 : list Z) (fin0 : bool).
Let o := ORead id0 src0 fin0.
Ltac ord := exists id0, src0, fin0; reflexivity.
Lemma dd_request c s e evs : find_stream c id0 = Some s -> client_bidi id0 = true -> read_request_stream K c id0 s src0 fin0 = KDead e evs -> dead_at K c o evs.
Proof.
  intros F CB. unfold read_request_stream. destruct (recv false (benv_of K c s) (rx_now c s) src0 fin0) as [x' ev| |e' ev|] eqn:R; try discriminate.
  - destruct (after_read c id0 s x' ev) as [c1| |] eqn:A; try discriminate. intros [= _ <-]. apply dd_last. apply (dl_recv K o c id0 s src0 fin0 ev eq_refl CB F). rewrite R. reflexivity.
  - intros [= _ <-]. apply dd_last. apply (dl_recv K o c id0 s src0 fin0 ev eq_refl CB F). rewrite R. reflexivity.
Qed.
Lemma dd_unblock f : forall c e evs, wf K c -> unblock_loop K f c = KDead e evs -> dead_at K c o evs.
Proof.
  induction f as [|f IH]; intros c e evs W; cbn [unblock_loop]; [discriminate|].
  destruct (pq_empty (k_blk c)) eqn:PE; [discriminate|].
  destruct (pq_top (k_blk c)) as [id| |] eqn:PT; try discriminate. destruct (find_stream c id) as [s|] eqn:F; [|discriminate].
  destruct (Z.ltb_spec (next_absidx (d_ctx (k_dec c))) (ricnt c id)) as [|RI]; [discriminate|].
  destruct (pq_pop (ricnt_less c) (k_blk c)) as [q| |] eqn:PP; try discriminate. cbv zeta.
  change (x_set_st (rx_now (kk_blk c q) s) (st_blk (x_st (rx_now (kk_blk c q) s)) false)) with (unblocked c s).
  change (benv_of K (kk_blk c q) (ss_x s (unblocked c s))) with (benv_of K (kk_blk c q) s).
  change (x_def (unblocked c s)) with (x_def (st_x s)).
  destruct (wf_pop K c id s q W PE PT F PP) as (CB & _ & _).
  pose proof (resume_fact false (benv_of K (kk_blk c q) s) (unblocked c s)) as RF. pose proof (resume_gone false (benv_of K (kk_blk c q) s) (unblocked c s)) as RG.
  pose proof (proj2 (wf_x _ _ W _ _ F)) as PV.
  assert (LAST : forall ev, x_result (resume false (benv_of K (kk_blk c q) s) (unblocked c s)) = Some ev -> dead_at K c o (map (KStream id) ev)).
  { intros ev X. apply dd_last. apply (dl_resume K o c id s q ev); auto. ord. }
  destruct (resume false (benv_of K (kk_blk c q) s) (unblocked c s)) as [x' ev|x' ev|e' ev|] eqn:R; try discriminate.
  - destruct (after_read _ _ _ _ _) as [c1| |] eqn:A; try discriminate; [|intros [= _ <-]; apply LAST; reflexivity]. destruct RF as [RF _ _ _].
    destruct (ds_after K id0 src0 fin0 (kk_blk c q) id (ss_x s (unblocked c s)) _ _ _ s F (ann_ok K (kk_blk c q) s ev (x_st (unblocked c s)) _ PV RF) A) as [D _].
    assert (kst K c (AResume id ev (x_def x' - x_def (st_x s))) (mid (kk_blk c q) id (ss_x s (unblocked c s)) x')) as T by (eapply t_resume; eauto).
    assert (decs K c o c1 (vis (AResume id ev (x_def x' - x_def (st_x s))))) as D1.
    { eapply ds_then; [exact T|exists id0, src0, fin0; reflexivity|exact D|]. intros i p [-> H]. unfold said. cbn [vis]. apply in_app_iff. left. apply in_map. apply in_prios. exact H. }
    intros H. destruct (unblock_loop K f c1) as [c2 r2 e2|e2 ev2|] eqn:U; cbn [k_evs] in H; try discriminate. injection H as _ <-.
    eapply dd_app; [exact D1|]. eapply IH; [eapply ds_wf; eauto|exact U].
  - destruct (after_read _ _ _ _ _) as [c1| |] eqn:A; try discriminate; [|intros [= _ <-]; apply LAST; reflexivity]. destruct RF as [RF _ _ _]. destruct (RG _ _ eq_refl) as [RG1 RG2].
    destruct (ds_after K id0 src0 fin0 (kk_blk c q) id (ss_x s (unblocked c s)) _ _ _ s F (ann_ok K (kk_blk c q) s ev (x_st (unblocked c s)) _ PV RF) A) as [D F1].
    assert (kst K c (AResume id ev (x_def x' - x_def (st_x s))) (mid (kk_blk c q) id (ss_x s (unblocked c s)) x')) as T by (eapply t_resume_gone; eauto).
    assert (decs K c o c1 (vis (AResume id ev (x_def x' - x_def (st_x s))))) as D1.
    { eapply ds_then; [exact T|exists id0, src0, fin0; reflexivity|exact D|]. intros i p [-> H]. unfold said. cbn [vis]. apply in_app_iff. left. apply in_map. apply in_prios. exact H. }
    intros H. destruct (drop_stream _ _ _ _ _) as [c2 r2 e2|e2 ev2|] eqn:DR; try discriminate.
    2: { exfalso. unfold drop_stream in DR. destruct (is_server_bidi K id); [destruct (_ <=? _)|]; discriminate DR. }
    assert (exists e3, drop_stream K c1 id (ss_x s (unblocked c s)) (deferred id 0) = KOk c2 r2 e3 /\ e2 = vis (AResume id ev (x_def x' - x_def (st_x s))) ++ e3) as (e3 & DR3 & E3).
    { revert DR. unfold drop_stream. cbn [vis]. rewrite deferred_0. destruct (is_server_bidi K id); [destruct (k_num c1 <=? 0); [discriminate|]|]; intros [= <- <- <-]; eauto. }
    destruct (drop_ok _ _ _ _ (ss_x s x') _ _ _ _ DR3 F1 eq_refl RG1 (or_introl CB) (fun _ => or_intror RG2) 0 eq_refl) as [T2 V2].
    assert (decs K c o c2 e2) as D2. { rewrite E3, V2. eapply ds_app; [exact D1|]. apply ds_one; [exact T2|]. left. exists id0, src0, fin0; reflexivity. }
    destruct (unblock_loop K f c2) as [c3 r3 e4|e4 ev4|] eqn:U; cbn [k_evs] in H; try discriminate. injection H as _ <-.
    eapply dd_app; [exact D2|]. eapply IH; [eapply ds_wf; eauto|exact U].
  - intros [= _ <-]. apply LAST. reflexivity.
Qed.
Lemma dd_typed c id s src fin e evs : wf K c -> read_uni_typed K c id s src fin = KDead e evs -> dead_at K c o evs.
Proof.
  intros W. assert (Z0 : dead_at K c o []) by (apply dd_last; constructor). unfold read_uni_typed. destruct (st_u s); try discriminate.
  - destruct fin; [intros [= _ <-]; exact Z0|]. unfold read_control_stream. destruct (read_control _ _ _ _) as [s' ev| |e' ? ev|]; try discriminate.
    + destruct (apply_updates _ _ _); try discriminate. intros [= _ <-]. apply dd_last. apply dl_control. ord.
    + intros [= _ <-]. apply dd_last. apply dl_control. ord.
  - destruct fin; [intros [= _ <-]; exact Z0|]. unfold read_qpack_encoder. destruct (read_encoder (k_dec c) src) as [d [n| |]] eqn:R; try discriminate; [|intros [= _ <-]; exact Z0].
    destruct (unblock_loop _ _ _) as [c1 r1 e1|e1 ev1|] eqn:U; try discriminate. intros [= _ <-].
    eapply (dd_silent K c o (ADec src)); [apply t_dec; eapply dc_read; eauto|exact I|reflexivity|]. eapply dd_unblock; [apply wf_dec; auto|exact U].
  - destruct fin; [intros [= _ <-]; exact Z0|]. destruct (ke_dec K (k_ndec c) src); try discriminate. intros [= _ <-]. exact Z0.
Qed.
Lemma dd_uni c s e evs : wf K c -> find_stream c id0 = Some s -> peer_uni K id0 = true -> read_uni K c id0 s src0 fin0 = KDead e evs -> dead_at K c o evs.
Proof.
  intros W F PU. assert (Z0 : dead_at K c o []) by (apply dd_last; constructor). unfold read_uni. destruct (st_u s) as [rvi| | | |] eqn:U; try (apply dd_typed; auto).
  destruct ((zlen src0 =? 0) && fin0).
  - destruct (negb _); [intros [= _ <-]; exact Z0|]. unfold delete_stream, drop_stream. destruct (is_server_bidi K id0); [destruct (_ <=? _)|]; discriminate.
  - unfold read_type. destruct (rd_varint rvi src0 fin0) as [rv'|v rest| |] eqn:RV; cbn [obind]; try discriminate; [|intros [= _ <-]; exact Z0].
    destruct (identify c v) as [[c1 u]| |] eqn:ID; cbn [obind]; try discriminate; [|intros [= _ <-]; exact Z0].
    assert (kst K c (AType id0 u) (put c1 id0 (ss_u s u))) as T by (eapply t_type; eauto).
    cbv zeta. destruct (zlen rest =? 0); [discriminate|]. intros H. destruct (read_uni_typed _ _ _ _ _ _) as [c2 n e2|e2 ev2|] eqn:RT; try discriminate. injection H as _ <-.
    eapply (dd_silent K c o (AType id0 u)); [exact T|exists src0, fin0; reflexivity|reflexivity|]. eapply dd_typed; [eapply kst_wf; eauto|exact RT].
Qed.
Lemma dd_existing c s e evs : wf K c -> find_stream c id0 = Some s -> client_bidi id0 = true \/ peer_uni K id0 = true -> read_existing K c id0 s src0 fin0 = KDead e evs -> dead_at K c o evs.
Proof.
  intros W F KD. unfold read_existing. destruct ((zlen src0 =? 0) && negb fin0) eqn:NE; [discriminate|].
  destruct (stream_uni id0) eqn:SU.
  - destruct KD as [KD|KD]; [apply bidi_uni in KD; congruence|]. apply dd_uni; auto.
  - destruct KD as [KD|KD]; [|apply peer_is_uni in KD; congruence]. apply dd_request; auto.
Qed.
Lemma dd_read c e evs : wf K c -> read_stream K c id0 src0 fin0 = KDead e evs -> dead_at K c o evs.
Proof.
  intros W. assert (Z0 : dead_at K c o []) by (apply dd_last; constructor). unfold read_stream. fold (peer_uni K id0). destruct ((id0 <? 0) || (max_varint <? id0)) eqn:RG; [discriminate|].
  assert (id_range id0) as RNG by (apply orb_false_iff in RG; unfold id_range; lia).
  destruct (find_stream c id0) as [s|] eqn:F.
  - destruct (client_bidi id0 || peer_uni K id0) eqn:CP; [|discriminate]. apply orb_true_iff in CP. apply dd_existing; auto.
  - destruct (is_server_bidi K id0) eqn:SB.
    + destruct (conn_bidi_idtr_open (k_idtr c) id0) as [[r g]| |] eqn:IT; try discriminate; [|intros [= _ <-]; exact Z0]. cbv zeta.
      set (c0 := kk_maxid (kk_idtr c g) (Z.max (k_maxid c) id0)).
      assert (kst K c AMisc c0) as T0.
      { assert (c0 = kk_ndec (kk_maxcl (kk_maxid (kk_idtr c g) (Z.max (k_maxid c) id0)) (k_maxcl c)) (k_ndec c)) as -> by (unfold c0; destruct c; reflexivity). apply t_misc; [right; eexists _, _; split; [|eassumption]; first [assumption|unfold id_range in *; lia]|lia|lia]. }
      match goal with |- context [create_stream K c0 id0 ?s] => set (s1 := s); destruct (create_stream K c0 id0 s1) as [c1| |] eqn:CR; try discriminate end; [|intros [= _ <-]; exact Z0].
      apply create_ok in CR as [F1 ->].
      assert (kst K c0 (ANew id0 s1) (add_stream K c0 id0 s1)) as T1.
      { apply t_new; auto. - left. split; auto. - intros _. unfold c0. cbn. lia. }
      assert (wf K (add_stream K c0 id0 s1)) as W1 by (eapply kst_wf; [eapply kst_wf; [exact W|exact T0]|exact T1]).
      assert (find_stream (add_stream K c0 id0 s1) id0 = Some s1) as F2 by (rewrite find_add, Z.eqb_refl; auto).
      intros H. destruct (read_existing _ _ _ _ _ _) as [c2 r2 e2|e2 ev2|] eqn:RE; cbn [k_evs] in H; try discriminate. injection H as _ <-.
      eapply (dd_silent K c o AMisc); [exact T0|exact I|reflexivity|]. eapply (dd_silent K c0 o (ANew id0 s1)); [exact T1|left; exists src0, fin0; reflexivity|reflexivity|].
      assert (client_bidi id0 = true) as CB by (unfold is_server_bidi in SB; apply andb_true_iff in SB; tauto).
      pose proof (dd_existing _ _ _ _ W1 F2 (or_introl CB) RE) as D.
      change (k_queued c0 && (k_goaway c0 <=? id0)) with (k_queued c && (k_goaway c <=? id0)). destruct (k_queued c && (k_goaway c <=? id0)); [|exact D].
      change (dead_at K (add_stream K c0 id0 s1) o (vis (ASee (KStop id0 H3_REQUEST_REJECTED)) ++ vis (ASee (KReset id0 H3_REQUEST_REJECTED)) ++ ev2)).
      eapply dd_app; [apply ds_one; [apply t_see; eauto|ord]|]. eapply dd_app; [apply ds_one; [apply t_see; eauto|ord]|exact D].
    + destruct (peer_uni K id0) eqn:PU; [|intros [= _ <-]; exact Z0]. destruct ((zlen src0 =? 0) && fin0); [discriminate|].
      destruct (create_stream _ _ _ _) as [c1| |] eqn:CR; try discriminate; [|intros [= _ <-]; exact Z0]. apply create_ok in CR as [F1 ->].
      set (s1 := new_stream id0 (rx_init id0 http_init (k_dec c))).
      assert (kst K c (ANew id0 s1) (add_stream K c id0 s1)) as T1.
      { apply t_new; auto. - right. left. split; auto. - congruence. }
      intros H. eapply (dd_silent K c o (ANew id0 s1)); [exact T1|left; exists src0, fin0; reflexivity|reflexivity|].
      eapply dd_existing; [eapply kst_wf; eauto| |right; exact PU|exact H]. rewrite find_add, Z.eqb_refl; auto.
Qed.
End Read.
