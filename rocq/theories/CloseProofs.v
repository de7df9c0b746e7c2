(* Closing request streams: proofs *)
From Verif Require Import Base BaseLemmas Chunk ConvModel RdVarint QpackTabModel QpackDecModel QpackHistModel HttpModel BidiModel BidiHist BidiSpec BidiRun ControlModel GapModel PqModel PqProofs TxModel SchedModel ConnModel ConnCtl ConnStep ConnRx ConnWf ConnDecomp ConnHist ConnRead ConnPri ConnSched ConnRecv RecvSpec RecvLog ConnRecvHist ConnUni CtlApi CloseSpec.
Open Scope Z_scope.

Lemma codes_app id a b : close_codes id (a ++ b) = close_codes id a ++ close_codes id b. Proof. apply flat_map_app. Qed.
Lemma codes_stream id i l : close_codes id (map (KStream i) l) = []. Proof. induction l; auto. Qed.
Lemma codes_deferred id i n : close_codes id (deferred i n) = []. Proof. unfold deferred. destruct (n =? 0); reflexivity. Qed.
Lemma codes_ctl id l : close_codes id (map KControl l) = []. Proof. induction l; auto. Qed.
Lemma nocb_app id a b : no_callback id a -> no_callback id b -> no_callback id (a ++ b). Proof. intros A B. apply Forall_app. auto. Qed.
Lemma nocb_stream id i l : i <> id -> no_callback id (map (KStream i) l). Proof. intros N. induction l; constructor; auto. Qed.
Lemma nocb_deferred id i n : i <> id -> no_callback id (deferred i n). Proof. intros N. unfold deferred. destruct (n =? 0); repeat constructor; auto. Qed.
Lemma nocb_closed id i code : i <> id -> no_callback id (if client_bidi i then [KClosed i code] else []). Proof. intros N. destruct (client_bidi i); repeat constructor; auto. Qed.
Lemma codes_closed id i code : i <> id -> close_codes id (if client_bidi i then [KClosed i code] else []) = [].
Proof. intros N. destruct (client_bidi i); auto. cbn. destruct (Z.eqb_spec i id); [congruence|reflexivity]. Qed.

(* the code with which a stream waits to be closed *)
Definition st_fl (s : stream) : option Z := if x_closed (st_x s) then Some (st_code s) else None.
Definition fl (c : conn) (id : Z) : option (option Z) := option_map st_fl (find_stream c id).
Lemma fl_find c c' id : find_stream c' id = find_stream c id -> fl c' id = fl c id. Proof. unfold fl. congruence. Qed.

Section Close.
Context (K : kenv).
Lemma after_fl c i s x evs c' id : find_stream c i <> None -> after_read c i s x evs = Ok c' -> st_code s = match find_stream c i with Some s0 => st_code s0 | None => 0 end ->
  x_closed x = match find_stream c i with Some s0 => x_closed (st_x s0) | None => false end -> fl c' id = fl c id.
Proof.
  intros F A C X. rewrite (after_mid _ _ _ _ _ _ A). unfold fl. change (find_stream (kk_sch ?d _) id) with (find_stream d id). destruct (find_stream c i) as [s0|] eqn:F0; [|congruence].
  rewrite (find_mid c i s s0 x id F0). destruct (Z.eqb_spec id i) as [->|]; [|reflexivity]. rewrite F0. unfold st_fl. cbn [option_map ss_x st_x st_code]. rewrite X, C. reflexivity.
Qed.
Definition D (id : Z) (c c' : conn) (evs : list kev) : Prop :=
  ((close_codes id evs = [] /\ fl c' id = fl c id) \/
   (exists code a b, fl c id = Some (Some code) /\ fl c' id = None /\ evs = a ++ KClosed id code :: b /\ close_codes id a = [] /\ no_callback id b)) /\
  (fl c id = None -> no_callback id evs).
Lemma unblock_D f : forall c c' rv evs id, client_bidi id = true -> unblock_loop K f c = KOk c' rv evs -> D id c c' evs.
Proof.
  induction f as [|f IH]; intros c c' rv evs id CB H; [discriminate|]. cbn [unblock_loop] in H.
  assert (NIL : D id c c []) by (split; [left; auto|constructor]).
  destruct (pq_empty (k_blk c)); [injection H as <- _ <-; exact NIL|].
  destruct (pq_top (k_blk c)) as [i|e|]; try discriminate. destruct (find_stream c i) as [s|] eqn:F; [|discriminate]. destruct (next_absidx (d_ctx (k_dec c)) <? ricnt c i); [injection H as <- _ <-; exact NIL|].
  destruct (pq_pop (ricnt_less c) (k_blk c)) as [q|e|]; try discriminate. cbv zeta in H.
  change (x_set_st (rx_now (kk_blk c q) s) (st_blk (x_st (rx_now (kk_blk c q) s)) false)) with (unblocked c s) in H.
  pose proof (resume_fact false (benv_of K (kk_blk c q) (ss_x s (unblocked c s))) (unblocked c s)) as RF.
  pose proof (resume_gone false (benv_of K (kk_blk c q) (ss_x s (unblocked c s))) (unblocked c s)) as RG.
  assert (F' : find_stream (kk_blk c q) i = Some s) by exact F.
  assert (AF : forall x' ev c2, xfact (benv_of K (kk_blk c q) (ss_x s (unblocked c s))) (unblocked c s) ev x' -> after_read (kk_blk c q) i (ss_x s (unblocked c s)) x' ev = Ok c2 -> fl c2 id = fl c id).
  { intros x' ev c2 X A. rewrite (after_fl (kk_blk c q) i (ss_x s (unblocked c s)) x' ev c2 id); [reflexivity|congruence|exact A| |]; rewrite F'; [reflexivity|]. rewrite (xf_closed _ _ _ _ X). reflexivity. }
  destruct (resume _ _ _) as [x' ev|x' ev|e ev|] eqn:R; try discriminate.
  - destruct (after_read _ _ _ _ _) as [c2|e|] eqn:A; try discriminate. specialize (AF _ _ _ RF A).
    destruct (unblock_loop K f c2) as [c3 rv3 ev3|e ev3|] eqn:L; try discriminate. injection H as <- _ <-. destruct (IH _ _ _ _ _ CB L) as [I1 I2].
    split.
    + destruct I1 as [[A1 A2]|(code & a & b & A1 & A2 & -> & A3 & A4)]; [left|right].
      * rewrite !codes_app, codes_stream, codes_deferred, A1. split; [reflexivity|congruence].
      * exists code, ((map (KStream i) ev ++ deferred i (x_def x' - x_def (unblocked c s))) ++ a), b. split; [congruence|]. split; [exact A2|]. split; [rewrite <- !app_assoc; reflexivity|].
        rewrite !codes_app, codes_stream, codes_deferred, A3. auto.
    + intros N. assert (i <> id) by (intros ->; unfold fl in N; rewrite F in N; discriminate). apply nocb_app; [apply nocb_app; auto using nocb_stream, nocb_deferred|]. apply I2. congruence.
  - destruct (after_read _ _ _ _ _) as [c2|e|] eqn:A; try discriminate. specialize (AF _ _ _ RF A).
    destruct (drop_stream _ _ _ _ _) as [c3 rv3 ev3|e ev3|] eqn:DS; try discriminate. apply drop_rem in DS as [-> ->].
    destruct (unblock_loop K f (rem_stream K c2 i)) as [c4 rv4 ev4|e ev4|] eqn:L; try discriminate. injection H as <- _ <-. destruct (IH _ _ _ _ _ CB L) as [I1 I2].
    destruct (Z.eq_dec i id) as [->|N].
    + assert (FN : fl (rem_stream K c2 id) id = None) by (unfold fl; rewrite find_rem, Z.eqb_refl; reflexivity). specialize (I2 FN).
      split; [right|intros X; unfold fl in X; rewrite F in X; discriminate].
      exists (st_code s), (map (KStream id) ev ++ deferred id (x_def x' - x_def (unblocked c s))), ev4. split.
      { unfold fl. rewrite F. cbn [option_map]. unfold st_fl. destruct (RG _ _ eq_refl) as [_ G]. rewrite (xf_closed _ _ _ _ RF) in G. change (x_closed (unblocked c s)) with (x_closed (st_x s)) in G. rewrite G. reflexivity. }
      split; [|split; [|split; [|exact I2]]].
      * destruct I1 as [[_ A2]|(code & a & b & A1 & _)]; [congruence|congruence].
      * rewrite CB. cbn [st_code ss_x]. rewrite <- !app_assoc. reflexivity.
      * rewrite codes_app, codes_stream, codes_deferred. reflexivity.
    + assert (FN : fl (rem_stream K c2 i) id = fl c2 id) by (unfold fl; rewrite find_rem; destruct (Z.eqb_spec id i); [congruence|reflexivity]).
      match goal with |- D id c c4 (?p ++ ev4) => set (pre := p) end.
      assert (PC : close_codes id pre = []) by (unfold pre; rewrite !codes_app, codes_stream, codes_deferred, codes_closed by exact N; reflexivity).
      split.
      * destruct I1 as [[A1 A2]|(code & a & b & A1 & A2 & -> & A3 & A4)]; [left|right].
        { rewrite codes_app, PC, A1. split; [reflexivity|congruence]. }
        exists code, (pre ++ a), b. split; [congruence|]. split; [exact A2|]. split; [rewrite <- app_assoc; reflexivity|]. rewrite codes_app, PC, A3. auto.
      * intros NN. apply nocb_app; [unfold pre; apply nocb_app; [apply nocb_app|]; auto using nocb_stream, nocb_deferred, nocb_closed|]. apply I2. congruence.
Qed.
(* ---- an action other than closing ---- *)
Lemma kst_fl c a c' id : client_bidi id = true -> kst K c a c' -> (forall n code, a <> ADel id n code) -> (forall code, a <> AClose id code) ->
  fl c' id = fl c id \/ (fl c id = None /\ fl c' id = Some None).
Proof.
  intros CB H ND NC.
  assert (PUT : forall i s s' d, find_stream c i = Some s -> (forall y, find_stream d y = find_stream (put c i s') y) -> st_fl s' = st_fl s \/ i <> id -> fl d id = fl c id \/ (fl c id = None /\ fl d id = Some None)).
  { intros i s s' d F E X. left. unfold fl. rewrite E, find_put, F. destruct (Z.eqb_spec id i) as [<-|N]; [|reflexivity]. rewrite F. cbn. destruct X as [->|X]; [reflexivity|congruence]. }
  assert (SAME : forall d, (forall y, find_stream d y = find_stream c y) -> fl d id = fl c id \/ (fl c id = None /\ fl d id = Some None)) by (intros d E; left; apply fl_find; auto).
  assert (ADD : forall i s d, find_stream c i = None -> (forall y, find_stream d y = find_stream (add_stream K c i s) y) -> x_closed (st_x s) = false -> fl d id = fl c id \/ (fl c id = None /\ fl d id = Some None)).
  { intros i s d F E X. unfold fl. rewrite E, find_add by auto. destruct (Z.eqb_spec id i) as [->|N]; [right|left; reflexivity]. rewrite F. cbn. unfold st_fl. rewrite X. auto. }
  assert (MID : forall c0 s s0 x i, (forall y, find_stream c0 y = find_stream c y) -> find_stream c i = Some s0 -> st_code s = st_code s0 -> x_closed x = x_closed (st_x s0) -> fl (mid c0 i s x) id = fl c id \/ (fl c id = None /\ fl (mid c0 i s x) id = Some None)).
  { intros c0 s s0 x i E F U1 U2. eapply (PUT i s0 (ss_x s x)); [exact F| |left; unfold st_fl; cbn; rewrite U1, U2; reflexivity].
    intros y. rewrite (find_mid c0 i s s0) by (rewrite E; exact F). rewrite find_put, F, E. reflexivity. }
  destruct H; try (apply SAME; reflexivity).
  - eapply (ADD id0 s); [exact H|reflexivity|]. exact (proj2 (fresh_tx _ _ _ _ H1)).
  - pose proof (recv_fact false (benv_of K c s) (rx_now c s) src fin) as RF. rewrite H2 in RF. eapply (MID c s s); auto. exact (xf_closed _ _ _ _ (proj1 RF)).
  - pose proof (resume_fact false (benv_of K (kk_blk c q) s) (unblocked c s)) as RF. rewrite H4 in RF. eapply (MID (kk_blk c q) (ss_x s (unblocked c s)) s); auto. exact (xf_closed _ _ _ _ RF).
  - pose proof (resume_fact false (benv_of K (kk_blk c q) s) (unblocked c s)) as RF. rewrite H4 in RF. eapply (MID (kk_blk c q) (ss_x s (unblocked c s)) s); auto. exact (xf_closed _ _ _ _ RF).
  - eapply (PUT id0 s (ss_pu s true)); [exact H|reflexivity|auto].
  - eapply (ADD id0); [exact H|reflexivity|reflexivity].
  - left. unfold fl. rewrite find_rem. destruct (Z.eqb_spec id id0) as [->|N]; [|reflexivity]. exfalso. eapply ND. reflexivity.
  - eapply (PUT id0 s); [exact H|reflexivity|auto].
  - destruct (identify_same _ _ _ _ H2) as [E _]. eapply (PUT id0 s (ss_u s u)); [exact H| |auto]. intros y. unfold find_stream, put. cbn. rewrite E. reflexivity.
  - eapply (PUT id0 s (ss_t s t)); [exact H|reflexivity|auto].
  - eapply (PUT id0 s); [exact H0|reflexivity|auto].
  - left. change (fl c1 id = fl c id). unfold fl. pose proof (ebufs_keep _ _ _ H2) as EK.
    assert (X : find_stream (put c id0 (ss_t s t)) id <> None -> find_stream c1 id <> None).
    { intros X. revert H2. apply (add_ebufs_P (fun d => find_stream d id <> None)); [|exact X]. intros d q s0 t0 e P _ F0 _. rewrite find_put, F0. destruct (id =? q); congruence. }
    destruct (find_stream c1 id) as [s1'|] eqn:G1.
    + destruct (EK _ _ G1) as (s0 & tt & F0 & -> & _). rewrite find_put, H in F0. destruct (Z.eqb_spec id id0) as [->|N]; [injection F0 as <-; rewrite H; reflexivity|rewrite F0; reflexivity].
    + rewrite find_put, H in X. destruct (Z.eqb_spec id id0) as [->|N]; [exfalso; apply X; congruence|]. destruct (find_stream c id); [exfalso; apply X; congruence|reflexivity].
  - eapply (PUT id0 s (ss_t s t)); [exact H|reflexivity|auto].
  - eapply (PUT id0 s (ss_t s t)); [exact H|reflexivity|auto].
  - eapply (PUT id0 s); [exact H|reflexivity|auto].
  - eapply (PUT id0 s); [exact H|reflexivity|]; destruct fc; auto.
  - eapply (PUT id0 s); [exact H|reflexivity|]; destruct fc; auto.
  - eapply (PUT id0 s); [exact H|reflexivity|]. right. intros ->. eapply NC. reflexivity.
  - eapply (PUT id0 s (ss_x s (x_shut_rd (st_x s)))); [exact H|reflexivity|auto].
  - eapply (PUT id0 s (ss_sp s true)); [exact H|reflexivity|auto].
Qed.
Lemma codes_vis id a : client_bidi id = true -> close_codes id (vis a) = [] -> forall n code, a <> ADel id n code.
Proof. intros CB H n code ->. cbn [vis] in H. rewrite CB, codes_app, codes_deferred in H. cbn in H. rewrite Z.eqb_refl in H. discriminate. Qed.
Lemma step_fl c o c' rv evs id : wf K c -> op_ok o -> client_bidi id = true -> kstep K c o = KOk c' rv evs -> close_codes id evs = [] -> (forall code, o <> OClose id code) ->
  fl c' id = fl c id \/ (fl c id = None /\ fl c' id = Some None).
Proof.
  intros W O CB S E NC. destruct (step_decomp _ _ _ _ _ _ W O S) as (acts & DD & SE & F & _). rewrite <- SE in E. clear S W SE evs.
  induction DD as [c|c a c1 l c' T DD IH]; [auto|]. inversion F as [|? ? A F']; subst. change (seen (a :: l)) with (vis a ++ seen l) in E. rewrite codes_app in E. apply app_eq_nil in E as [E1 E2].
  assert (NA : forall code, a <> AClose id code) by (intros code ->; cbn in A; eapply NC; eauto).
  pose proof (kst_fl c a c1 id CB T (codes_vis id a CB E1) NA) as X. destruct (IH E2 F') as [Y|[Y1 Y2]], X as [X|[X1 X2]]; try (left; congruence); try (right; split; congruence).
Qed.
(* ---- which calls close ---- *)
Lemma codes_other c o c' rv evs id : wf K c -> op_ok o -> kstep K c o = KOk c' rv evs -> (forall i src fin, o <> ORead i src fin) -> (forall i code, o <> OClose i code) -> close_codes id evs = [].
Proof.
  intros W O S NR NC. destruct (step_decomp _ _ _ _ _ _ W O S) as (acts & _ & <- & F & _). clear S W O. induction F as [|a l A F IH]; [reflexivity|]. change (seen (a :: l)) with (vis a ++ seen l). rewrite codes_app, IH, app_nil_r.
  destruct a; try reflexivity; cbn [vis]; rewrite ?codes_app, ?codes_stream, ?codes_deferred; auto.
  - cbn in A. destruct A as [(i & src & fin & ->)|(code' & ->)]; [exfalso; eapply NR; reflexivity|exfalso; eapply NC; reflexivity].
  - clear. induction calls as [|n l IH]; [reflexivity|exact IH].
  - cbn in A. destruct A as (i & src & fin & ->). exfalso; eapply NR; reflexivity.
Qed.
Lemma close_D c i code c' rv evs : kstep K c (OClose i code) = KOk c' rv evs ->
  match find_stream c i with
  | None => c' = c /\ rv = ERR_STREAM_NOT_FOUND /\ evs = []
  | Some s => if b_blk (x_st (st_x s)) then fl c' i = Some (Some code) /\ evs = [] else fl c' i = None /\ exists n, evs = deferred i n ++ (if client_bidi i then [KClosed i code] else [])
  end.
Proof.
  cbn [kstep]. unfold close_stream. destruct (find_stream c i) as [s|] eqn:F; [|intros [= <- <- <-]; auto]. destruct (_ && _); [discriminate|]. cbv zeta. unfold sched_do.
  destruct (sc_close _ _) as [sch'| |]; try discriminate. cbn [st_x ss_code].
  assert (F1 : find_stream (kk_sch (put c i (ss_code s code)) sch') i = Some (ss_code s code)) by (eapply find_put_same; eauto).
  destruct (b_blk (x_st (st_x s))).
  - intros [= <- _ <-]. split; [|reflexivity]. unfold fl. rewrite (find_put_same _ _ _ _ F1). reflexivity.
  - unfold delete_stream. intros H. apply drop_rem in H as [-> ->]. split; [unfold fl; rewrite find_rem, Z.eqb_refl; reflexivity|]. eexists. reflexivity.
Qed.
Lemma encoder_D c src c' rv evs id : client_bidi id = true -> read_qpack_encoder K c src = KOk c' rv evs -> D id c c' evs.
Proof.
  intros CB. unfold read_qpack_encoder. destruct (read_encoder (k_dec c) src) as [d o]. destruct o as [n|e|]; try discriminate.
  destruct (unblock_loop K (S (pq_size (k_blk c))) (kk_dec c d)) as [c2 rv2 ev2|e ev2|] eqn:L; try discriminate. intros [= <- _ <-]. exact (unblock_D _ _ _ _ _ id CB L).
Qed.
Lemma codes_kctl c src c' rv evs id : read_control_stream K c src = KOk c' rv evs -> close_codes id evs = [].
Proof.
  unfold read_control_stream. destruct (read_control _ _ _ _) as [s ev|s ev|e x|]; try discriminate. destruct (apply_updates K (kk_ctl c s) ev) as [c2|e|]; try discriminate. intros [= _ _ <-]. apply codes_ctl.
Qed.
Lemma typed_D c i s src fin c' n evs id : client_bidi id = true -> read_uni_typed K c i s src fin = KOk c' n evs -> D id c c' evs \/ close_codes id evs = [].
Proof.
  intros CB. unfold read_uni_typed. destruct (st_u s); try discriminate.
  - destruct fin; [discriminate|]. intros H. right. eapply codes_kctl; eauto.
  - destruct fin; [discriminate|]. intros H. left. eapply encoder_D; eauto.
  - destruct fin; [discriminate|]. destruct (ke_dec K (k_ndec c) src); try discriminate. intros [= _ _ <-]. auto.
  - destruct fin; intros [= _ _ <-]; right; reflexivity.
Qed.
Lemma read_D c i src fin c' rv evs id : client_bidi id = true -> kstep K c (ORead i src fin) = KOk c' rv evs -> D id c c' evs \/ close_codes id evs = [].
Proof.
  intros CB S. cbn [kstep] in S. apply read_cases in S as [RG S]. destruct S as [F P -> ->|c0 s pre OP -> ->|c0 s pre c' rv evs OP CB' _ R|c0 s c' rv evs OP P NE R].
  - right. reflexivity.
  - right. inversion OP; subst; try reflexivity. destruct (rejected c i); reflexivity.
  - right. unfold read_request_stream in R. cbv zeta in R. destruct (recv _ _ _ _ _) as [x' ev|x' ev|e ev|]; try discriminate.
    destruct (after_read c0 i s x' ev) as [c2|e|]; try discriminate. injection R as _ _ <-. rewrite codes_app, codes_stream, app_nil_r. inversion OP; subst; try reflexivity. destruct (rejected c i); reflexivity.
  - assert (NI : id <> i) by (intros ->; eapply peer_not_bidi; eauto).
    assert (OK : fl c0 id = fl c id).
    { inversion OP as [s1 F1 _|r g s1 F1 SB _ _|F1 _]; subst; auto; unfold fl; rewrite (find_add K) by exact F1; (destruct (Z.eqb_spec id i); [congruence|reflexivity]). }
    assert (PUT : forall d u, fl (put d i (ss_u s u)) id = fl d id) by (intros d u; unfold fl; rewrite find_put_other by exact NI; reflexivity).
    destruct R as [rvi c' rv evs Es -> -> L DD|rvi rvi' Es NF V|rvi v u c1 Es V I|rvi v rest u c1 c' n evs Es V NR I R|c' n evs N R]; try (right; reflexivity).
    + right. unfold delete_stream in DD. apply drop_rem in DD as [_ ->]. rewrite codes_app, codes_deferred, codes_closed by congruence. reflexivity.
    + destruct (identify_same _ _ _ _ I) as [E _]. destruct (typed_D _ _ _ _ _ _ _ _ id CB R) as [X|X]; [left|right; exact X].
      assert (Y : fl (put c1 i (ss_u s u)) id = fl c id) by (rewrite PUT, <- OK; apply fl_find; unfold find_stream; rewrite E; reflexivity). unfold D in *. rewrite Y in X. exact X.
    + destruct (typed_D _ _ _ _ _ _ _ _ id CB R) as [X|X]; [left|right; exact X]. unfold D in *. rewrite OK in X. exact X.
Qed.
End Close.
