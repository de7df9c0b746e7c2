(* stream_close in a call that fails *)
From Verif Require Import Base BaseLemmas Chunk ConvModel RdVarint QpackTabModel QpackDecModel HttpModel BidiModel BidiHist ControlModel GapModel PqModel PqProofs TxModel SchedModel SchedFair
  ConnModel ConnCtl ConnStep ConnRx ConnWf ConnDecomp ConnHist ConnRead ConnPri ConnSched ConnRecv ConnRecvStep RecvSpec RecvLog ConnRecvHist ConnUni CtlApi CloseSpec CloseProofs CloseHist.
Open Scope Z_scope.

Section CloseDead.
Context (K : kenv).
Definition DD (id : Z) (c : conn) (evs : list kev) : Prop :=
  (close_codes id evs = [] \/
   (exists code a b, fl c id = Some (Some code) /\ evs = a ++ KClosed id code :: b /\ close_codes id a = [] /\ no_callback id b)) /\
  (fl c id = None -> no_callback id evs).
Lemma unblock_DD f : forall c e evs id, client_bidi id = true -> unblock_loop K f c = KDead e evs -> DD id c evs.
Proof.
  induction f as [|f IH]; intros c e evs id CB H; [discriminate|]. cbn [unblock_loop] in H.
  destruct (pq_empty (k_blk c)); [discriminate H|].
  destruct (pq_top (k_blk c)) as [i|e0|]; try discriminate. destruct (find_stream c i) as [s|] eqn:F; [|discriminate]. destruct (next_absidx (d_ctx (k_dec c)) <? ricnt c i); [discriminate H|].
  destruct (pq_pop (ricnt_less c) (k_blk c)) as [q|e0|]; try discriminate. cbv zeta in H.
  change (x_set_st (rx_now (kk_blk c q) s) (st_blk (x_st (rx_now (kk_blk c q) s)) false)) with (unblocked c s) in H.
  pose proof (resume_fact false (benv_of K (kk_blk c q) (ss_x s (unblocked c s))) (unblocked c s)) as RF.
  pose proof (resume_gone false (benv_of K (kk_blk c q) (ss_x s (unblocked c s))) (unblocked c s)) as RG.
  assert (F' : find_stream (kk_blk c q) i = Some s) by exact F.
  assert (AF : forall x' ev c2, xfact (benv_of K (kk_blk c q) (ss_x s (unblocked c s))) (unblocked c s) ev x' -> after_read (kk_blk c q) i (ss_x s (unblocked c s)) x' ev = Ok c2 -> fl c2 id = fl c id).
  { intros x' ev c2 X A. rewrite (after_fl (kk_blk c q) i (ss_x s (unblocked c s)) x' ev c2 id); [reflexivity|congruence|exact A| |]; rewrite F'; [reflexivity|]. rewrite (xf_closed _ _ _ _ X). reflexivity. }
  assert (LAST : forall ev, DD id c (map (KStream i) ev)).
  { intros ev. split; [left; apply codes_stream|]. intros N. apply nocb_stream. intros ->. unfold fl in N. rewrite F in N. discriminate. }
  destruct (resume _ _ _) as [x' ev|x' ev|e0 ev|] eqn:R; try discriminate.
  - destruct (after_read _ _ _ _ _) as [c2|e0|] eqn:A; try discriminate; [|injection H as _ <-; apply LAST]. specialize (AF _ _ _ RF A).
    destruct (unblock_loop K f c2) as [c3 rv3 ev3|e3 ev3|] eqn:L; try discriminate. injection H as _ <-. destruct (IH _ _ _ _ CB L) as [I1 I2].
    split.
    + destruct I1 as [A1|(code & a & b & A1 & -> & A3 & A4)]; [left|right].
      * rewrite !codes_app, codes_stream, codes_deferred, A1. reflexivity.
      * exists code, ((map (KStream i) ev ++ deferred i (x_def x' - x_def (unblocked c s))) ++ a), b. split; [congruence|]. split; [rewrite <- !app_assoc; reflexivity|].
        rewrite !codes_app, codes_stream, codes_deferred, A3. auto.
    + intros N. assert (i <> id) by (intros ->; unfold fl in N; rewrite F in N; discriminate). apply nocb_app; [apply nocb_app; auto using nocb_stream, nocb_deferred|]. apply I2. congruence.
  - destruct (after_read _ _ _ _ _) as [c2|e0|] eqn:A; try discriminate; [|injection H as _ <-; apply LAST]. specialize (AF _ _ _ RF A).
    destruct (drop_stream _ _ _ _ _) as [c3 rv3 ev3|e3 ev3|] eqn:DS; try discriminate.
    2: { exfalso. unfold drop_stream in DS. destruct (is_server_bidi K i); [destruct (_ <=? _)|]; discriminate DS. }
    apply drop_rem in DS as [-> ->].
    destruct (unblock_loop K f (rem_stream K c2 i)) as [c4 rv4 ev4|e4 ev4|] eqn:L; try discriminate. injection H as _ <-. destruct (IH _ _ _ _ CB L) as [I1 I2].
    destruct (Z.eq_dec i id) as [->|N].
    + assert (FN : fl (rem_stream K c2 id) id = None) by (unfold fl; rewrite find_rem, Z.eqb_refl; reflexivity). specialize (I2 FN).
      split; [right|intros X; unfold fl in X; rewrite F in X; discriminate].
      exists (st_code s), (map (KStream id) ev ++ deferred id (x_def x' - x_def (unblocked c s))), ev4. split.
      { unfold fl. rewrite F. cbn [option_map]. unfold st_fl. destruct (RG _ _ eq_refl) as [_ G]. rewrite (xf_closed _ _ _ _ RF) in G. change (x_closed (unblocked c s)) with (x_closed (st_x s)) in G. rewrite G. reflexivity. }
      split; [|split; [|exact I2]].
      * rewrite CB. cbn [st_code ss_x]. rewrite <- !app_assoc. reflexivity.
      * rewrite codes_app, codes_stream, codes_deferred. reflexivity.
    + assert (FN : fl (rem_stream K c2 i) id = fl c2 id) by (unfold fl; rewrite find_rem; destruct (Z.eqb_spec id i); [congruence|reflexivity]).
      match goal with |- DD id c (?p ++ ev4) => set (pre := p) end.
      assert (PC : close_codes id pre = []) by (unfold pre; rewrite !codes_app, codes_stream, codes_deferred, codes_closed by exact N; reflexivity).
      split.
      * destruct I1 as [A1|(code & a & b & A1 & -> & A3 & A4)]; [left|right].
        { rewrite codes_app, PC, A1. reflexivity. }
        exists code, (pre ++ a), b. split; [congruence|]. split; [rewrite <- app_assoc; reflexivity|]. rewrite codes_app, PC, A3. auto.
      * intros NN. apply nocb_app; [unfold pre; apply nocb_app; [apply nocb_app|]; auto using nocb_stream, nocb_deferred, nocb_closed|]. apply I2. congruence.
  - injection H as _ <-. apply LAST.
Qed.
Definition DE (id : Z) (c : conn) (evs : list kev) : Prop := DD id c evs \/ close_codes id evs = [].
Lemma DE_fl id c c' evs : fl c id = fl c' id -> DE id c evs -> DE id c' evs.
Proof. unfold DE, DD. intros ->. auto. Qed.
Lemma typed_DE c i s src fin e evs id : client_bidi id = true -> read_uni_typed K c i s src fin = KDead e evs -> DE id c evs.
Proof.
  intros CB. assert (Z0 : DE id c []) by (right; reflexivity). unfold read_uni_typed. destruct (st_u s); try discriminate.
  - destruct fin; [intros [= _ <-]; exact Z0|]. unfold read_control_stream. destruct (read_control _ _ _ _) as [s' ev| |e' ? ev|]; try discriminate.
    + destruct (apply_updates _ _ _); try discriminate. intros [= _ <-]. right. apply codes_ctl.
    + intros [= _ <-]. right. apply codes_ctl.
  - destruct fin; [intros [= _ <-]; exact Z0|]. unfold read_qpack_encoder. destruct (read_encoder (k_dec c) src) as [d [n| |]]; try discriminate; [|intros [= _ <-]; exact Z0].
    destruct (unblock_loop _ _ _) as [c1 r1 e1|e1 ev1|] eqn:U; try discriminate. intros [= _ <-]. left. exact (unblock_DD _ _ _ _ id CB U).
  - destruct fin; [intros [= _ <-]; exact Z0|]. destruct (ke_dec K (k_ndec c) src); try discriminate. intros [= _ <-]. exact Z0.
Qed.
Lemma uni_DE c i s src fin e evs id : client_bidi id = true -> i <> id -> read_uni K c i s src fin = KDead e evs -> DE id c evs.
Proof.
  intros CB N. assert (Z0 : DE id c []) by (right; reflexivity). unfold read_uni. destruct (st_u s) as [rvi| | | |] eqn:U; try (apply typed_DE; exact CB).
  destruct ((zlen src =? 0) && fin).
  - destruct (negb _); [intros [= _ <-]; exact Z0|]. unfold delete_stream, drop_stream. destruct (is_server_bidi K i); [destruct (_ <=? _)|]; discriminate.
  - unfold read_type. destruct (rd_varint rvi src fin) as [rv'|v rest| |] eqn:RV; cbn [obind]; try discriminate; [|intros [= _ <-]; exact Z0].
    destruct (identify c v) as [[c1 u]| |] eqn:ID; cbn [obind]; try discriminate; [|intros [= _ <-]; exact Z0].
    cbv zeta. destruct (zlen rest =? 0); [discriminate|]. intros H. destruct (read_uni_typed _ _ _ _ _ _) as [c2 n e2|e2 ev2|] eqn:RT; try discriminate. injection H as _ <-.
    apply typed_DE with (id := id) in RT; [|exact CB]. revert RT. apply DE_fl. destruct (identify_same _ _ _ _ ID) as [E _]. apply fl_find. rewrite find_put_other by congruence. unfold find_stream. rewrite E. reflexivity.
Qed.
Lemma existing_DE c i s src fin e evs id : client_bidi id = true -> read_existing K c i s src fin = KDead e evs -> DE id c evs.
Proof.
  intros CB. unfold read_existing. destruct ((zlen src =? 0) && negb fin); [discriminate|]. destruct (stream_uni i) eqn:U.
  - apply uni_DE; [exact CB|]. intros ->. rewrite (bidi_uni id CB) in U. discriminate.
  - unfold read_request_stream. cbv zeta. destruct (recv _ _ _ _ _) as [x' ev|x' ev|e' ev|]; try discriminate.
    + destruct (after_read c i s x' ev) as [c2|e2|]; try discriminate. intros [= _ <-]. right. apply codes_stream.
    + intros [= _ <-]. right. apply codes_stream.
Qed.
Lemma read_DE c i src fin e evs id : client_bidi id = true -> kstep K c (ORead i src fin) = KDead e evs -> DE id c evs.
Proof.
  intros CB. assert (Z0 : DE id c []) by (right; reflexivity). cbn [kstep]. unfold read_stream. destruct ((i <? 0) || (max_varint <? i)); [discriminate|].
  destruct (find_stream c i) as [s|] eqn:F; [destruct (client_bidi i || _); [|discriminate]; apply existing_DE; exact CB|]. cbv zeta.
  destruct (is_server_bidi K i) eqn:SB.
  - destruct (conn_bidi_idtr_open (k_idtr c) i) as [[r g]| |]; try discriminate; [|intros [= _ <-]; exact Z0].
    set (c0 := kk_maxid (kk_idtr c g) (Z.max (k_maxid c) i)).
    match goal with |- context [create_stream K c0 i ?s] => set (s1 := s); destruct (create_stream K c0 i s1) as [c1| |] eqn:CR; try discriminate end; [|intros [= _ <-]; exact Z0].
    apply create_ok in CR as [F1 ->]. intros H. destruct (read_existing _ _ _ _ _ _) as [c2 r2 e2|e2 ev2|] eqn:RE; cbn [k_evs] in H; try discriminate. injection H as _ <-.
    unfold read_existing in RE. destruct ((zlen src =? 0) && negb fin); [discriminate RE|]. assert (UI : stream_uni i = false) by (apply bidi_uni; unfold is_server_bidi in SB; apply andb_true_iff in SB; tauto). rewrite UI in RE.
    unfold read_request_stream in RE. cbv zeta in RE. right. rewrite codes_app. assert (X : close_codes id ev2 = []).
    { destruct (recv _ _ _ _ _) as [x' ev|x' ev|e' ev|]; try discriminate; [destruct (after_read _ _ _ _ _); try discriminate|]; injection RE as _ <-; apply codes_stream. }
    rewrite X. destruct (_ && _); reflexivity.
  - destruct (if ke_server K then client_uni i else server_uni i) eqn:PU; [|intros [= _ <-]; exact Z0]. destruct ((zlen src =? 0) && fin); [discriminate|].
    destruct (create_stream _ _ _ _) as [c1| |] eqn:CR; try discriminate; [|intros [= _ <-]; exact Z0]. apply create_ok in CR as [F1 ->]. intros H.
    apply existing_DE with (id := id) in H; [|exact CB]. revert H. apply DE_fl. unfold fl. rewrite (find_add K) by exact F1. destruct (Z.eqb_spec id i) as [->|]; [|reflexivity].
    exfalso. eapply (peer_not_bidi K); eauto.
Qed.
Lemma dead_close h c o e evs id : history K h c -> op_ok o -> kstep K c o = KDead e evs -> client_bidi id = true ->
  close_codes id evs = [] \/ (exists code a b, is_open c id = true /\ asked id (life id h) = Some code /\ evs = a ++ KClosed id code :: b /\ close_codes id a = [] /\ no_callback id b).
Proof.
  intros H O S CB. assert (ND : match o with ORead _ _ _ => False | _ => True end -> evs = []) by (intros N; exact (dead_silent K c o e evs N S)).
  destruct o; try (rewrite ND by exact Logic.I; left; reflexivity). clear ND.
  destruct (read_DE c _ _ _ _ _ id CB S) as [[[X|(code & a & b & X1 & X2)] _]|X]; auto. right. exists code, a, b. unfold fl in X1. destruct (find_stream c id) as [s|] eqn:F; [|discriminate].
  split; [unfold is_open; rewrite F; reflexivity|]. split; [|exact X2]. rewrite <- (hist_asked K h c H id s CB F). cbn [option_map] in X1. congruence.
Qed.
End CloseDead.
