(* When the bytes of a request stream stop being read: only after shutdown_stream_read or with a stop_sending
   callback. *)
From Verif Require Import Base BaseLemmas Chunk ConvModel ConvSpec ConvProofs RdVarint QpackTabModel QpackDecModel QpackHistModel HttpModel BidiModel BidiHist BidiSpec
  ControlModel GapModel PqModel TxModel SchedModel ConnModel ConnCtl ConnStep ConnRx ConnWf ConnDecomp ConnHist ConnRead ConnRecv ConnSched ConnUni RecvSpec MeanSeen MeanApi.
Open Scope Z_scope.

Definition stops (ev : list bev) : Prop := exists code, In (BvStopSending code) ev.
Lemma stops_app a b : stops a \/ stops b -> stops (a ++ b).
Proof. intros [(c & I)|(c & I)]; exists c; apply in_app_iff; auto. Qed.
Definition ignR (s : bst) (ev : list bev) (s' : bst) : Prop := b_rd s' = FIgnRest -> b_rd s = FIgnRest \/ stops ev.
Lemma ign_refl s : ignR s [] s. Proof. intros A. auto. Qed.
Lemma ign_trans a x b y c : ignR a x b -> ignR b y c -> ignR a (x ++ y) c.
Proof. intros A B C. destruct (B C) as [D|D]; [destruct (A D); auto|]; right; apply stops_app; auto. Qed.
Lemma ign_mal s h p evs : match malformed s h p evs with SGo s' _ _ ev | SMore s' ev | SStop s' _ ev => ignR s ev s' | _ => True end.
Proof. unfold malformed. intros _. right. apply stops_app. right. exists H3_MESSAGE_ERROR. left. reflexivity. Qed.
Lemma bstep_ign pre fin E s p : match bstep pre fin E s p with SGo s' _ _ ev | SMore s' ev | SStop s' _ ev => ignR s ev s' | _ => True end.
Proof.
  unfold bstep. destruct (b_rd s) eqn:Rd.
  - destruct (rd_varint _ _ _); cbn; auto; intros X; cbn in X; congruence.
  - destruct (rd_varint _ _ _); [intros X; cbn in X; congruence| |exact Logic.I|exact Logic.I]. unfold frame_start, b_fail.
    repeat (match goal with |- context [if ?c then _ else _] => destruct c | |- context [transit ?a ?b ?c ?d] => destruct (transit a b c d) | |- context [match ?c with HpInitial => _ | _ => _ end] => destruct c end; cbv beta iota; auto; try (intros X; cbn in X; congruence)).
  - unfold data_step, b_fail. destruct (on_data_chunk _ _) as [h ok]. destruct ok; auto. cbv zeta.
    destruct (_ =? 0); [destruct (transit _ _ _ _); auto|]; intros X; cbn in X; congruence.
  - unfold headers_step. cbv zeta. set (n := Z.min (b_left s) (zlen p)). destruct (decode_section _ _ _ _) as [vs r].
    destruct (on_headers _ _ _ _ _ _) as [[h out] ok]. destruct ok; cbn [negb]; [|apply ign_mal].
    assert (HE : forall sc d p rest c evs, match headers_end E s h sc d p rest c evs with SGo s' _ _ ev | SStop s' _ ev => ignR s ev s' | SMore s' ev => ignR s ev s' | _ => True end).
    { intros sc d q rest c evs. unfold headers_end. destruct (match b_ph s with HpHeadersBegin => _ | _ => _ end) as [[h' ok]| |]; auto. destruct ok; [|unfold malformed; intros _; right; apply stops_app; right; exists H3_MESSAGE_ERROR; left; reflexivity].
      destruct (transit _ _ _ _); auto. intros X; cbn in X; congruence. }
    destruct r as [sc v rest0|sc rest0|sc|d' sc|e d' sc|]; auto.
    + destruct (e_full E); [exact Logic.I|]. intros X; cbn in X; congruence.
    + destruct (_ =? 0); [|intros X; cbn in X; congruence]. apply HE.
    + apply HE.
    + exact Logic.I.
  - cbv zeta. destruct (_ =? 0); intros X; cbn in X; congruence.
  - intros _. left. exact Rd.
Qed.
Lemma b_read_ign pre E s p fin : match b_read pre E s p fin with ROk s' ev | RStop s' _ ev => ignR s ev s' | _ => True end.
Proof.
  unfold b_read, b_run, run. pose proof (run_fuel_R (bstep pre fin E) ignR ign_refl ign_trans (bstep_ign pre fin E) (S (measure 2 b_rank s p)) s p false) as R.
  destruct (run_fuel _ _ _ _ _); auto. destruct fin; auto. unfold b_finish. destruct (b_rd s0) eqn:Rd; auto.
  destruct (negb _); auto. destruct (transit _ _ _ _) as [ph|e|]; cbn; auto. intros X; cbn in X; congruence.
Qed.
Definition good_x (x : rx) : Prop := x_shut x = false /\ b_rd (x_st x) <> FIgnRest.
Definition ignX (x : rx) (ev : list bev) (x' : rx) : Prop := good_x x -> ~ stops ev -> good_x x'.
Lemma read_bidi_ign pre E x src fin : match read_bidi pre E x src fin with COk x' _ _ ev => ignX x ev x' | _ => True end.
Proof.
  unfold read_bidi, ignX. destruct (x_shut x) eqn:SH; [auto|]. destruct (b_blk (x_st x)); [intros (A & B) _; split; auto|]. pose proof (b_read_ign pre E (x_st x) src fin) as B.
  destruct (b_read _ _ _ _ _); auto; intros (G1 & G2) N; (split; [cbn; first [reflexivity|exact SH]|]); cbn [x_st]; intros X; destruct (B X); contradiction.
Qed.
Lemma recv_ign pre E x src fin : match recv pre E x src fin with XOk x' ev | XGone x' ev => ignX x ev x' | _ => True end.
Proof.
  unfold recv. destruct (_ && _); [intros A _; exact A|]. cbv zeta. pose proof (read_bidi_ign pre E (mk_rx (x_id x) (x_st x) (x_inq x) (x_shut x) (x_eof x || fin) (x_closed x) (x_ret x) (x_def x)) src fin) as B.
  destruct (read_bidi _ _ _ _ _); auto.
Qed.
Lemma process_ign pre E f : forall x, match process_blocked pre f E x with XOk x' ev | XGone x' ev => ignX x ev x' | _ => True end.
Proof.
  induction f as [|f IH]; intros x; cbn [process_blocked]; [exact I|]. destruct (x_inq x) as [|[buf room] q]; [intros A _; exact A|].
  pose proof (read_bidi_ign pre E x buf ((match q with [] => true | _ => false end) && x_eof x)) as B. destruct (read_bidi _ _ _ _ _) as [x' n m ev| |]; auto.
  destruct (x_inq x') as [|[buf' room'] q']; auto. cbv zeta. set (x2 := x_add x' _ _ _). destruct (b_blk (x_st x2)); [exact B|]. specialize (IH x2).
  destruct (process_blocked _ _ _ _); cbn [x_evs]; auto; intros G N; (apply IH; [apply B; [exact G|]|]); intros S; apply N; apply stops_app; auto.
Qed.
Lemma resume_ign pre E x : match resume pre E x with XOk x' ev | XGone x' ev => ignX x ev x' | _ => True end.
Proof. unfold resume. pose proof (process_ign pre E (S (length (x_inq x))) x) as P. destruct (process_blocked _ _ _ _); auto. destruct (_ && _); exact P. Qed.

(* a stop_sending callback for the stream *)
Definition told_stop (id : Z) (evs : list kev) : Prop := exists code, In (KStop id code) evs \/ In (KStream id (BvStopSending code)) evs.
Lemma told_app id a b : told_stop id a \/ told_stop id b -> told_stop id (a ++ b).
Proof. intros [(c & [I|I])|(c & [I|I])]; exists c; [left|right|left|right]; apply in_app_iff; auto. Qed.
Lemma told_map id ev : stops ev -> told_stop id (map (KStream id) ev).
Proof. intros (c & I). exists c. right. apply in_map. exact I. Qed.

Section L.
Variables (K : kenv) (id : Z).
Hypothesis CB : client_bidi id = true.
Definition LQ (c : conn) : Prop := forall s, find_stream c id = Some s -> good_x (st_x s).
Definition fine_act (a : kact) : Prop := a <> AShut id /\ ~ told_stop id (vis a) /\ forall s, a = ANew id s -> good_x (st_x s).
Lemma LQ_put c i s t : find_stream c i = Some s -> (good_x (st_x s) -> good_x (st_x t)) -> LQ c -> LQ (put c i t).
Proof. intros F G L u. rewrite find_put, F. destruct (Z.eqb_spec id i) as [E|N]; [intros [= <-]; apply G; apply L; congruence|apply L]. Qed.
Lemma LQ_str c c' : k_str c' = k_str c -> LQ c -> LQ c'.
Proof. intros E L s. unfold find_stream. rewrite E. apply L. Qed.
Lemma kst_LQ c a c' : kst K c a c' -> fine_act a -> LQ c -> LQ c'.
Proof.
  intros H (Q1 & Q2 & Q3) L. destruct H; try exact L.
  - intros u. rewrite find_add by auto. destruct (Z.eqb_spec id id0) as [<-|N]; [intros [= <-]; eauto|apply L].
  - intros u. rewrite (find_mid c id0 s s x id H). destruct (Z.eqb_spec id id0) as [<-|N]; [|apply L]. intros [= <-]. pose proof (recv_ign false (benv_of K c s) (rx_now c s) src fin) as R. rewrite H2 in R.
    apply R; [exact (L s H)|]. intros S. apply Q2. cbn [vis]. apply told_map. exact S.
  - intros u. rewrite (find_mid (kk_blk c q) id0 _ s x id) by exact H1. destruct (Z.eqb_spec id id0) as [<-|N]; [|apply L]. intros [= <-]. pose proof (resume_ign false (benv_of K (kk_blk c q) s) (unblocked c s)) as R. rewrite H4 in R.
    apply R; [exact (L s H1)|]. intros S. apply Q2. cbn [vis]. apply told_app. left. apply told_map. exact S.
  - intros u. rewrite (find_mid (kk_blk c q) id0 _ s x id) by exact H1. destruct (Z.eqb_spec id id0) as [<-|N]; [|apply L]. intros [= <-]. pose proof (resume_ign false (benv_of K (kk_blk c q) s) (unblocked c s)) as R. rewrite H4 in R.
    apply R; [exact (L s H1)|]. intros S. apply Q2. cbn [vis]. apply told_app. left. apply told_map. exact S.
  - apply (LQ_put c id0 s (ss_pu s true)); auto.
  - cbv zeta. eapply LQ_str with (c := add_stream K c id0 _); [reflexivity|]. intros u. rewrite find_add by auto. destruct (Z.eqb_spec id id0) as [<-|N]; [intros [= <-]|apply L]. split; [reflexivity|discriminate].
  - intros u. rewrite find_rem. destruct (id =? id0); [discriminate|apply L].
  - eapply LQ_put; eauto.
  - assert (k_str c1 = k_str c) as X by (unfold identify in H2; repeat match type of H2 with context [if ?b then _ else _] => destruct b end; try discriminate; injection H2 as <- _; reflexivity).
    apply (LQ_put c1 id0 s); auto; [unfold find_stream in *; rewrite X; exact H|]. eapply LQ_str; eauto.
  - eapply LQ_put; eauto.
  - eapply LQ_str with (c := put c id0 _); [reflexivity|]. eapply LQ_put; eauto.
  - eapply LQ_str with (c := c1); [reflexivity|]. revert H2. apply (add_ebufs_P LQ).
    + intros d q sq tq e S _ Fq _. eapply LQ_put; eauto.
    + eapply LQ_put; eauto.
  - eapply LQ_str with (c := put c id0 _); [reflexivity|]. eapply LQ_put; eauto.
  - eapply LQ_put; eauto.
  - eapply LQ_str with (c := put c id0 _); [reflexivity|]. eapply LQ_put; eauto.
  - eapply LQ_str with (c := put c id0 _); [reflexivity|]. eapply LQ_put; eauto. destruct fc; auto.
  - eapply LQ_str with (c := put c id0 _); [reflexivity|]. eapply LQ_put; eauto. destruct fc; auto.
  - cbv zeta. eapply LQ_str with (c := put c id0 _); [reflexivity|]. eapply LQ_put; eauto. destruct (b_blk _); auto.
  - eapply LQ_str with (c := put c id0 _); [reflexivity|]. assert (id <> id0) by congruence. intros u. rewrite find_put. destruct (Z.eqb_spec id id0); [contradiction|apply L].
  - eapply LQ_str with (c := put c id0 _); [reflexivity|]. eapply LQ_put; eauto.
Qed.
Lemma told_seen a l : In a l -> told_stop id (vis a) -> told_stop id (seen l).
Proof. intros I (c & D). exists c. unfold seen. destruct D as [D|D]; [left|right]; apply in_concat; exists (vis a); (split; [apply in_map; exact I|exact D]). Qed.
Lemma step_LQ c o c' rv evs : wf K c -> op_ok o -> kstep K c o = KOk c' rv evs -> o <> OShutRead id -> ~ told_stop id evs -> LQ c -> LQ c'.
Proof.
  intros W O S N1 N2 L. assert (OT : (forall src fin, o <> ORead id src fin) -> LQ c').
  { intros NR. destruct (step_decomp K c o c' rv evs W O S) as (acts & D1 & D2 & D3 & _). eapply (ksts_inv K LQ fine_act); [intros; eapply kst_LQ; eauto|exact D1| |exact L].
    rewrite Forall_forall in *. intros a Ha. specialize (D3 a Ha). split; [intros ->; cbn in D3; congruence|]. split; [intros T; apply N2; rewrite <- D2; eapply told_seen; eauto|].
    intros s ->. assert (ke_server K = false) as SV.
    { destruct D3 as [(src & fin & X)|[(nva & dr & ->)|[->|(x & y & -> & AB)]]]; cbn [kstep] in S.
      - exfalso. exact (NR _ _ X).
      - unfold submit_request in S. destruct (ke_server K) eqn:G; [discriminate|reflexivity].
      - exfalso. unfold bind_control in S. destruct (negb _) eqn:NG; [discriminate|]. apply negb_false_iff, andb_true_iff in NG as [_ LU]. pose proof (bidi_uni id CB); pose proof (local_is_uni K id LU); congruence.
      - exfalso. unfold bind_qpack in S. destruct (negb _) eqn:NG; [discriminate|]. apply negb_false_iff in NG. rewrite !andb_true_iff in NG. destruct NG as [[_ L1] L2].
        destruct AB as [<-|<-]; pose proof (bidi_uni id CB); [pose proof (local_is_uni K id L1)|pose proof (local_is_uni K id L2)]; congruence. }
    clear - D1 Ha SV CB. induction D1 as [c|c a c1 l c' S D IH]; [destruct Ha|]. destruct Ha as [->|Ha]; [|auto]. inversion S; subst.
    match goal with H : fresh_stream _ _ _ _ |- _ => destruct H as [[SB _]|[[P _]|[[LU _]|(_ & _ & _ & nva & ->)]]] end.
    - unfold is_server_bidi in SB. rewrite SV in SB. discriminate.
    - pose proof (bidi_uni id CB); pose proof (peer_is_uni K id P); congruence.
    - pose proof (bidi_uni id CB); pose proof (local_is_uni K id LU); congruence.
    - split; [reflexivity|discriminate]. }
  destruct o; try (apply OT; intros; discriminate). destruct (Z.eq_dec id0 id) as [->|N]; [|apply OT; intros src0 fin0 X; congruence]. clear OT N1.
  cbn [kstep] in S. apply read_cases in S as [RG S].
  assert (OPEN : forall c0 s pre, opened K c id c0 s pre -> ~ told_stop id pre -> find_stream c0 id = Some s /\ good_x (st_x s)).
  { intros c0 s pre OP NT. destruct OP as [s F _|r g s F SB _ ->|F P].
    - split; [exact F|exact (L s F)].
    - rewrite find_add by exact F. rewrite Z.eqb_refl. destruct (rejected c id); [exfalso; apply NT; exists H3_REQUEST_REJECTED; left; left; reflexivity|]. split; [reflexivity|]. split; [reflexivity|discriminate].
    - exfalso. pose proof (bidi_uni id CB); pose proof (peer_is_uni K id P); congruence. }
  destruct S as [F _ -> ->|c0 s pre OP -> ->|c0 s pre c' rv evs OP _ _ R|c0 s c' rv evs OP PU NE R].
  - exact L.
  - destruct (OPEN _ _ _ OP N2) as [F G]. intros u Fu. rewrite F in Fu. injection Fu as <-. exact G.
  - destruct (OPEN _ _ _ OP) as [F G]. { intros T. apply N2. apply told_app. auto. }
    unfold read_request_stream in R. cbv zeta in R. pose proof (recv_ign false (benv_of K c0 s) (rx_now c0 s) src fin) as RI. destruct (recv _ _ _ _ _) as [x' ev| | |]; try discriminate.
    destruct (after_read _ _ _ _ _) as [c1| |] eqn:A; try discriminate. injection R as <- _ <-. apply after_mid in A. rewrite A. eapply LQ_str with (c := mid c0 id s x'); [reflexivity|].
    intros u. rewrite (find_mid c0 id s s x' id F), Z.eqb_refl. intros [= <-]. apply RI; [exact G|]. intros T. apply N2. apply told_app. right. apply told_map. exact T.
  - exfalso. pose proof (bidi_uni id CB); pose proof (peer_is_uni K id PU); congruence.
Qed.
Lemma hist_LQ h c : history K h c -> (forall x, In x (life id h) -> ConnHist.c_op x <> OShutRead id /\ ~ told_stop id (c_evs x)) -> LQ c.
Proof.
  revert h c. apply (hist_inv K (fun h c => (forall x, In x (life id h) -> ConnHist.c_op x <> OShutRead id /\ ~ told_stop id (c_evs x)) -> LQ c)).
  - intros _ s F. discriminate F.
  - intros h c o c' rv evs H W O IH S A. unfold LQ. destruct (find_stream c' id) as [s'|] eqn:F'; [|intros s X; discriminate X]. rewrite life_snoc in A. unfold is_open in A. cbn [c_post] in A. rewrite F' in A.
    destruct (A (mk_call o rv evs c')) as [A1 A2]; [apply in_app_iff; right; left; reflexivity|]. cbn [ConnHist.c_op c_evs] in A1, A2. rewrite <- F'. eapply step_LQ; eauto. apply IH. intros x I. apply A. apply in_app_iff. auto.
Qed.
Lemma api_listens h c : history K h c -> is_open c id = true -> (forall x, In x (life id h) -> ConnHist.c_op x <> OShutRead id /\ ~ told_stop id (c_evs x)) -> listens c id.
Proof.
  intros H O A. pose proof (hist_LQ h c H A) as L. unfold is_open in O. destruct (find_stream c id) as [s|] eqn:F; [|discriminate]. exists s. split; [exact F|]. exact (L s F).
Qed.
End L.
