(* The streams an endpoint opens itself keep their type; which calls leave the sending side of every stream alone *)
From Verif Require Import Base BaseLemmas Chunk ConvModel RdVarint QpackTabModel QpackDecModel HttpModel BidiModel BidiHist ControlModel GapModel PqModel PqProofs PqWeak TxModel SchedModel SchedProofs ConnModel ConnCtl ConnStep ConnRx ConnWf ConnDecomp ConnHist ConnRead ConnPri ConnSched ConnOffer ConnRecv SendSpec.
Open Scope Z_scope.

Section Kind.
Context (K : kenv).
Lemma kst_u c a c' : wf K c -> localC K c -> kst K c a c' -> forall id s, local_uni K id = true -> find_stream c id = Some s -> exists s', find_stream c' id = Some s' /\ st_u s' = st_u s.
Proof.
  intros W LC H.
  assert (PUT : forall i s s' d, find_stream c i = Some s -> (forall y, find_stream d y = find_stream (put c i s') y) -> (local_uni K i = true -> st_u s' = st_u s) ->
    forall id s, local_uni K id = true -> find_stream c id = Some s -> exists s', find_stream d id = Some s' /\ st_u s' = st_u s).
  { intros i s s' d F E C1 j t L G. rewrite E, find_put, F. destruct (Z.eqb_spec j i) as [->|N]; [|eauto]. rewrite F in G. injection G as <-. eauto. }
  assert (SAME : forall d, (forall y, find_stream d y = find_stream c y) -> forall id s, local_uni K id = true -> find_stream c id = Some s -> exists s', find_stream d id = Some s' /\ st_u s' = st_u s).
  { intros d E j t L G. rewrite E. eauto. }
  assert (ADD : forall i s d, find_stream c i = None -> (forall y, find_stream d y = find_stream (add_stream K c i s) y) ->
    forall id s, local_uni K id = true -> find_stream c id = Some s -> exists s', find_stream d id = Some s' /\ st_u s' = st_u s).
  { intros i s d F E j t L G. rewrite E, find_add by auto. destruct (Z.eqb_spec j i) as [->|N]; [congruence|eauto]. }
  assert (MID : forall c0 s s0 x i, (forall y, find_stream c0 y = find_stream c y) -> find_stream c i = Some s0 -> st_u s = st_u s0 ->
    forall id s1, local_uni K id = true -> find_stream c id = Some s1 -> exists s', find_stream (mid c0 i s x) id = Some s' /\ st_u s' = st_u s1).
  { intros c0 s s0 x i E F U1. eapply (PUT i s0 (ss_x s x)); [exact F| |intros _; exact U1].
    intros y. rewrite (find_mid c0 i s s0) by (rewrite E; exact F). rewrite find_put, F, E. reflexivity. }
  destruct H; try (apply SAME; reflexivity).
  - eapply (ADD id s); [exact H|reflexivity].
  - eapply (MID c s s); auto.
  - eapply (MID (kk_blk c q) (ss_x s (unblocked c s)) s); auto.
  - eapply (MID (kk_blk c q) (ss_x s (unblocked c s)) s); auto.
  - eapply (PUT id s (ss_pu s true)); [exact H|reflexivity|auto].
  - eapply (ADD id); [exact H|reflexivity].
  - intros j t L G. rewrite find_rem. destruct (Z.eqb_spec j id) as [->|N]; [|eauto]. exfalso. rewrite H in G. injection G as <-. pose proof (LC _ _ H L) as C. unfold critical in C.
      destruct H1 as [CB|[U|[P _]]]; [eapply local_not_bidi; eauto|rewrite U in C; destruct C as [C|[C|C]]; discriminate|eapply local_not_peer; eauto].
  - eapply (PUT id s); [exact H|reflexivity|]. intros L. exfalso. eapply local_not_peer; eauto.
  - destruct (identify_same _ _ _ _ H2) as [E _]. eapply (PUT id s (ss_u s u)); [exact H| |]; [|intros L; exfalso; eapply local_not_peer; eauto].
    intros y. unfold find_stream, put. cbn. rewrite E. reflexivity.
  - eapply (PUT id s (ss_t s t)); [exact H|reflexivity|auto].
  - eapply (PUT id s); [exact H0|reflexivity|auto].
  - intros j t1 L G.
    assert (exists t2, find_stream c1 j = Some t2) as [t2 G2].
    { revert H2. apply (add_ebufs_P (fun d => exists t2, find_stream d j = Some t2)); [|rewrite find_put, H; destruct (j =? id); eauto].
      intros d q s0 t0 e [t2 P] _ F0 _. rewrite find_put, F0. destruct (j =? q); eauto. }
    exists t2. split; [exact G2|]. destruct (ebufs_keep _ _ _ H2 _ _ G2) as (s0 & tt & F0 & -> & _). rewrite find_put, H in F0.
    destruct (Z.eqb_spec j id) as [->|N]; [injection F0 as <-; rewrite H in G; injection G as <-; reflexivity|rewrite G in F0; injection F0 as <-; reflexivity].
  - eapply (PUT id s (ss_t s t)); [exact H|reflexivity|auto].
  - eapply (PUT id s (ss_t s t)); [exact H|reflexivity|auto].
  - eapply (PUT id s); [exact H|reflexivity|auto].
  - eapply (PUT id s); [exact H|reflexivity|]; destruct fc; auto.
  - eapply (PUT id s); [exact H|reflexivity|]; destruct fc; auto; congruence.
  - eapply (PUT id s); [exact H|reflexivity|]; cbv zeta; destruct (b_blk _); auto.
  - eapply (PUT id s (ss_x s (x_shut_rd (st_x s)))); [exact H|reflexivity|auto].
  - eapply (PUT id s (ss_sp s true)); [exact H|reflexivity|auto].
Qed.
Lemma ksts_u c l c' : wf K c -> localC K c -> ksts K c l c' -> forall id s, local_uni K id = true -> find_stream c id = Some s -> exists s', find_stream c' id = Some s' /\ st_u s' = st_u s.
Proof.
  intros W LC S. induction S as [c|c a c1 l c' T S IH]; intros id s L F; [eauto|]. destruct (kst_u _ _ _ W LC T id s L F) as (s1 & F1 & U1).
  destruct (IH ltac:(eapply kst_wf; eauto) ltac:(eapply kst_local; eauto) id s1 L F1) as (s2 & F2 & U2). exists s2. split; [auto|congruence].
Qed.
Definition is_bind (o : cop) : bool := match o with OBindControl _ | OBindQpack _ _ => true | _ => false end.
Definition txs_of (c : conn) := (k_tctl c, k_tenc c, k_tdec c).
Lemma kst_txs c a c' : kst K c a c' -> (forall x y z, a <> ABind x y z) -> txs_of c' = txs_of c.
Proof.
  assert (MID : forall d i s x, txs_of (mid d i s x) = txs_of d) by (intros; unfold mid; destruct (b_blk (x_st x) && negb (b_blk (x_st (st_x s)))); reflexivity).
  assert (ADD : forall d i s, txs_of (add_stream K d i s) = txs_of d) by (intros; unfold add_stream; destruct (is_server_bidi K i); reflexivity).
  assert (REM : forall d i, txs_of (rem_stream K d i) = txs_of d) by (intros; unfold rem_stream; destruct (is_server_bidi K i); reflexivity).
  intros H N. destruct H; rewrite ?ADD, ?REM, ?MID; try reflexivity.
  - cbv zeta. match goal with |- txs_of (kk_sch ?d _) = _ => change (txs_of d = txs_of c) end. apply ADD.
  - destruct (identify_same _ _ _ _ H2) as [-> _]. reflexivity.
  - exfalso. eapply N; eauto.
  - change (txs_of c1 = txs_of c). revert H2. apply (add_ebufs_P (fun x => txs_of x = txs_of c)); [|reflexivity]. intros d q sq tq e S _ _ _. exact S.
Qed.
Lemma step_txs c o c' rv evs : wf K c -> op_ok o -> is_bind o = false -> kstep K c o = KOk c' rv evs -> txs_of c' = txs_of c.
Proof.
  intros W O B S. destruct (step_decomp _ _ _ _ _ _ W O S) as (acts & D & _ & F & _). clear S W. induction D as [c|c a c1 l c' T D IH]; auto. inversion F; subst.
  rewrite (IH ltac:(assumption)). apply kst_txs with (a := a); auto. intros x y z ->. cbn in *. destruct H1 as [[i ->]|(i & j & ->)]; discriminate.
Qed.
(* the three streams are what they were opened for *)
Definition DI (c : conn) : Prop := forall id,
  (k_tctl c = Some id -> local_uni K id = true /\ exists s, find_stream c id = Some s /\ st_u s = UCtl) /\
  (k_tenc c = Some id -> local_uni K id = true /\ exists s, find_stream c id = Some s /\ st_u s = UEnc) /\
  (k_tdec c = Some id -> local_uni K id = true /\ exists s, find_stream c id = Some s /\ st_u s = UDec).
Lemma open_uni_inv c id u ty frs c' : open_uni K c id u ty frs = Ok c' -> find_stream c id = None /\ exists t, write_raw tx_init [ty] = Ok t /\
  let s := ss_t (ss_u (new_stream id (rx_init id http_init (k_dec c))) u) (tx_submit t frs false) in
  (forall j, find_stream c' j = if j =? id then Some s else find_stream c j) /\ txs_of c' = txs_of c /\ k_goaway c' = k_goaway c.
Proof.
  unfold open_uni. intros H. apply obind_ok in H as (c1 & H1 & H). apply create_ok in H1 as [F ->]. apply obind_ok in H as (t & WR & H). injection H as <-. split; [exact F|].
  exists t. split; [exact WR|]. cbv zeta. split; [|split; [unfold put, add_stream; destruct (is_server_bidi K id); reflexivity|unfold put, add_stream; destruct (is_server_bidi K id); reflexivity]].
  intros j. rewrite find_put, !(find_add K) by exact F. rewrite Z.eqb_refl. destruct (Z.eqb_spec j id); reflexivity.
Qed.
Lemma hist_DI h c : history K h c -> DI c.
Proof.
  intros H. revert h c H. apply (hist_inv K (fun _ c => DI c)); [intros id; repeat split; discriminate|]. intros h c o c' rv evs H W O IH S.
  destruct (is_bind o) eqn:B.
  - destruct o; try discriminate B; cbn [kstep] in S.
    + unfold bind_control in S. destruct (id_ok id && local_uni K id) eqn:IO; [|discriminate]. apply andb_true_iff in IO as [_ L]. cbn [negb] in S.
      destruct (k_tctl c) eqn:T; [injection S as <- _ _; exact IH|]. apply lift_ok in S as (S & _). apply obind_ok in S as (c1 & S1 & S). injection S as <-.
      apply open_uni_inv in S1 as (F & t & _ & G & TX & _). injection TX as T1 T2 T3. intros j. destruct (IH j) as (I1 & I2 & I3). unfold find_stream in G. cbn [kk_tx k_tctl k_tenc k_tdec]. rewrite T2, T3.
      change (find_stream (kk_tx c1 (Some id) (k_tenc c1) (k_tdec c1)) j) with (find_stream c1 j). unfold find_stream at 1 2 3. rewrite G.
      split; [|split].
      * intros [= <-]. split; [exact L|]. rewrite Z.eqb_refl. eexists. split; reflexivity.
      * intros E. destruct (I2 E) as (L1 & s & Fs & U). split; [auto|]. destruct (Z.eqb_spec j id) as [->|N]; [congruence|eauto].
      * intros E. destruct (I3 E) as (L1 & s & Fs & U). split; [auto|]. destruct (Z.eqb_spec j id) as [->|N]; [congruence|eauto].
    + unfold bind_qpack in S. destruct (id_ok eid && id_ok did && local_uni K eid && local_uni K did) eqn:IO; [|discriminate]. apply andb_true_iff in IO as [IO L2]. apply andb_true_iff in IO as [_ L1]. cbn [negb] in S.
      destruct (k_tenc c) eqn:TE; [injection S as <- _ _; exact IH|]. destruct (k_tdec c) eqn:TD; [injection S as <- _ _; exact IH|]. apply lift_ok in S as (S & _).
      apply obind_ok in S as (c1 & S1 & S). apply obind_ok in S as (c2 & S2 & S). injection S as <-.
      apply open_uni_inv in S1 as (F & t & _ & G & TX & _). injection TX as T1 T2 T3. apply open_uni_inv in S2 as (F2 & t2 & _ & G2 & TX2 & _).
      cbv zeta in G, G2. match type of F2 with find_stream ?d _ = _ => change (find_stream c1 did = None) in F2; assert (forall j, find_stream d j = find_stream c1 j) as EQ by reflexivity end.
      injection TX2 as T4 T5 T6. cbn [kk_tx k_tctl k_tenc k_tdec] in T4, T5, T6. intros j. destruct (IH j) as (I1 & I2 & I3). cbn [kk_tx k_tctl k_tenc k_tdec].
      assert (forall j, find_stream (kk_tx c2 (k_tctl c2) (k_tenc c2) (Some did)) j = find_stream c2 j) as EQ2 by reflexivity. rewrite EQ2, T4, T5, T1.
      rewrite G in F2. destruct (Z.eqb_spec did eid) as [|ND]; [discriminate|]. split; [|split].
      * intros E. destruct (I1 E) as (L & s & Fs & U). split; [auto|]. rewrite G2, EQ, G. destruct (Z.eqb_spec j did) as [->|N]; [congruence|]. destruct (Z.eqb_spec j eid) as [->|N2]; [congruence|eauto].
      * intros [= <-]. split; [auto|]. rewrite G2, EQ, G. destruct (Z.eqb_spec eid did) as [E|N]; [congruence|]. rewrite Z.eqb_refl. eexists. split; reflexivity.
      * intros [= <-]. split; [auto|]. rewrite G2, Z.eqb_refl. eexists. split; reflexivity.
  - pose proof (step_txs _ _ _ _ _ W O B S) as TX. injection TX as T1 T2 T3. destruct (step_decomp _ _ _ _ _ _ W O S) as (acts & D & _).
    pose proof (ksts_u _ _ _ W (hist_local _ _ _ H) D) as U. intros j. destruct (IH j) as (I1 & I2 & I3). rewrite T1, T2, T3.
    split; [|split]; intros E; [destruct (I1 E) as (L & s & Fs & Us)|destruct (I2 E) as (L & s & Fs & Us)|destruct (I3 E) as (L & s & Fs & Us)]; (split; [auto|]); destruct (U j s L Fs) as (s' & F' & U'); exists s'; split; auto; congruence.
Qed.
End Kind.
