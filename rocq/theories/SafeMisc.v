(* Small facts about histories that the absence of aborts rests on (C49) *)
From Verif Require Import Base BaseLemmas Chunk ConvModel ConvSpec RdVarint QpackTabModel QpackDecModel HttpModel BidiModel BidiHist ControlModel GapModel GapSpec GapHist PqModel TxModel TxSpec TxFill TxTrace SchedModel ConnModel ConnCtl ConnStep ConnWf ConnDecomp ConnHist ConnRead ConnShut ConnOffer SendSpec ConnTx ConnKind ConnSend ConnSend2 SendApi.
Open Scope Z_scope.

Section SafeMisc.
Context (K : kenv).
(* the identifiers of the peer's request streams *)
Lemma idtr_over g g' : idtr_step g g' -> (exists seen, over_for g seen) -> exists seen, over_for g' seen.
Proof.
  intros [-> |(id & r & B & E)]; auto. intros (seen & O). destruct (over_open g seen id O B) as (rv & g2 & E2 & _ & O2). rewrite E in E2. injection E2 as <- <-. eauto.
Qed.
Lemma kst_idtr c a c' : kst K c a c' -> idtr_step (k_idtr c) (k_idtr c').
Proof.
  assert (MID : forall d i s x, k_idtr (mid d i s x) = k_idtr d) by (intros; unfold mid; destruct (b_blk (x_st x) && negb (b_blk (x_st (st_x s)))); reflexivity).
  assert (ADD : forall d i s, k_idtr (add_stream K d i s) = k_idtr d) by (intros; unfold add_stream; destruct (is_server_bidi K i); reflexivity).
  assert (REM : forall d i, k_idtr (rem_stream K d i) = k_idtr d) by (intros; unfold rem_stream; destruct (is_server_bidi K i); reflexivity).
  intros H. destruct H; rewrite ?ADD, ?REM, ?MID; try (left; reflexivity).
  - left. cbv zeta. match goal with |- k_idtr (kk_sch ?d _) = _ => change (k_idtr d = k_idtr c) end. apply ADD.
  - left. destruct (identify_same _ _ _ _ H2) as [-> _]. reflexivity.
  - exact H.
  - left. change (k_idtr c1 = k_idtr c). revert H2. apply (add_ebufs_P (fun x => k_idtr x = k_idtr c)); [|reflexivity]. intros d q sq tq e S _ _ _. exact S.
Qed.
Definition ID (c : conn) : Prop := exists seen, over_for (k_idtr c) seen.
Lemma kst_ID c a c' : kst K c a c' -> ID c -> ID c'.
Proof. intros H. apply idtr_over. eapply kst_idtr; eauto. Qed.
Lemma ksts_ID c l c' : ksts K c l c' -> ID c -> ID c'.
Proof. induction 1; auto. intros I. apply IHksts. eapply kst_ID; eauto. Qed.
Lemma hist_idtr h c : history K h c -> ID c.
Proof.
  revert h c. apply (hist_inv K (fun _ c => ID c)); [exists []; apply over_init|]. intros h c o c' rv evs _ W O IH S.
  destruct (step_decomp _ _ _ _ _ _ W O S) as (acts & D & _). eapply ksts_ID; eauto.
Qed.

(* the number of streams the client may open *)
Lemma kst_maxcl c a c' : kst K c a c' -> a <> AMisc -> k_maxcl c' = k_maxcl c.
Proof.
  assert (MID : forall d i s x, k_maxcl (mid d i s x) = k_maxcl d) by (intros; unfold mid; destruct (b_blk (x_st x) && negb (b_blk (x_st (st_x s)))); reflexivity).
  assert (ADD : forall d i s, k_maxcl (add_stream K d i s) = k_maxcl d) by (intros; unfold add_stream; destruct (is_server_bidi K i); reflexivity).
  assert (REM : forall d i, k_maxcl (rem_stream K d i) = k_maxcl d) by (intros; unfold rem_stream; destruct (is_server_bidi K i); reflexivity).
  intros H N. destruct H; rewrite ?ADD, ?REM, ?MID; try reflexivity.
  - cbv zeta. match goal with |- k_maxcl (kk_sch ?d _) = _ => change (k_maxcl d = k_maxcl c) end. apply ADD.
  - destruct (identify_same _ _ _ _ H2) as [-> _]. reflexivity.
  - congruence.
  - change (k_maxcl c1 = k_maxcl c). revert H2. apply (add_ebufs_P (fun x => k_maxcl x = k_maxcl c)); [|reflexivity]. intros d q sq tq e S _ _ _. exact S.
Qed.

(* the endpoint's own streams stay bound *)
Lemma hist_decenc h c : history K h c -> k_tdec c <> None -> k_tenc c <> None.
Proof.
  revert h c. apply (hist_inv K (fun h c => k_tdec c <> None -> k_tenc c <> None)); [intros X; exact X|].
  intros h c o c' rv evs H W O IH S. destruct (is_bind o) eqn:B; [|pose proof (step_txs _ _ _ _ _ _ W O B S) as T; injection T as _ T1 T2; rewrite T1, T2; exact IH].
  destruct o; try discriminate B; cbn [kstep] in S.
  * unfold bind_control in S. destruct (negb _); [discriminate|]. destruct (k_tctl c); [injection S as <- _ _; exact IH|]. apply lift_ok in S as (S & _). apply obind_ok in S as (c1 & S1 & S). injection S as <-.
    apply open_uni_inv in S1 as (_ & t & _ & _ & TX & _). injection TX as _ T1 T2. cbn [kk_tx k_tenc k_tdec]. rewrite T1, T2. exact IH.
  * unfold bind_qpack in S. destruct (negb _); [discriminate|]. destruct (k_tenc c) eqn:E; [injection S as <- _ _; congruence|]. destruct (k_tdec c) eqn:ED; [injection S as <- _ _; rewrite ED, E; exact IH|].
    apply lift_ok in S as (S & _). apply obind_ok in S as (c1 & S1 & S). apply obind_ok in S as (c2 & S2 & S). injection S as <-. apply open_uni_inv in S2 as (_ & t & _ & _ & TX & _). injection TX as _ T1 _. cbn [kk_tx k_tenc]. rewrite T1. discriminate.
Qed.
Lemma hist_qpack h c e d : history K h c -> In (OBindQpack e d) (ops_of h) -> k_tenc c <> None.
Proof.
  revert h c. apply (hist_inv K (fun h c => In (OBindQpack e d) (ops_of h) -> k_tenc c <> None)); [intros []|].
  intros h c o c' rv evs H W O IH S. rewrite ops_snoc, in_app_iff. cbn [ConnHist.c_op]. intros [I|[-> |[]]].
  - specialize (IH I). destruct (is_bind o) eqn:B; [|pose proof (step_txs _ _ _ _ _ _ W O B S) as T; injection T as _ T _; congruence].
    destruct o; try discriminate B; cbn [kstep] in S.
    + unfold bind_control in S. destruct (negb _); [discriminate|]. destruct (k_tctl c); [injection S as <- _ _; exact IH|]. apply lift_ok in S as (S & _). apply obind_ok in S as (c1 & S1 & S). injection S as <-.
      apply open_uni_inv in S1 as (_ & t & _ & _ & TX & _). injection TX as _ TX _. cbn [kk_tx k_tenc]. congruence.
    + unfold bind_qpack in S. destruct (negb _); [discriminate|]. destruct (k_tenc c) eqn:TE; [injection S as <- _ _; congruence|congruence].
  - cbn [kstep] in S. unfold bind_qpack in S. destruct (negb _); [discriminate|]. destruct (k_tenc c) eqn:E; [injection S as <- _ _; congruence|].
    destruct (k_tdec c) eqn:ED.
    + exfalso. eapply (hist_decenc h c); eauto; congruence.
    + apply lift_ok in S as (S & _). apply obind_ok in S as (c1 & S1 & S). apply obind_ok in S as (c2 & S2 & S). injection S as <-. apply open_uni_inv in S2 as (_ & t & _ & _ & TX & _). injection TX as _ T1 _. cbn [kk_tx k_tenc]. rewrite T1. discriminate.
Qed.
Definition is_submit (o : cop) : bool := match o with ORequest _ _ _ | OInfo _ _ | OResponse _ _ _ | OTrailers _ _ => true | _ => false end.
Lemma submit_enc c o c' rv evs : is_submit o = true -> kstep K c o = KOk c' rv evs -> k_tenc c <> None.
Proof.
  assert (has_enc c = true -> k_tenc c <> None) as X by (unfold has_enc; destruct (k_tenc c); congruence).
  intros I S. apply X. destruct o; try discriminate I; cbn [kstep] in S; unfold submit_request, submit_info, submit_response, submit_trailers in S; destruct (has_enc c); auto.
  - destruct (ke_server K); discriminate S.
  - rewrite andb_false_r in S. discriminate S.
  - rewrite andb_false_r in S. discriminate S.
  - discriminate S.
Qed.
Lemma hist_noenc h c : history K h c -> k_tenc c = None -> forall o, In o (ops_of h) -> is_submit o = false.
Proof.
  revert h c. apply (hist_inv K (fun h c => k_tenc c = None -> forall o, In o (ops_of h) -> is_submit o = false)); [intros _ o []|].
  intros h c o c' rv evs H W O IH S N o'. rewrite ops_snoc, in_app_iff. cbn [ConnHist.c_op].
  assert (k_tenc c = None) as NC.
  { destruct (is_bind o) eqn:B; [|pose proof (step_txs _ _ _ _ _ _ W O B S) as T; injection T as _ T _; congruence].
    destruct o; try discriminate B; cbn [kstep] in S.
    - unfold bind_control in S. destruct (negb _); [discriminate|]. destruct (k_tctl c); [injection S as <- _ _; exact N|]. apply lift_ok in S as (S & _). apply obind_ok in S as (c1 & S1 & S). injection S as <-.
      apply open_uni_inv in S1 as (_ & t & _ & _ & TX & _). injection TX as _ TX _. cbn [kk_tx k_tenc] in N. congruence.
    - unfold bind_qpack in S. destruct (negb _); [discriminate|]. destruct (k_tenc c) eqn:TE; [injection S as <- _ _; congruence|reflexivity]. }
  intros [I|[<- |[]]]; [apply (IH NC); exact I|]. destruct (is_submit o) eqn:SU; auto. exfalso. eapply submit_enc; eauto.
Qed.
(* without an encoder stream no header section waits to be encoded *)
Lemma call_no_headers E L a o r b : call E L a o r b -> (forall frs fin, tv1 (o, r) = [TSubmit frs fin] -> no_headers frs) -> no_headers (a_pend a) -> no_headers (a_pend b).
Proof.
  assert (FILL : forall a es b, (if a_blk a then es = [] /\ b = a else emits E a es b) -> no_headers (a_pend a) -> no_headers (a_pend b)).
  { intros a' es b' H N. destruct (a_blk a'); [destruct H as [_ ->]; exact N|]. eapply emits_no_headers; eauto. }
  destruct 1; intros S N; cbn [a_pend] in *; auto; try (eapply FILL; eauto; fail).
  intros nva I. apply in_app_iff in I as [I|I]; [exact (N _ I)|]. exact (S frs fin eq_refl _ I).
Qed.
Lemma tv1_one o r e : In e (tv1 (o, r)) -> tv1 (o, r) = [e].
Proof. unfold tv1. destruct o; destruct r; cbn; try tauto; intros [-> |[]]; reflexivity. Qed.
Lemma calls_no_headers E L a tr b : calls E L a tr b -> (forall frs fin, In (TSubmit frs fin) (tvis tr) -> no_headers frs) -> no_headers (a_pend a) -> no_headers (a_pend b).
Proof.
  induction 1; intros S N; auto. change (tvis ((o, r) :: tr)) with (tv1 (o, r) ++ tvis tr) in S. apply IHcalls.
  - intros frs fin I. apply (S frs fin). apply in_app_iff. auto.
  - eapply call_no_headers; eauto. intros frs fin E'. apply (S frs fin). apply in_app_iff. left. rewrite E'. left. reflexivity.
Qed.
Lemma noenc_frq h c id s : env_fine K -> history K h c -> sending_ok K h -> k_tenc c = None -> find_stream c id = Some s -> no_headers (t_frq (st_t s)).
Proof.
  intros EN H SO NE F. destruct (hist_sending K EN h c id s H SO F) as (tr & a & C & R & V & _). rewrite (ti_frq _ _ _ (r_tied _ _ _ R)).
  eapply calls_no_headers; [exact C| |intros nva []]. rewrite V. intros frs fin I nva IN.
  unfold slog in I. apply in_concat in I as (l & I1 & I2). apply in_map_iff in I1 as (x & <- & I1). pose proof (life_sub id h x I1) as IH.
  assert (is_submit (ConnHist.c_op x) = false) as NS. { eapply hist_noenc; eauto. unfold ops_of. apply in_map. exact IH. }
  unfold tlog1 in I2. destruct x as [o rv evs c1]. cbn [ConnHist.c_op ConnHist.c_rv c_post c_evs] in *.
  cbv beta zeta iota in I2. destruct o; try discriminate NS; try (eapply offers_no_submit; exact I2); (destruct (rv =? 0); cbn [negb] in I2; [|destruct I2]); try (destruct I2; fail).
  all: try (destruct (Z.eqb_spec id0 id) as [-> |]; [|destruct I2]).
  all: try match type of I2 with context [is_ctl ?b] => destruct (is_ctl b); [|destruct I2] end.
  all: destruct I2 as [I2|[]]; try discriminate I2; injection I2 as <- <-.
  all: destruct IN as [IN|[]]; discriminate IN.
Qed.
(* the identifier of the last GOAWAY frame *)
Lemma hist_goaway0 h c : history K h c -> 0 <= k_goaway c.
Proof.
  intros H. assert (forall h c, history K h c -> 0 <= k_goaway c) as X; [|eauto]. clear h c H. intros h c H. revert h c H.
  apply (hist_inv K (fun _ c => 0 <= k_goaway c)); [vm_compute; discriminate|]. intros h c o c' rv evs H W O IH S. destruct (is_goaway o) eqn:G.
  - destruct (goaway_step _ _ _ _ _ _ G S) as (t & s & _ & _ & _ & _ & _ & E & _). rewrite E. pose proof (hist_maxid K h c H) as M. destruct o; try discriminate G.
    + unfold notice_id. destruct (ke_server K); vm_compute; discriminate.
    + unfold shutdown_id. destruct (ke_server K); [|lia]. assert (0 <= 2 ^ 62 - 4) by (vm_compute; discriminate). lia.
  - destruct (step_sg _ _ _ _ _ _ W O S G) as (E & _). lia.
Qed.
End SafeMisc.
