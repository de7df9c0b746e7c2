(* What holds in every state a connection reaches *)
From Verif Require Import Base BaseLemmas Chunk ConvModel RdVarint QpackTabModel QpackDecModel HttpModel BidiModel BidiHist ControlModel GapModel PqModel PqProofs PqWeak TxModel SchedModel SchedProofs SchedFair ConnModel ConnCtl ConnStep ConnRx.
Open Scope Z_scope.

(* the kinds of identifiers *)
Lemma id_cases id : Z.land id 3 = 0 \/ Z.land id 3 = 1 \/ Z.land id 3 = 2 \/ Z.land id 3 = 3.
Proof. assert (Z.land id 3 = id mod 4) as -> by (exact (Z.land_ones id 2 ltac:(lia))). pose proof (Z.mod_pos_bound id 4 ltac:(lia)). lia. Qed.
Lemma id_two id : Z.land id 2 = Z.land (Z.land id 3) 2.
Proof. rewrite <- Z.land_assoc. reflexivity. Qed.
Ltac idk id := pose proof (id_two id); destruct (id_cases id) as [?|[?|[?|?]]]; repeat match goal with H : Z.land id 3 = _ |- _ => rewrite ?H in *; clear H | H : Z.land id 2 = Z.land _ _ |- _ => cbn in H; rewrite ?H in *; clear H end; cbn in *; auto; try congruence; try discriminate.
Lemma bidi_uni id : client_bidi id = true -> stream_uni id = false.
Proof. unfold client_bidi, stream_uni. idk id. Qed.
Lemma uni_bidi id : stream_uni id = true -> client_bidi id = false.
Proof. unfold client_bidi, stream_uni. idk id. Qed.
Lemma peer_is_uni K id : peer_uni K id = true -> stream_uni id = true.
Proof. unfold peer_uni, client_uni, server_uni, stream_uni. destruct (ke_server K); idk id. Qed.
Lemma local_is_uni K id : local_uni K id = true -> stream_uni id = true.
Proof. unfold local_uni, client_uni, server_uni, stream_uni. destruct (ke_server K); idk id. Qed.
Lemma local_not_peer K id : local_uni K id = true -> peer_uni K id = true -> False.
Proof. unfold local_uni, peer_uni, client_uni, server_uni. destruct (ke_server K); idk id. Qed.
Lemma local_not_bidi K id : local_uni K id = true -> client_bidi id = true -> False.
Proof. intros A B. apply local_is_uni in A. apply bidi_uni in B. congruence. Qed.
Lemma peer_not_bidi K id : peer_uni K id = true -> client_bidi id = true -> False.
Proof. intros A B. apply peer_is_uni in A. apply bidi_uni in B. congruence. Qed.

(* the operations of the scheduler keep its structure *)
Record sok (s : sch) (x : Z) (o : outcome sch) (s' : sch) : Prop := {
  so_ok : o = Ok s'; so_inv : sinv s'; so_oth : forall y, y <> x -> sc_n s' y = sc_n s y }.
Lemma sc_submit_s s x r : sinv s -> exists s', sok s x (sc_submit s x r) s' /\ n_pri (sc_n s' x) = n_pri (sc_n s x) /\ sched s' x = r || sched s x.
Proof.
  intros H. unfold sc_submit. destruct r.
  - destruct (schedule_ok s x H) as (s' & A & B & C & _ & D & F & _). exists s'. split; [constructor; auto|auto].
  - exists s. split; [constructor; auto|auto].
Qed.
Lemma sc_wake_s s x r : sinv s -> exists s', sok s x (sc_wake s x r) s' /\ n_pri (sc_n s' x) = n_pri (sc_n s x) /\ sched s' x = r || sched s x.
Proof.
  intros H. unfold sc_wake, ensure_scheduled. destruct r.
  - destruct (n_sched (sc_n s x)) eqn:E; [exists s; split; [constructor; auto|auto]|].
    destruct (schedule_ok s x H) as (s' & A & B & C & _ & D & F & _). exists s'. split; [constructor; auto|auto].
  - exists s. split; [constructor; auto|auto].
Qed.
Lemma sc_close_s s x : sinv s -> exists s', sok s x (sc_close s x) s' /\ n_pri (sc_n s' x) = n_pri (sc_n s x) /\ sched s' x = false.
Proof.
  intros H. destruct (unschedule_ok s x H) as (s' & A & B & C & D & F & _). exists s'. split; [constructor; auto|]. rewrite D. auto.
Qed.
Lemma sc_offered_s s x r : sinv s -> exists s', sok s x (sc_offered s x r) s' /\ n_pri (sc_n s' x) = n_pri (sc_n s x) /\ sched s' x = r && sched s x.
Proof.
  intros H. unfold sc_offered. destruct r; [exists s; split; [constructor; auto|auto]|].
  destruct (sc_close_s s x H) as (s' & A & B & C). exists s'. auto.
Qed.
Lemma sc_block_s s x : sinv s -> exists s', sok s x (sc_block s x) s' /\ n_pri (sc_n s' x) = n_pri (sc_n s x) /\ sched s' x = false.
Proof.
  intros H. unfold sc_block. set (s1 := set_node s x (nd_nw (sc_n s x) 0)). assert (sinv s1) as H1 by (apply sinv_node; auto).
  destruct (sc_close_s s1 x H1) as (s' & [A B C] & D & F). exists s'. split; [constructor; auto|].
  - intros y N. rewrite C by auto. cbn. apply upd_z_other; auto.
  - rewrite D. cbn. rewrite upd_z_same. auto.
Qed.
Lemma sc_written_s s x n r : sinv s -> exists s', sok s x (sc_written s x n r) s' /\ n_pri (sc_n s' x) = n_pri (sc_n s x) /\ (sched s' x = r && sched s x \/ sched s' x = r).
Proof.
  intros H. unfold sc_written. set (s1 := set_node s x (nd_nw (sc_n s x) (n_nw (sc_n s x) + n))). assert (sinv s1) as H1 by (apply sinv_node; auto).
  assert (n_pri (sc_n s1 x) = n_pri (sc_n s x)) as P by (cbn; rewrite upd_z_same; auto).
  assert (forall y, y <> x -> sc_n s1 y = sc_n s y) as O by (intros y N; cbn; apply upd_z_other; auto).
  destruct r; cbn [negb].
  - destruct (_ <? _).
    + exists s1. split; [constructor; auto|]. split; auto. left. unfold sched. cbn. rewrite upd_z_same. auto.
    + destruct (schedule_ok s1 x H1) as (s' & A & B & C & _ & D & F & _). exists s'. split; [constructor; auto; intros; rewrite F; auto|]. split; [congruence|auto].
  - destruct (sc_close_s s1 x H1) as (s' & [A B C] & D & F). exists s'. split; [constructor; auto; intros; rewrite C; auto|]. split; [congruence|auto].
Qed.
Lemma pri_eq_true a b : pri_eq a b = true -> a = b.
Proof. unfold pri_eq. destruct a, b; cbn. intros H. apply andb_true_iff in H as [A B]. apply Z.eqb_eq in A, B. congruence. Qed.
Lemma sc_priority_s s x p r : sinv s -> pri_valid p -> exists s', sok s x (sc_priority s x p r) s' /\ n_pri (sc_n s' x) = p /\
  (sched s' x = r \/ (p = n_pri (sc_n s x) /\ sched s' x = sched s x)).
Proof.
  intros H [V1 V2]. unfold sc_priority. destruct (pri_eq (n_pri (sc_n s x)) p) eqn:E.
  - apply pri_eq_true in E. exists s. split; [constructor; auto|]. split; [auto|right; auto].
  - destruct (sc_close_s s x H) as (s0 & [A B C] & D & F). unfold sc_close in A. rewrite A.
    set (s1 := set_node s0 x (nd_pri (sc_n s0 x) p)).
    assert (sinv s1) as H1 by (apply sinv_free; cbn; auto; unfold lvl; lia).
    assert (n_pri (sc_n s1 x) = p) as P by (cbn; rewrite upd_z_same; auto).
    assert (forall y, y <> x -> sc_n s1 y = sc_n s y) as O by (intros y N; cbn; rewrite upd_z_other by auto; auto).
    destruct r.
    + destruct (schedule_ok s1 x H1) as (s' & A1 & B1 & C1 & _ & D1 & F1 & _). exists s'. split; [constructor; auto; intros; rewrite F1; auto|]. split; [congruence|auto].
    + exists s1. split; [constructor; auto|]. split; auto. left. unfold sched. cbn. rewrite upd_z_same. exact F.
Qed.
Lemma sok_det s x o s' s1 : sok s x o s' -> o = Ok s1 -> s' = s1.
Proof. intros [A _ _] H. congruence. Qed.

Definition b2z (b : bool) : Z := if b then 1 else 0.
Fixpoint nbidi (K : kenv) (l : list Z) : Z := match l with [] => 0 | id :: l' => b2z (is_server_bidi K id) + nbidi K l' end.
Lemma nbidi_nonneg K l : 0 <= nbidi K l.
Proof. induction l; cbn; [lia|]. unfold b2z. destruct (is_server_bidi K a); lia. Qed.
Lemma nbidi_del K l id : NoDup l -> In id l -> nbidi K (filter (fun i => negb (i =? id)) l) = nbidi K l - b2z (is_server_bidi K id).
Proof.
  induction l as [|a l IH]; cbn; [tauto|]. intros ND [->|H]; inversion ND; subst.
  - rewrite Z.eqb_refl. cbn. assert (filter (fun i => negb (i =? id)) l = l) as ->; [|lia].
    clear - H1. induction l as [|b l IH]; cbn; auto. destruct (Z.eqb_spec b id); [subst; exfalso; apply H1; left; auto|]. cbn. rewrite IH; auto. intros Q. apply H1. right; auto.
  - destruct (Z.eqb_spec a id); [subst; tauto|]. cbn. rewrite IH; auto. lia.
Qed.

Record wf (K : kenv) (c : conn) : Prop := {
  wf_nd : NoDup (keys c);
  wf_id : forall id s, find_stream c id = Some s -> id_range id /\ (client_bidi id = true \/ stream_uni id = true);
  wf_x : forall id s, find_stream c id = Some s -> x_id (st_x s) = id /\ pri_valid (h_pri (b_http (x_st (st_x s))));
  wf_ux : forall id s, find_stream c id = Some s -> stream_uni id = true -> b_blk (x_st (st_x s)) = false;
  wf_tx : forall id, k_tctl c = Some id \/ k_tenc c = Some id \/ k_tdec c = Some id -> local_uni K id = true /\ exists s, find_stream c id = Some s /\ critical (st_u s);
  wf_ctl : ctl_inv (ke_server K) (k_ctl c);
  wf_pq : exact (k_blk c);
  wf_blk : forall id, has (k_blk c) id <-> exists s, find_stream c id = Some s /\ b_blk (x_st (st_x s)) = true;
  wf_num : k_num c = nbidi K (keys c) }.
Lemma wf_init K : wf K (conn_init K).
Proof.
  constructor; cbn; try discriminate.
  - constructor.
  - intros id [H|[H|H]]; discriminate.
  - apply ctl_init.
  - intros i Hi. cbn in Hi. lia.
  - intros id. split; [intros (i & Hi & _); cbn in Hi; lia|intros (s & H & _); discriminate].
  - reflexivity.
Qed.

Lemma keys_put c id s : keys (put c id s) = keys c.
Proof. apply keys_set_s. Qed.
Lemma in_keys c id s : find_stream c id = Some s -> In id (keys c).
Proof. apply find_in_some. Qed.
Lemma not_in_keys c id : find_stream c id = None -> ~ In id (keys c).
Proof. intros H Q. apply find_in in Q. unfold find_stream in H. congruence. Qed.
(* a stream is changed *)
Lemma wf_put K c id s s' : wf K c -> find_stream c id = Some s -> x_id (st_x s') = x_id (st_x s) ->
  (pri_valid (h_pri (b_http (x_st (st_x s)))) -> pri_valid (h_pri (b_http (x_st (st_x s'))))) ->
  b_blk (x_st (st_x s')) = b_blk (x_st (st_x s)) -> (critical (st_u s) -> critical (st_u s')) -> wf K (put c id s').
Proof.
  intros W F H1 H2 H3 H4.
  assert (forall j t, find_stream (put c id s') j = Some t -> (j = id /\ t = s') \/ (j <> id /\ find_stream c j = Some t)) as D.
  { intros j t. rewrite find_put, F. destruct (Z.eqb_spec j id); [intros [= <-]; auto|auto]. }
  destruct W as [W1 W2 W3 W4 W5 W6 W7 W8 W11]. constructor; try assumption.
  - rewrite keys_put; auto.
  - intros j t H. apply D in H as [[-> ->]|[N H]]; eauto.
  - intros j t H. apply D in H as [[-> ->]|[N H]]; eauto. destruct (W3 _ _ F). split; [congruence|auto].
  - intros j t H U. apply D in H as [[-> ->]|[N H]]; eauto.
  - intros j H. destruct (W5 j H) as (L & t & Ft & C). split; auto. rewrite find_put, F. destruct (Z.eqb_spec j id) as [->|]; [|eauto].
    exists s'. split; auto. assert (t = s) as -> by congruence. auto.
  - intros j. cbn [k_blk put kk_str]. rewrite W8. split; intros (t & Ft & B).
    + rewrite find_put, F. destruct (Z.eqb_spec j id) as [->|]; [|eauto]. exists s'. split; auto. assert (t = s) as -> by congruence. congruence.
    + apply D in Ft as [[-> ->]|[N Ft]]; [|eauto]. exists s. split; auto. congruence.
  - rewrite keys_put. exact W11.
Qed.
Lemma wf_sched K c s' : wf K c -> wf K (kk_sch c s').
Proof. intros []. constructor; assumption. Qed.
Lemma wf_dec K c d : wf K c -> wf K (kk_dec c d).
Proof. intros []. constructor; assumption. Qed.
Lemma wf_goaway K c a b d : wf K c -> wf K (kk_goaway c a b d).
Proof. intros []. constructor; assumption. Qed.
(* a stream is added *)
Lemma wf_add K c id s : wf K c -> find_stream c id = None -> id_range id -> client_bidi id = true \/ stream_uni id = true ->
  x_id (st_x s) = id -> pri_valid (h_pri (b_http (x_st (st_x s)))) -> b_blk (x_st (st_x s)) = false -> wf K (add_stream K c id s).
Proof.
  intros W F R C X1 X2 X3.
  assert (forall j t, find_stream (add_stream K c id s) j = Some t -> (j = id /\ t = s) \/ (j <> id /\ find_stream c j = Some t)) as D.
  { intros j t. unfold add_stream, find_stream. destruct (is_server_bidi K id); cbn; destruct (Z.eqb_spec id j); try (intros [= <-]; auto); auto. }
  assert (forall j t, find_stream c j = Some t -> find_stream (add_stream K c id s) j = Some t) as D2.
  { intros j t H. unfold add_stream, find_stream in *. destruct (is_server_bidi K id); cbn; destruct (Z.eqb_spec id j); auto; subst; congruence. }
  assert (keys (add_stream K c id s) = id :: keys c) as KE by (unfold add_stream; destruct (is_server_bidi K id); reflexivity).
  assert (k_blk (add_stream K c id s) = k_blk c) as BE by (unfold add_stream; destruct (is_server_bidi K id); reflexivity).
  destruct W as [W1 W2 W3 W4 W5 W6 W7 W8 W11]. constructor.
  - rewrite KE. constructor; auto using not_in_keys.
  - intros j t H. apply D in H as [[-> ->]|[N H]]; eauto.
  - intros j t H. apply D in H as [[-> ->]|[N H]]; eauto.
  - intros j t H U. apply D in H as [[-> ->]|[N H]]; eauto.
  - intros j H. assert (k_tctl c = Some j \/ k_tenc c = Some j \/ k_tdec c = Some j) as H' by (unfold add_stream in H; destruct (is_server_bidi K id); exact H).
    destruct (W5 j H') as (L & t & Ft & Cr). split; auto. exists t. split; auto.
  - unfold add_stream; destruct (is_server_bidi K id); exact W6.
  - rewrite BE; auto.
  - intros j. rewrite BE, W8. split; intros (t & Ft & B); [eauto|]. apply D in Ft as [[-> ->]|[N Ft]]; [congruence|eauto].
  - rewrite KE. cbn [nbidi]. rewrite <- W11. unfold add_stream, b2z. destruct (is_server_bidi K id); cbn [k_num kk_num kk_sch kk_str]; lia.
Qed.
Lemma wf_rem K c id s : wf K c -> find_stream c id = Some s -> ~ critical (st_u s) \/ client_bidi id = true -> b_blk (x_st (st_x s)) = false -> wf K (rem_stream K c id).
Proof.
  intros W F NC NB.
  assert (forall j, find_stream (rem_stream K c id) j = if j =? id then None else find_stream c j) as D.
  { intros j. unfold rem_stream, find_stream. destruct (is_server_bidi K id); cbn; apply find_del_s. }
  assert (keys (rem_stream K c id) = filter (fun i => negb (i =? id)) (keys c)) as KE by (unfold rem_stream; destruct (is_server_bidi K id); apply keys_del_s).
  assert (k_blk (rem_stream K c id) = k_blk c) as BE by (unfold rem_stream; destruct (is_server_bidi K id); reflexivity).
  assert (k_ctl (rem_stream K c id) = k_ctl c) as CE by (unfold rem_stream; destruct (is_server_bidi K id); reflexivity).
  assert (k_tctl (rem_stream K c id) = k_tctl c /\ k_tenc (rem_stream K c id) = k_tenc c /\ k_tdec (rem_stream K c id) = k_tdec c) as (T1 & T2 & T3) by (unfold rem_stream; destruct (is_server_bidi K id); auto).
  destruct W as [W1 W2 W3 W4 W5 W6 W7 W8 W11]. constructor; rewrite ?KE, ?BE, ?CE, ?T1, ?T2, ?T3; auto.
  - apply NoDup_filter; auto.
  - intros j t. rewrite D. destruct (j =? id); [discriminate|apply W2].
  - intros j t. rewrite D. destruct (j =? id); [discriminate|apply W3].
  - intros j t. rewrite D. destruct (j =? id); [discriminate|apply W4].
  - intros j H. destruct (W5 j H) as (L & t & Ft & C). split; auto. exists t. rewrite D. destruct (Z.eqb_spec j id) as [->|]; [|auto].
    exfalso. assert (t = s) as -> by congruence. destruct NC as [NC|NC]; [auto|]. eapply local_not_bidi; eauto.
  - intros j. rewrite W8. split; intros (t & Ft & B).
    + exists t. rewrite D. destruct (Z.eqb_spec j id) as [->|]; auto. congruence.
    + rewrite D in Ft. destruct (j =? id); [discriminate|eauto].
  - rewrite nbidi_del; eauto using in_keys. rewrite <- W11. unfold rem_stream, b2z. destruct (is_server_bidi K id); cbn [k_num kk_num kk_str]; lia.
Qed.

Lemma recv_blk pre E x src fin : b_blk (x_st x) = true -> match recv pre E x src fin with XOk x' ev => b_blk (x_st x') = true /\ x_st x' = x_st x | _ => True end.
Proof.
  intros B. unfold recv. destruct ((zlen src =? 0) && negb fin); auto. unfold read_bidi. cbn. destruct (x_shut x); cbn; auto. rewrite B. cbn. auto.
Qed.
(* reading leaves the stream with the identifier it had, valid, and in the queue of blocked streams when blocked *)
Lemma wf_mid K c id s x : wf K c -> find_stream c id = Some s -> client_bidi id = true -> x_id x = x_id (st_x s) ->
  (pri_valid (h_pri (b_http (x_st (st_x s)))) -> pri_valid (h_pri (b_http (x_st x)))) ->
  (b_blk (x_st (st_x s)) = true -> b_blk (x_st x) = true) -> wf K (mid c id s x).
Proof.
  intros W F CB H1 H2 H3. unfold mid. set (c1 := kk_dec (put c id (ss_x s x)) (b_dec (x_st x))).
  assert (forall j t, find_stream c1 j = Some t -> (j = id /\ t = ss_x s x) \/ (j <> id /\ find_stream c j = Some t)) as D.
  { intros j t. unfold c1. change (find_stream (kk_dec (put c id (ss_x s x)) (b_dec (x_st x))) j) with (find_stream (put c id (ss_x s x)) j).
    rewrite find_put, F. destruct (Z.eqb_spec j id); [intros [= <-]; auto|auto]. }
  destruct (b_blk (x_st x) && negb (b_blk (x_st (st_x s)))) eqn:E.
  2:{ apply wf_dec. apply (wf_put K c id s); auto. cbn. destruct (b_blk (x_st x)), (b_blk (x_st (st_x s))); auto; try discriminate; specialize (H3 eq_refl); discriminate. }
  apply andb_true_iff in E as [E1 E2]. apply negb_true_iff in E2. destruct W as [W1 W2 W3 W4 W5 W6 W7 W8 W11].
  assert (find_stream c1 id = Some (ss_x s x)) as F1 by (unfold c1; apply (find_put_same _ _ _ _ F)).
  assert (~ has (k_blk c) id) as NH by (rewrite W8; intros (t & Ft & B); congruence).
  destruct (push_weak (ricnt_less c1) (k_blk c) id W7 NH) as (P1 & P2 & P3).
  constructor; auto.
  - change (NoDup (keys (put c id (ss_x s x)))). rewrite keys_put; auto.
  - intros j t H. apply D in H as [[-> ->]|[N H]]; eauto.
  - intros j t H. apply D in H as [[-> ->]|[N H]]; eauto. destruct (W3 _ _ F). cbn. split; [congruence|auto].
  - intros j t H U. apply D in H as [[-> ->]|[N H]]; eauto. apply uni_bidi in U. congruence.
  - intros j H. destruct (W5 j H) as (L & t & Ft & C). split; auto. exists t. split; auto.
    change (find_stream (put c id (ss_x s x)) j = Some t). rewrite find_put_other; auto. intros ->. eapply local_not_bidi; eauto.
  - intros j. change (k_blk (kk_blk c1 (pq_push (ricnt_less c1) (k_blk c1) id))) with (pq_push (ricnt_less c1) (k_blk c) id). rewrite P3. split.
    + intros [->|H]; [exists (ss_x s x); split; auto|]. destruct (Z.eq_dec j id) as [->|N]; [tauto|]. apply W8 in H as (t & Ft & B). exists t. split; auto.
      change (find_stream (put c id (ss_x s x)) j = Some t). rewrite find_put_other; auto.
    + intros (t & Ft & B). change (find_stream c1 j = Some t) in Ft. apply D in Ft as [[-> ->]|[N Ft]]; [auto|]. right. apply W8. eauto.
  - change (keys (kk_blk c1 (pq_push (ricnt_less c1) (k_blk c1) id))) with (keys (put c id (ss_x s x))). rewrite keys_put. exact W11.
Qed.
Lemma add_ebufs_P (P : conn -> Prop) : (forall c q s t e, P c -> k_tenc c = Some q -> find_stream c q = Some s -> write_ebuf (st_t s) e = Ok t -> P (put c q (ss_t s t))) ->
  forall es c c1, P c -> add_ebufs c es = Ok c1 -> P c1.
Proof.
  intros H. induction es as [|e es IH]; intros c c1 P0; cbn [add_ebufs]; [intros [= <-]; auto|].
  destruct (k_tenc c) as [q|] eqn:Q; [|discriminate]. destruct (find_stream c q) as [s|] eqn:F; [|discriminate].
  destruct (write_ebuf (st_t s) e) as [t| |] eqn:W; cbn; try discriminate. apply IH. eapply H; eauto.
Qed.
Lemma wf_put_t K c id s t : wf K c -> find_stream c id = Some s -> wf K (put c id (ss_t s t)).
Proof. intros W F. eapply wf_put; eauto. Qed.
Lemma fresh_pri : pri_valid (h_pri http_init).
Proof. unfold pri_valid. cbn. unfold DEFAULT_URGENCY. split; [lia|auto]. Qed.
Lemma record_pri h nva : h_pri (record_request_method h nva) = h_pri h.
Proof. induction nva as [|f l IH]; cbn; auto. repeat match goal with |- context [if ?x then _ else _] => destruct x; auto end. Qed.
Lemma wf_fresh K c id s : fresh_stream K c id s -> (client_bidi id = true \/ stream_uni id = true) /\ x_id (st_x s) = id /\ pri_valid (h_pri (b_http (x_st (st_x s)))) /\ b_blk (x_st (st_x s)) = false.
Proof.
  intros [(A & ->)|[(A & ->)|[(A & B & u & C & ->)|(A & B & C & nva & ->)]]].
  - split; [left; unfold is_server_bidi in A; apply andb_true_iff in A as [_ A]; auto|]. cbv zeta. destruct (_ && _); (split; [reflexivity|split; [apply fresh_pri|reflexivity]]).
  - split; [right; eapply peer_is_uni; eauto|]. split; [reflexivity|split; [apply fresh_pri|reflexivity]].
  - split; [right; eapply local_is_uni; eauto|]. split; [reflexivity|split; [apply fresh_pri|reflexivity]].
  - split; [auto|]. cbn [st_x new_stream rx_init x_id x_st]. split; auto. split; [|reflexivity]. cbn. rewrite record_pri. apply fresh_pri.
Qed.
Lemma identify_same c v c1 u : identify c v = Ok (c1, u) -> (c1 = kk_open c (k_copen c1) (k_eopen c1) (k_dopen c1)) /\ (critical u \/ u = UUnk).
Proof.
  unfold identify, critical. repeat match goal with |- context [if ?b then _ else _] => destruct b end; intros [= <- <-]; split; auto; try (destruct c; reflexivity).
Qed.
Lemma wf_open K c a b d : wf K c -> wf K (kk_open c a b d).
Proof. intros []. constructor; assumption. Qed.
(* popping a blocked stream that is resumed *)
Lemma wf_pop K c id s q : wf K c -> pq_empty (k_blk c) = false -> pq_top (k_blk c) = Ok id -> find_stream c id = Some s -> pq_pop (ricnt_less c) (k_blk c) = Ok q ->
  client_bidi id = true /\ b_blk (x_st (st_x s)) = true /\ wf K (put (kk_blk c q) id (ss_x s (unblocked c s))).
Proof.
  intros W E T F P. assert (pq_len (k_blk c) <> 0%nat) as NZ by (unfold pq_empty in E; apply Nat.eqb_neq in E; auto).
  destruct (pop_weak (ricnt_less c) (k_blk c) (wf_pq _ _ W) NZ) as (p' & P' & (L1 & L2 & L3)). rewrite P in P'. injection P' as <-.
  assert (pq_q (k_blk c) 0 = id) as T0 by (unfold pq_top in T; destruct (Nat.eqb _ _) in T; [discriminate|]; injection T; auto). rewrite T0 in L3.
  assert (has (k_blk c) id) as Hid by (exists 0%nat; split; [lia|auto]).
  destruct W as [W1 W2 W3 W4 W5 W6 W7 W8 W11].
  assert (b_blk (x_st (st_x s)) = true) as B by (apply W8 in Hid as (t & Ft & Bt); congruence).
  assert (client_bidi id = true) as CB by (destruct (W2 _ _ F) as [_ [C|C]]; auto; rewrite (W4 _ _ F C) in B; discriminate).
  split; auto. split; auto. set (s1 := ss_x s (unblocked c s)).
  assert (forall j t, find_stream (put (kk_blk c q) id s1) j = Some t -> (j = id /\ t = s1) \/ (j <> id /\ find_stream c j = Some t)) as D.
  { intros j t. rewrite find_put. change (find_stream (kk_blk c q)) with (find_stream c). rewrite F. destruct (Z.eqb_spec j id); [intros [= <-]; auto|auto]. }
  constructor; auto.
  - rewrite keys_put; auto.
  - intros j t H. apply D in H as [[-> ->]|[N H]]; eauto.
  - intros j t H. apply D in H as [[-> ->]|[N H]]; eauto. apply (W3 _ _ F).
  - intros j t H U. apply D in H as [[-> ->]|[N H]]; eauto.
  - intros j H. destruct (W5 j H) as (L & t & Ft & C). split; auto. exists t. split; auto. rewrite find_put_other; auto. intros ->. eapply local_not_bidi; eauto.
  - intros j. cbn [k_blk put kk_str kk_blk]. rewrite L3. split.
    + intros [N H]. apply W8 in H as (t & Ft & Bt). exists t. split; auto. rewrite find_put_other; auto.
    + intros (t & Ft & Bt). apply D in Ft as [[-> ->]|[N Ft]]; [discriminate|]. split; auto. apply W8. eauto.
  - rewrite keys_put. exact W11.
Qed.
Lemma mid_put c id s x s0 : mid (put c id s0) id s x = mid c id s x.
Proof. unfold mid. rewrite put_put. reflexivity. Qed.
Theorem kst_wf K c a c' : wf K c -> kst K c a c' -> wf K c'.
Proof.
  intros W H. destruct H.
  - (* new *) destruct (wf_fresh _ _ _ _ H1) as (A & B & C & D). apply wf_add; auto.
  - (* recv *) pose proof (recv_fact false (benv_of K c s) (rx_now c s) src fin) as R. rewrite H2 in R. destruct R as [[R1 R2 R3 R4] _].
    apply wf_mid; auto. + exact (rf_pri _ _ _ _ R1). + intros B. pose proof (recv_blk false (benv_of K c s) (rx_now c s) src fin B) as Q. rewrite H2 in Q. tauto.
  - (* resume *) destruct (wf_pop K c id s q W H H0 H1 H3) as (CB & B & W1).
    pose proof (resume_fact false (benv_of K (kk_blk c q) s) (unblocked c s)) as R. rewrite H4 in R. destruct R as [R1 R2 R3 R4].
    rewrite <- (mid_put (kk_blk c q) id _ x (ss_x s (unblocked c s))). apply wf_mid; auto.
    + eapply find_put_same. exact H1. + exact (rf_pri _ _ _ _ R1). + discriminate.
  - (* resume, closed *) destruct (wf_pop K c id s q W H H0 H1 H3) as (CB & B & W1).
    pose proof (resume_fact false (benv_of K (kk_blk c q) s) (unblocked c s)) as R. rewrite H4 in R. destruct R as [R1 R2 R3 R4].
    rewrite <- (mid_put (kk_blk c q) id _ x (ss_x s (unblocked c s))). apply wf_mid; auto.
    + eapply find_put_same. exact H1. + exact (rf_pri _ _ _ _ R1). + discriminate.
  - apply wf_sched; auto.
  - apply wf_sched. eapply wf_put; eauto.
  - cbv zeta. apply wf_sched. apply wf_add; auto; cbn; auto; apply fresh_pri.
  - auto.
  - auto.
  - (* control *) pose proof (read_control_fact (mk_cenv (ke_server K) (k_maxcl c) (ke_sf K)) (k_ctl c) src (wf_ctl _ _ W) H) as R. rewrite H0 in R. destruct R as [R _].
    destruct W. constructor; assumption.
  - (* del *) apply (wf_rem K c id s); auto.
    destruct H1 as [C|[C|(C & rv & C')]]; [right; auto|left; rewrite C; intros [Q|[Q|Q]]; discriminate|left; rewrite C'; intros [Q|[Q|Q]]; discriminate].
  - eapply wf_put; eauto. rewrite H1. intros [Q|[Q|Q]]; discriminate.
  - destruct (identify_same _ _ _ _ H2) as [E _]. rewrite E. eapply (wf_put K _ id s); [apply wf_open; auto|exact H|..]; auto. rewrite H1. intros [Q|[Q|Q]]; discriminate.
  - apply wf_dec; auto.
  - destruct W. constructor; assumption.
  - (* bind *) destruct W as [W1 W2 W3 W4 W5 W6 W7 W8 W11]. constructor; try assumption.
  - apply wf_put_t; auto.
  - apply wf_goaway. apply wf_put_t; auto.
  - apply wf_sched. revert H2. apply add_ebufs_P; [intros; apply wf_put_t; auto|apply wf_put_t; auto].
  - apply wf_sched. apply wf_put_t; auto.
  - apply wf_put_t; auto.
  - apply wf_sched. apply wf_put_t; auto.
  - apply wf_sched. eapply wf_put; eauto; destruct fc; auto.
  - apply wf_sched. eapply wf_put; eauto; destruct fc; auto.
  - apply wf_sched. cbv zeta. eapply wf_put; eauto; cbn; destruct (b_blk (x_st (st_x s))) eqn:B; cbn; auto.
  - apply wf_dec. eapply wf_put; eauto.
  - apply wf_sched. eapply wf_put; eauto.
  - auto.
  - auto.
Qed.
