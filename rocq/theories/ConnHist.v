(* Histories of calls on a connection; what they do to the fields that say whether it is shutting down *)
From Verif Require Import Base BaseLemmas Chunk ConvModel RdVarint QpackTabModel QpackDecModel HttpModel BidiModel BidiHist ControlModel GapModel PqModel PqProofs PqWeak TxModel SchedModel SchedProofs SchedFair ConnModel ConnCtl ConnStep ConnRx ConnWf ConnDecomp.
Open Scope Z_scope.

(* A history: calls of the API, none of which failed, with what each returned, the callbacks it made, and the
   connection after it *)
Record kcall := mk_call { c_op : cop; c_rv : Z; c_evs : list kev; c_post : conn }.
Inductive history (K : kenv) : list kcall -> conn -> Prop :=
| h_nil : history K [] (conn_init K)
| h_snoc h c o c' rv evs : history K h c -> op_ok o -> kstep K c o = KOk c' rv evs -> history K (h ++ [mk_call o rv evs c']) c'.
Definition ops_of (h : list kcall) : list cop := map c_op h.
Lemma ops_snoc h x : ops_of (h ++ [x]) = ops_of h ++ [c_op x]. Proof. apply map_app. Qed.
(* the history of a computation *)
Fixpoint trail (K : kenv) (c : conn) (ops : list cop) : option (list kcall * conn) :=
  match ops with
  | [] => Some ([], c)
  | o :: r =>
    match kstep K c o with
    | KOk c rv evs => match trail K c r with Some (h, c') => Some (mk_call o rv evs c :: h, c') | None => None end
    | _ => None
    end
  end.
Lemma trail_history K ops : forall h0 c h c', history K h0 c -> Forall op_ok ops -> trail K c ops = Some (h, c') -> history K (h0 ++ h) c'.
Proof.
  induction ops as [|o ops IH]; intros h0 c h c' H O; cbn [trail].
  - intros [= <- <-]. rewrite app_nil_r. auto.
  - inversion O; subst. destruct (kstep K c o) as [c1 rv evs| |] eqn:S; try discriminate. destruct (trail K c1 ops) as [[h1 c2]|] eqn:T; [|discriminate]. intros [= <- <-].
    change (mk_call o rv evs c1 :: h1) with ([mk_call o rv evs c1] ++ h1). rewrite app_assoc. eapply IH; eauto. eapply h_snoc; eauto.
Qed.
Lemma trail_init K ops h c : Forall op_ok ops -> trail K (conn_init K) ops = Some (h, c) -> history K h c.
Proof. intros O T. apply (trail_history K ops [] _ h c (h_nil K) O T). Qed.
Lemma h_wf K h c : history K h c -> wf K c.
Proof. induction 1; [apply wf_init|eapply step_wf; eauto]. Qed.
(* an invariant that every step keeps *)
Lemma hist_inv K (P : list kcall -> conn -> Prop) : P [] (conn_init K) ->
  (forall h c o c' rv evs, history K h c -> wf K c -> op_ok o -> P h c -> kstep K c o = KOk c' rv evs -> P (h ++ [mk_call o rv evs c']) c') ->
  forall h c, history K h c -> P h c.
Proof. intros P0 PS h c H. induction H; auto. eapply PS; eauto using h_wf. Qed.
(* every history splits at any point *)
Lemma history_split K h c : history K h c -> forall a x b, h = a ++ x :: b -> exists c1, history K a c1 /\ op_ok (c_op x) /\ kstep K c1 (c_op x) = KOk (c_post x) (c_rv x) (c_evs x).
Proof.
  induction 1; intros a x b E; [destruct a; discriminate|]. destruct b as [|y b _] using rev_ind.
  - apply app_inj_tail in E as [<- <-]. cbn. eauto.
  - rewrite app_comm_cons, app_assoc in E. apply app_inj_tail in E as [-> _]. eauto.
Qed.
(* a property that every action keeps *)
Lemma ksts_inv K (P : conn -> Prop) (Q : kact -> Prop) : (forall c a c', P c -> Q a -> kst K c a c' -> P c') -> forall c l c', ksts K c l c' -> Forall Q l -> P c -> P c'.
Proof. intros H c l c' S. induction S; auto. intros F Pc. inversion F; subst. eauto. Qed.

(* shutdown *)
Definition same_goaway (c c' : conn) : Prop := k_goaway c' = k_goaway c /\ k_queued c' = k_queued c /\ k_shut c' = k_shut c.
Lemma sg_refl c : same_goaway c c. Proof. repeat split. Qed.
Lemma sg_add K c id s : same_goaway c (add_stream K c id s).
Proof. unfold add_stream. destruct (is_server_bidi K id); repeat split. Qed.
Lemma sg_rem K c id : same_goaway c (rem_stream K c id).
Proof. unfold rem_stream. destruct (is_server_bidi K id); repeat split. Qed.
Lemma sg_mid c id s x : same_goaway c (mid c id s x).
Proof. unfold mid. destruct (_ && _); repeat split. Qed.
Lemma sg_ebufs es c c1 : add_ebufs c es = Ok c1 -> same_goaway c c1.
Proof.
  apply (add_ebufs_P (same_goaway c)); [|apply sg_refl]. intros d q s t e (A & B & C) _ _ _. repeat split; cbn; auto.
Qed.
Lemma kst_goaway K c a c' : kst K c a c' -> (exists g cm, a = AGoaway g cm) \/ same_goaway c c'.
Proof.
  intros H. destruct H; try (right; repeat split; fail); try (left; eauto; fail); right; try apply sg_add; try apply sg_rem; try apply sg_mid.
  - apply (sg_mid (kk_blk c q)).
  - apply (sg_mid (kk_blk c q)).
  - destruct (identify_same _ _ _ _ H2) as [-> _]. repeat split.
  - apply (sg_ebufs es (put c id (ss_t s t)) c1 H2).
Qed.
Definition is_goaway (o : cop) : bool := match o with ONotice | OShutdown => true | _ => false end.
Lemma ksts_sg K o c l c' : is_goaway o = false -> ksts K c l c' -> Forall (allowed K o) l -> same_goaway c c'.
Proof.
  intros G S. induction S; intros F; [apply sg_refl|]. inversion F; subst. destruct (kst_goaway _ _ _ _ H) as [(g & cm & ->)|(A & B & C)].
  - cbn in H2. destruct cm; subst o; discriminate.
  - destruct (IHS H3) as (A' & B' & C'). repeat split; congruence.
Qed.
Lemma step_sg K c o c' rv evs : wf K c -> op_ok o -> kstep K c o = KOk c' rv evs -> is_goaway o = false -> same_goaway c c'.
Proof. intros W O S G. destruct (step_decomp _ _ _ _ _ _ W O S) as (acts & D & _ & F & _). eapply ksts_sg; eauto. Qed.
(* what the two calls announce *)
Definition notice_id (K : kenv) : Z := if ke_server K then NOTICE_STREAM_ID else NOTICE_PUSH_ID.
Definition shutdown_id (K : kenv) (c : conn) : Z := if ke_server K then Z.min (2 ^ 62 - 4) (k_maxid c + 4) else 0.
Lemma queue_inv c g cm c' rv evs : queue_goaway c g cm = KOk c' rv evs -> exists t s, k_tctl c = Some t /\ find_stream c t = Some s /\ g <= k_goaway c /\
  c' = kk_goaway (put c t (ss_t s (tx_submit (st_t s) [FGoaway g] false))) g true (k_shut c || cm) /\ rv = 0 /\ evs = [].
Proof.
  unfold queue_goaway. destruct (k_tctl c) as [t|] eqn:T; [|discriminate]. destruct (find_stream c t) as [s|] eqn:F; [|discriminate].
  destruct (Z.ltb_spec (k_goaway c) g); [discriminate|]. intros [= <- <- <-]. exists t, s. auto 10.
Qed.
Lemma hist_shut K h c : history K h c -> k_shut c = true <-> In OShutdown (ops_of h).
Proof.
  revert h c. apply hist_inv; [cbn; split; [discriminate|tauto]|].
  intros h c o c' rv evs _ W O IH S. rewrite ops_snoc, in_app_iff. cbn [In c_op].
  destruct (is_goaway o) eqn:G.
  - destruct o; try discriminate G; cbn [kstep] in S.
    + apply queue_inv in S as (t & s & T & F & L & -> & _). cbn. rewrite orb_false_r. rewrite IH. intuition discriminate.
    + apply queue_inv in S as (t & s & T & F & L & -> & _). cbn. rewrite orb_true_r. intuition.
  - destruct (step_sg _ _ _ _ _ _ W O S G) as (_ & _ & E). rewrite E, IH. split; [auto|]. intros [Q|[Q|[]]]; auto. subst o. discriminate.
Qed.

(* open request streams *)
Lemma nbidi_filter K l : ke_server K = true -> nbidi K l = zlen (filter client_bidi l).
Proof.
  intros S. induction l as [|x l IH]; [reflexivity|]. cbn [nbidi filter]. unfold is_server_bidi. rewrite S. cbn [andb].
  destruct (client_bidi x); unfold zlen in *; cbn [length b2z]; lia.
Qed.
Lemma no_bidi K c : wf K c -> ke_server K = true -> (k_num c = 0 <-> forall id, client_bidi id = true -> find_stream c id = None).
Proof.
  intros W S. rewrite (wf_num _ _ W), (nbidi_filter _ _ S). split.
  - intros H id C. destruct (find_stream c id) as [s|] eqn:F; auto. apply in_keys in F.
    assert (In id (filter client_bidi (keys c))) as I by (apply filter_In; auto). unfold zlen in H. destruct (filter client_bidi (keys c)); [destruct I|cbn in H; lia].
  - intros H. destruct (filter client_bidi (keys c)) as [|x l] eqn:E; [reflexivity|].
    assert (In x (filter client_bidi (keys c))) as I by (rewrite E; left; auto). apply filter_In in I as [I C]. apply find_in in I. elim I. apply H; auto.
Qed.
(* the control stream has been written out *)
Definition control_done (c : conn) : bool :=
  match k_tctl c with
  | None => false
  | Some t => match find_stream c t with Some s => write_done (st_t s) && Nat.eqb (length (t_frq (st_t s))) 0 | None => false end
  end.
Lemma drained_iff K h c : ke_server K = true -> history K h c ->
  is_drained c = true <-> In OShutdown (ops_of h) /\ (forall id, client_bidi id = true -> find_stream c id = None) /\ control_done c = true.
Proof.
  intros S H. pose proof (h_wf _ _ _ H) as W. unfold is_drained. fold (control_done c).
  rewrite !andb_true_iff, (hist_shut _ _ _ H), Z.eqb_eq, (no_bidi K c W S). tauto.
Qed.
(* what a stream has lived through: the calls since the last one after which it was not there *)
Definition is_open (c : conn) (id : Z) : bool := match find_stream c id with Some _ => true | None => false end.
Definition life_step (id : Z) (acc : list kcall) (x : kcall) : list kcall := if is_open (c_post x) id then acc ++ [x] else [].
Definition life (id : Z) (h : list kcall) : list kcall := fold_left (life_step id) h [].
Lemma life_snoc id h x : life id (h ++ [x]) = if is_open (c_post x) id then life id h ++ [x] else [].
Proof. unfold life. rewrite fold_left_app. reflexivity. Qed.
Lemma life_closed K h c id : history K h c -> find_stream c id = None -> life id h = [].
Proof. intros H F. destruct H; [reflexivity|]. rewrite life_snoc. unfold is_open. cbn. rewrite F. reflexivity. Qed.
