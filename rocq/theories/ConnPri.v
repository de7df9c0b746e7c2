(* C40: the priority of a stream is decided by the signals received for it *)
From Verif Require Import Base BaseLemmas Chunk ConvModel RdVarint QpackTabModel QpackDecModel HttpModel BidiModel BidiHist ControlModel GapModel PqModel PqProofs PqWeak TxModel SchedModel SchedProofs SchedFair ConnModel ConnCtl ConnStep ConnRx ConnWf ConnDecomp ConnHist ConnRead.
Open Scope Z_scope.

(* what the scheduler's operations do to priorities, whatever its state *)
Definition kept (s : sch) (x : Z) (s' : sch) : Prop := (forall y, y <> x -> sc_n s' y = sc_n s y) /\ n_pri (sc_n s' x) = n_pri (sc_n s x).
Lemma kept_refl s x : kept s x s. Proof. split; auto. Qed.
Lemma kept_trans s x a b : kept s x a -> kept a x b -> kept s x b.
Proof. intros [A1 A2] [B1 B2]. split; [intros y N; rewrite B1, A1; auto|congruence]. Qed.
Lemma kept_node s x n : n_pri n = n_pri (sc_n s x) -> kept s x (set_node s x n).
Proof. intros H. split; [intros y N; cbn; apply upd_z_other; auto|cbn; rewrite upd_z_same; auto]. Qed.
Lemma kept_push s u x : kept s x (push s u x).
Proof. unfold push. apply (kept_node s x (nd_sched (sc_n s x) true)). reflexivity. Qed.
Lemma kept_take s u x s' : take_out s u x = Ok s' -> kept s x s'.
Proof. unfold take_out. destruct (pq_remove _ _ _); try discriminate. intros [= <-]. apply (kept_node s x (nd_sched (sc_n s x) false)). reflexivity. Qed.
Lemma kept_unschedule s x s' : unschedule s x = Ok s' -> kept s x s'.
Proof. unfold unschedule. destruct (negb (urg_ok _)); [discriminate|]. destruct (negb (n_sched _)); [intros [= <-]; apply kept_refl|apply kept_take]. Qed.
Lemma kept_tnode s x n s' : tnode_schedule s x n = Ok s' -> kept s x s'.
Proof.
  unfold tnode_schedule. cbv zeta. destruct (negb (n_sched (sc_n s x))).
  - destruct (first_cycle _ _); try discriminate. intros [= <-]. eapply kept_trans; [|apply kept_push]. apply kept_node. reflexivity.
  - destruct (0 <? n); [|intros [= <-]; apply kept_refl]. destruct (negb (negb _) || _); [intros [= <-]; apply kept_refl|].
    destruct (take_out s _ x) as [s1| |] eqn:T; try discriminate. intros [= <-]. apply kept_take in T. eapply kept_trans; [exact T|]. eapply kept_trans; [|apply kept_push]. apply kept_node. reflexivity.
Qed.
Lemma kept_schedule s x s' : schedule s x = Ok s' -> kept s x s'.
Proof.
  unfold schedule. destruct (negb _); [discriminate|]. destruct (tnode_schedule s x _) as [s1| |] eqn:T; try discriminate. intros [= <-].
  eapply kept_trans; [eapply kept_tnode; eauto|]. apply kept_node. reflexivity.
Qed.
Lemma kept_submit s x r s' : sc_submit s x r = Ok s' -> kept s x s'.
Proof. unfold sc_submit. destruct r; [apply kept_schedule|intros [= <-]; apply kept_refl]. Qed.
Lemma kept_wake s x r s' : sc_wake s x r = Ok s' -> kept s x s'.
Proof. unfold sc_wake, ensure_scheduled. destruct r; [|intros [= <-]; apply kept_refl]. destruct (n_sched _); [intros [= <-]; apply kept_refl|apply kept_schedule]. Qed.
Lemma kept_offered s x r s' : sc_offered s x r = Ok s' -> kept s x s'.
Proof. unfold sc_offered. destruct r; [intros [= <-]; apply kept_refl|apply kept_unschedule]. Qed.
Lemma kept_written s x n r s' : sc_written s x n r = Ok s' -> kept s x s'.
Proof.
  unfold sc_written. set (s1 := set_node s x _). assert (kept s x s1) as K1 by (apply kept_node; reflexivity). cbv zeta.
  destruct (negb r); [intros H; eapply kept_trans; [exact K1|eapply kept_unschedule; eauto]|]. destruct (_ <? _); [intros [= <-]; exact K1|]. intros H; eapply kept_trans; [exact K1|eapply kept_schedule; eauto].
Qed.
Lemma kept_block s x s' : sc_block s x = Ok s' -> kept s x s'.
Proof. unfold sc_block. intros H. eapply kept_trans; [|eapply kept_unschedule; eauto]. apply kept_node. reflexivity. Qed.
Lemma priority_sets s x p r s' : sc_priority s x p r = Ok s' -> (forall y, y <> x -> sc_n s' y = sc_n s y) /\ n_pri (sc_n s' x) = p.
Proof.
  unfold sc_priority. destruct (pri_eq _ p) eqn:E; [intros [= <-]; split; auto; apply pri_eq_true; auto|].
  destruct (unschedule s x) as [s1| |] eqn:U; try discriminate. apply kept_unschedule in U as [U1 U2]. cbv zeta. set (s2 := set_node s1 x _).
  assert ((forall y, y <> x -> sc_n s2 y = sc_n s y) /\ n_pri (sc_n s2 x) = p) as [A1 A2].
  { split; [intros y N; cbn; rewrite upd_z_other; auto|cbn; rewrite upd_z_same; reflexivity]. }
  destruct r; [|intros [= <-]; auto]. intros H. apply kept_schedule in H as [H1 H2]. split; [intros y N; rewrite H1, A1; auto|congruence].
Qed.

(* signals *)
Inductive signal := SServer (p : pri) | SUpdate (p : pri) | SHeader (p : pri).
Definition of_server (x : signal) : option pri := match x with SServer p => Some p | _ => None end.
Definition of_update (x : signal) : option pri := match x with SUpdate p => Some p | _ => None end.
Definition of_header (x : signal) : option pri := match x with SHeader p => Some p | _ => None end.
Definition last_some {A B} (f : A -> option B) (l : list A) : option B := fold_left (fun acc x => match f x with Some y => Some y | None => acc end) l None.
Definition effective (l : list signal) : pri :=
  match last_some of_server l with
  | Some p => p
  | None => match last_some of_update l with
            | Some p => p
            | None => match last_some of_header l with Some p => p | None => mk_pri 3 0 end
            end
  end.
Lemma last_snoc {A B} (f : A -> option B) l x : last_some f (l ++ [x]) = match f x with Some y => Some y | None => last_some f l end.
Proof. unfold last_some. rewrite fold_left_app. reflexivity. Qed.
(* the signals in what a call reported *)
Definition ev_signals (id : Z) (e : kev) : list signal :=
  match e with
  | KControl (CvPriority i p) => if i =? id then [SUpdate p] else []
  | KStream i (BvPriority p) => if i =? id then [SHeader p] else []
  | _ => []
  end.
Definition evs_signals (id : Z) (evs : list kev) : list signal := concat (map (ev_signals id) evs).
Definition call_signals (id : Z) (x : kcall) : list signal :=
  match c_op x with
  | OServerPriority i p => if (i =? id) && (c_rv x =? 0) then [SServer p] else []
  | _ => evs_signals id (c_evs x)
  end.
Definition signals (id : Z) (h : list kcall) : list signal := concat (map (call_signals id) (life id h)).

(* the flags and the priority of a stream that got these signals *)
Definition psok (l : list signal) (s : stream) (p : pri) : Prop :=
  (st_sp s = true <-> last_some of_server l <> None) /\ (last_some of_server l = None -> (st_pu s = true <-> last_some of_update l <> None)) /\ p = effective l.
Lemma ps_flags l s s' p : st_sp s' = st_sp s -> st_pu s' = st_pu s -> psok l s p -> psok l s' p.
Proof. unfold psok. intros -> ->. auto. Qed.
Lemma ps_new s : st_sp s = false -> st_pu s = false -> psok [] s (mk_pri 3 0).
Proof. intros A B. unfold psok. rewrite A, B. cbn. intuition congruence. Qed.
Lemma ps_server l s p q : psok l s p -> psok (l ++ [SServer q]) (ss_sp s true) q.
Proof. intros (A & B & C). unfold psok, effective. rewrite !last_snoc. cbn. split; [split; congruence|]. split; [discriminate|reflexivity]. Qed.
Lemma ps_update_ign l s p q : psok l s p -> st_sp s = true -> psok (l ++ [SUpdate q]) s p.
Proof.
  intros (A & B & C) S. unfold psok, effective in *. rewrite !last_snoc. cbn. destruct (last_some of_server l); [|exfalso; apply A in S; congruence]. split; auto. split; [discriminate|auto].
Qed.
Lemma ps_update l s p q : psok l s p -> st_sp s = false -> psok (l ++ [SUpdate q]) (ss_pu s true) q.
Proof.
  intros (A & B & C) S. unfold psok, effective in *. rewrite !last_snoc. cbn. destruct (last_some of_server l); [exfalso; destruct A as [_ A]; rewrite A in S; congruence|].
  split; auto. split; [intros _; split; congruence|reflexivity].
Qed.
Lemma ps_header l s p q : psok l s p -> st_sp s = false -> st_pu s = false -> psok (l ++ [SHeader q]) s q.
Proof.
  intros (A & B & C) S U. unfold psok, effective in *. rewrite !last_snoc. cbn. destruct (last_some of_server l); [exfalso; destruct A as [_ A]; rewrite A in S; congruence|].
  destruct (last_some of_update l); [exfalso; destruct (B eq_refl) as [_ B']; rewrite B' in U; congruence|]. auto.
Qed.
Definition only_updates (l : list signal) : Prop := Forall (fun x => exists p, x = SUpdate p) l.
Lemma only_server l : only_updates l -> last_some of_server l = None.
Proof. induction l as [|x l IH] using rev_ind; [reflexivity|]. intros H. apply Forall_app in H as [H1 H2]. inversion H2 as [|? ? [p ->] _]; subst. rewrite last_snoc. cbn. auto. Qed.
Lemma ps_create l s p : only_updates l -> st_sp s = false -> psok (l ++ [SUpdate p]) (ss_pu s true) p.
Proof.
  intros O S. unfold psok, effective. rewrite !last_snoc, (only_server _ O). cbn. rewrite S. split; [split; congruence|]. split; [intros _; split; congruence|reflexivity].
Qed.
Definition PI (c : conn) (sg : Z -> list signal) : Prop := forall id s, client_bidi id = true -> find_stream c id = Some s -> psok (sg id) s (n_pri (sc_n (k_sch c) id)).
Definition ext (sg : Z -> list signal) (evs : list kev) : Z -> list signal := fun id => sg id ++ evs_signals id evs.
Lemma evs_signals_app id a b : evs_signals id (a ++ b) = evs_signals id a ++ evs_signals id b.
Proof. unfold evs_signals. rewrite map_app, concat_app. reflexivity. Qed.
Lemma PI_ext c sg sg' : (forall id, sg' id = sg id) -> PI c sg -> PI c sg'.
Proof. intros E H id s C F. rewrite E. auto. Qed.
Lemma PI_app c sg a b : PI c (ext (ext sg a) b) -> PI c (ext sg (a ++ b)).
Proof. apply PI_ext. intros id. unfold ext. rewrite evs_signals_app, app_assoc. reflexivity. Qed.
Lemma PI_quiet c sg evs : (forall id, client_bidi id = true -> find_stream c id <> None -> evs_signals id evs = []) -> PI c sg -> PI c (ext sg evs).
Proof. intros Q H id s C F. unfold ext. rewrite Q, app_nil_r; auto. congruence. Qed.
(* a step that keeps flags and priorities *)
Definition sameP (c c' : conn) : Prop := forall id s', find_stream c' id = Some s' -> exists s, find_stream c id = Some s /\ st_sp s' = st_sp s /\ st_pu s' = st_pu s /\
  n_pri (sc_n (k_sch c') id) = n_pri (sc_n (k_sch c) id).
Lemma sp_refl c : sameP c c. Proof. intros id s F. eauto. Qed.
Lemma sp_trans a b c : sameP a b -> sameP b c -> sameP a c.
Proof. intros H1 H2 id s F. destruct (H2 _ _ F) as (s1 & F1 & A & B & C). destruct (H1 _ _ F1) as (s2 & F2 & A2 & B2 & C2). exists s2. repeat split; congruence. Qed.
Lemma PI_same c c' sg : sameP c c' -> PI c sg -> PI c' sg.
Proof. intros S H id s' C F. destruct (S _ _ F) as (s & F1 & A & B & E). rewrite E. eapply ps_flags; eauto. Qed.
(* the events of a request stream *)
Lemma stream_signals i id evs : evs_signals i (map (KStream id) evs) = if id =? i then map SHeader (prios evs) else [].
Proof.
  induction evs as [|e evs IH]; [destruct (id =? i); reflexivity|]. unfold evs_signals, prios in *. cbn [map concat]. rewrite IH. destruct (id =? i) eqn:E; [|destruct e; cbn [ev_signals]; rewrite ?E; reflexivity].
  rewrite map_app. f_equal. destruct e; cbn [ev_signals]; rewrite ?E; reflexivity.
Qed.
Lemma PI_prios l : forall c id s c' sg, find_stream c id = Some s -> (forall p, In p l -> st_pu s = false /\ st_sp s = false) ->
  apply_prios c id s l = Ok c' -> PI c sg -> PI c' (fun i => sg i ++ if id =? i then map SHeader l else []) /\ (forall j, find_stream c' j = find_stream c j).
Proof.
  induction l as [|p l IH]; cbn [apply_prios]; intros c id s c' sg F HP H I.
  - injection H as <-. split; auto. eapply PI_ext; [|exact I]. intros i. destruct (id =? i); apply app_nil_r.
  - unfold update_priority in H. destruct (client_bidi id) eqn:CB; cbn [negb obind] in H; [|discriminate]. unfold sched_do in H.
    destruct (sc_priority (k_sch c) id p (require s)) as [sch'| |] eqn:SP; cbn [obind] in H; try discriminate.
    destruct (HP p (or_introl eq_refl)) as (P2 & P3). apply priority_sets in SP as [S1 S2].
    destruct (IH (kk_sch c sch') id s c' (fun i => sg i ++ if id =? i then [SHeader p] else []) F ltac:(intros z Hz; apply (HP z); right; auto) H) as [D F'].
    + intros i t C Fi. cbn [k_sch kk_sch]. change (find_stream c i = Some t) in Fi. destruct (Z.eqb_spec id i) as [<-|N].
      * assert (t = s) as -> by congruence. rewrite S2. eapply ps_header; eauto.
      * rewrite app_nil_r, (S1 i); auto.
    + split; [|exact F']. eapply PI_ext; [|exact D]. intros i. cbv beta. destruct (id =? i); [rewrite <- app_assoc|rewrite !app_nil_r]; reflexivity.
Qed.
Lemma sched_mid c id s x : k_sch (mid c id s x) = k_sch c.
Proof. unfold mid. destruct (_ && _); reflexivity. Qed.
Lemma sp_mid c id s x s0 : find_stream c id = Some s0 -> st_sp s = st_sp s0 -> st_pu s = st_pu s0 -> sameP c (mid c id s x).
Proof.
  intros F A B j t. rewrite (find_mid _ _ _ _ _ _ F), sched_mid. destruct (Z.eqb_spec j id) as [->|N]; [intros [= <-]; exists s0; auto|eauto].
Qed.
Lemma PI_after c id s x evs c' s0 sg : find_stream c id = Some s0 -> st_sp s = st_sp s0 -> st_pu s = st_pu s0 -> (forall p, In (BvPriority p) evs -> st_pu s = false /\ st_sp s = false) ->
  after_read c id s x evs = Ok c' -> PI c sg -> PI c' (ext sg (map (KStream id) evs)) /\ (forall j, find_stream c' j = if j =? id then Some (ss_x s x) else find_stream c j).
Proof.
  intros F A B HP H I. unfold after_read in H. fold (mid c id s x) in H. change (apply_prios (mid c id s x) id (ss_x s x) (prios evs) = Ok c') in H.
  destruct (PI_prios (prios evs) (mid c id s x) id (ss_x s x) c' sg) as [D E]; auto.
  - rewrite (find_mid _ _ _ _ _ _ F), Z.eqb_refl. reflexivity.
  - intros p Hp. apply (HP p). apply in_prios. exact Hp.
  - eapply PI_same; [eapply sp_mid; eauto|exact I].
  - split; [|intros j; rewrite E; apply (find_mid _ _ _ _ _ _ F)]. eapply PI_ext; [|exact D]. intros i. unfold ext. rewrite stream_signals. reflexivity.
Qed.
Lemma PI_request K c id s src fin c' rv evs sg : wf K c -> find_stream c id = Some s -> read_request_stream K c id s src fin = KOk c' rv evs -> PI c sg -> PI c' (ext sg evs).
Proof.
  intros W F. unfold read_request_stream. destruct (recv false (benv_of K c s) (rx_now c s) src fin) as [x' ev| | |] eqn:R; try discriminate.
  destruct (after_read c id s x' ev) as [c1| |] eqn:A; try discriminate. intros [= <- _ <-] I.
  pose proof (recv_fact false (benv_of K c s) (rx_now c s) src fin) as RF. rewrite R in RF. destruct RF as [[RF _ _ _] _].
  apply (PI_after c id s x' ev c1 s sg F); auto. intros p Hp. destruct (ann_ok K c s ev (x_st (rx_now c s)) _ (proj2 (wf_x _ _ W _ _ F)) RF p Hp) as (_ & P1 & P2 & _). auto.
Qed.
Lemma sp_rem K c id : sameP c (rem_stream K c id).
Proof.
  intros j t. assert (find_stream (kk_str c (del_s (k_str c) id)) j = if j =? id then None else find_stream c j) as E by apply find_del_s.
  assert (k_sch (rem_stream K c id) = k_sch c) as ES by (unfold rem_stream; destruct (is_server_bidi K id); reflexivity). rewrite ES.
  assert (find_stream (rem_stream K c id) j = if j =? id then None else find_stream c j) as -> by (rewrite <- E; unfold rem_stream; destruct (is_server_bidi K id); reflexivity).
  destruct (j =? id); [discriminate|]. intros H. exists t. auto.
Qed.
Lemma drop_rem K c id s evs c' rv ev : drop_stream K c id s evs = KOk c' rv ev -> c' = rem_stream K c id /\ ev = evs ++ (if client_bidi id then [KClosed id (st_code s)] else []).
Proof. unfold drop_stream, rem_stream. destruct (is_server_bidi K id); [destruct (k_num c <=? 0); [discriminate|]|]; intros [= <- _ <-]; auto. Qed.
Lemma quiet_deferred id i n : evs_signals i (deferred id n) = []. Proof. unfold deferred. destruct (n =? 0); reflexivity. Qed.
Lemma quiet_close id i code : evs_signals i (if client_bidi id then [KClosed id code] else []) = []. Proof. destruct (client_bidi id); reflexivity. Qed.
Lemma PI_unblock K f : forall c c' rv evs sg, wf K c -> unblock_loop K f c = KOk c' rv evs -> PI c sg -> PI c' (ext sg evs).
Proof.
  induction f as [|f IH]; intros c c' rv evs sg W; cbn [unblock_loop]; [discriminate|].
  destruct (pq_empty (k_blk c)) eqn:PE; [intros [= <- _ <-] I; apply PI_quiet; auto|].
  destruct (pq_top (k_blk c)) as [id| |] eqn:PT; try discriminate. destruct (find_stream c id) as [s|] eqn:F; [|discriminate].
  destruct (Z.ltb_spec (next_absidx (d_ctx (k_dec c))) (ricnt c id)) as [|RI]; [intros [= <- _ <-] I; apply PI_quiet; auto|].
  destruct (pq_pop (ricnt_less c) (k_blk c)) as [q| |] eqn:PP; try discriminate. cbv zeta.
  change (x_set_st (rx_now (kk_blk c q) s) (st_blk (x_st (rx_now (kk_blk c q) s)) false)) with (unblocked c s).
  change (benv_of K (kk_blk c q) (ss_x s (unblocked c s))) with (benv_of K (kk_blk c q) s).
  destruct (wf_pop K c id s q W PE PT F PP) as (CB & _ & W0).
  pose proof (resume_fact false (benv_of K (kk_blk c q) s) (unblocked c s)) as RF. pose proof (resume_gone false (benv_of K (kk_blk c q) s) (unblocked c s)) as RG.
  pose proof (proj2 (wf_x _ _ W _ _ F)) as PV.
  assert (forall x' ev c1, rfact (benv_of K (kk_blk c q) s) (x_st (unblocked c s)) ev (x_st x') -> after_read (kk_blk c q) id (ss_x s (unblocked c s)) x' ev = Ok c1 -> PI c sg ->
    PI c1 (ext sg (map (KStream id) ev))) as AF.
  { intros x' ev c1 R A I. apply (PI_after (kk_blk c q) id (ss_x s (unblocked c s)) x' ev c1 s sg F); auto.
    intros p Hp. destruct (ann_ok K (kk_blk c q) s ev (x_st (unblocked c s)) _ PV R p Hp) as (_ & P1 & P2 & _). auto. }
  destruct (resume false (benv_of K (kk_blk c q) s) (unblocked c s)) as [x' ev|x' ev| |] eqn:R; try discriminate.
  - destruct (after_read _ _ _ _ _) as [c1| |] eqn:A; try discriminate. destruct RF as [RF _ _ _].
    destruct (ds_after K 0 [] false (kk_blk c q) id (ss_x s (unblocked c s)) _ _ _ s F (ann_ok K (kk_blk c q) s ev (x_st (unblocked c s)) _ PV RF) A) as [D _].
    assert (kst K c (AResume id ev (x_def x' - x_def (st_x s))) (mid (kk_blk c q) id (ss_x s (unblocked c s)) x')) as T by (eapply t_resume; eauto).
    assert (wf K c1) as W1 by (eapply dsP_wf; [eapply kst_wf; [exact W|exact T]|exact D]).
    intros H I. destruct (unblock_loop K f c1) as [c2 r2 e2| |] eqn:U; cbn [k_evs] in H; try discriminate. injection H as <- _ <-.
    apply PI_app. eapply IH; [exact W1|exact U|]. apply PI_app. apply PI_quiet; [intros; apply quiet_deferred|]. eapply AF; eauto.
  - destruct (after_read _ _ _ _ _) as [c1| |] eqn:A; try discriminate. destruct RF as [RF _ _ _]. destruct (RG _ _ eq_refl) as [RG1 RG2].
    destruct (ds_after K 0 [] false (kk_blk c q) id (ss_x s (unblocked c s)) _ _ _ s F (ann_ok K (kk_blk c q) s ev (x_st (unblocked c s)) _ PV RF) A) as [D F1].
    assert (kst K c (AResume id ev (x_def x' - x_def (st_x s))) (mid (kk_blk c q) id (ss_x s (unblocked c s)) x')) as T by (eapply t_resume_gone; eauto).
    assert (wf K c1) as W1 by (eapply dsP_wf; [eapply kst_wf; [exact W|exact T]|exact D]).
    intros H I. destruct (drop_stream _ _ _ _ _) as [c2 r2 e2| |] eqn:DR; try discriminate. apply drop_rem in DR as [-> ->].
    assert (wf K (rem_stream K c1 id)) as W2 by (eapply (wf_rem K c1 id); eauto).
    destruct (unblock_loop K f (rem_stream K c1 id)) as [c3 r3 e4| |] eqn:U; cbn [k_evs] in H; try discriminate. injection H as <- _ <-.
    apply PI_app. eapply IH; [exact W2|exact U|]. apply PI_app. apply PI_quiet; [intros; apply quiet_close|]. apply PI_app. apply PI_quiet; [intros; apply quiet_deferred|].
    eapply PI_same; [apply sp_rem|]. eapply AF; eauto.
Qed.
Lemma PI_encoder K c src c' rv evs sg : wf K c -> read_qpack_encoder K c src = KOk c' rv evs -> PI c sg -> PI c' (ext sg evs).
Proof.
  intros W. unfold read_qpack_encoder. destruct (read_encoder (k_dec c) src) as [d [n| |]] eqn:R; try discriminate.
  destruct (unblock_loop _ _ _) as [c1 r1 e1| |] eqn:U; try discriminate. intros [= <- _ <-] I. eapply PI_unblock; [|exact U|exact I]. apply wf_dec; auto.
Qed.
(* the control stream: streams appear here; what is known of those that are not there *)
Definition absent (c : conn) (sg : Z -> list signal) : Prop := forall id, find_stream c id = None -> only_updates (sg id).
Lemma one_signal id p i : evs_signals i [KControl (CvPriority id p)] = if id =? i then [SUpdate p] else [].
Proof. unfold evs_signals. cbn [map concat ev_signals]. rewrite app_nil_r. reflexivity. Qed.
Lemma absent_ext c c' sg id p : (forall j, find_stream c' j = None -> find_stream c j = None) -> absent c sg -> absent c' (ext sg [KControl (CvPriority id p)]).
Proof.
  intros E A j N. unfold ext. rewrite one_signal. apply Forall_app. split; [apply A; auto|]. destruct (id =? j); repeat constructor. eauto.
Qed.
Lemma PI_update K c id p c' sg : client_bidi id = true -> on_priority_update K c id p = Ok c' -> PI c sg -> absent c sg ->
  PI c' (ext sg [KControl (CvPriority id p)]) /\ absent c' (ext sg [KControl (CvPriority id p)]).
Proof.
  intros G2 H I A. unfold on_priority_update in H. destruct (find_stream c id) as [s|] eqn:F.
  - destruct (st_sp s) eqn:SP.
    + injection H as <-. split; [|apply (absent_ext c c); auto]. intros i t C Fi. unfold ext. rewrite one_signal. destruct (Z.eqb_spec id i) as [<-|N]; [|rewrite app_nil_r; auto].
      assert (t = s) as -> by congruence. apply ps_update_ign; auto.
    + unfold update_priority in H. rewrite G2 in H. cbn [negb] in H. unfold sched_do in H. change (k_sch (put c id (ss_pu s true))) with (k_sch c) in H.
      destruct (sc_priority _ _ _ _) as [sch'| |] eqn:SC; try discriminate. injection H as <-. apply priority_sets in SC as [S1 S2].
      split.
      * intros i t C Fi. change (find_stream (put c id (ss_pu s true)) i = Some t) in Fi. cbn [k_sch kk_sch]. unfold ext. rewrite one_signal, find_put, F in *. destruct (Z.eqb_spec i id) as [->|N].
        -- injection Fi as <-. rewrite Z.eqb_refl, S2. eapply ps_update; eauto.
        -- destruct (Z.eqb_spec id i); [congruence|]. rewrite app_nil_r, S1; auto.
      * apply (absent_ext c); auto. intros j. change (find_stream (put c id (ss_pu s true)) j = None -> find_stream c j = None). rewrite find_put, F. destruct (j =? id); [discriminate|auto].
  - assert (PI c (ext sg [KControl (CvPriority id p)]) /\ absent c (ext sg [KControl (CvPriority id p)])) as IGN.
    { split; [|apply (absent_ext c c); auto]. intros i t C Fi. unfold ext. rewrite one_signal. destruct (Z.eqb_spec id i) as [<-|N]; [congruence|rewrite app_nil_r; auto]. }
    destruct (k_queued c && (k_goaway c <=? id)) eqn:GA; [injection H as <-; exact IGN|].
    destruct (conn_bidi_idtr_open (k_idtr c) id) as [[rv g]| |]; cbn [obind] in H; try discriminate. destruct (rv =? 0) eqn:RV; cbn [negb] in H.
    + cbv zeta in H. destruct (create_stream _ _ _ _) as [c1| |] eqn:CR; cbn [obind] in H; try discriminate. injection H as <-. apply create_ok in CR as [F1 ->].
      set (c0 := kk_maxid (kk_idtr c g) (Z.max (k_maxid c) id)) in *. set (s := ss_pu _ true) in *.
      assert (forall j, find_stream (add_stream K c0 id s) j = if j =? id then Some s else find_stream c j) as E by (intros j; apply (find_add K c0 id s j F1)).
      assert (k_sch (add_stream K c0 id s) = sc_create (k_sch c) id) as ES by (unfold add_stream; destruct (is_server_bidi K id); reflexivity).
      split.
      * intros i t C Fi. change (find_stream (add_stream K c0 id s) i = Some t) in Fi. rewrite E in Fi. unfold ext. rewrite one_signal. cbn [k_sch kk_sch]. unfold sc_create_pri, set_node. cbn [sc_n]. destruct (Z.eqb_spec i id) as [->|N].
        -- injection Fi as <-. rewrite Z.eqb_refl, upd_z_same. cbn [n_pri nd_pri]. apply ps_create; auto.
        -- destruct (Z.eqb_spec id i); [congruence|]. rewrite app_nil_r, upd_z_other; auto. rewrite ES. unfold sc_create, set_node. cbn [sc_n]. rewrite upd_z_other; auto.
      * apply (absent_ext c); auto. intros j. change (find_stream (add_stream K c0 id s) j = None -> find_stream c j = None). rewrite E. destruct (j =? id); [discriminate|auto].
    + destruct (rv =? ERR_STREAM_IN_USE); [|discriminate]. injection H as <-. exact IGN.
Qed.
Lemma PI_updates K evs : forall c c' sg, Forall (good_cev (ke_server K)) evs -> apply_updates K c evs = Ok c' -> PI c sg -> absent c sg -> PI c' (ext sg (map KControl evs)).
Proof.
  induction evs as [|e evs IH]; intros c c' sg G H I A; cbn [apply_updates] in H; [injection H as <-; apply PI_quiet; auto|]. inversion G as [|? ? G1 G2]; subst.
  change (map KControl (e :: evs)) with ([KControl e] ++ map KControl evs). apply PI_app.
  assert ((exists id p, e = CvPriority id p) \/ (forall id p, e <> CvPriority id p)) as [(id & p & ->)|N] by (destruct e; [right; congruence|right; congruence|right; congruence|right; congruence|right; congruence|right; congruence|left; eauto]).
  - destruct (on_priority_update K c id p) as [c1| |] eqn:O; cbn [obind] in H; try discriminate. destruct G1 as (_ & CB & _).
    destruct (PI_update K c id p c1 sg CB O I A) as [I1 A1]. eapply IH; eauto.
  - assert (apply_updates K c evs = Ok c') as H' by (destruct e; auto; exfalso; eapply N; eauto).
    assert (forall i, evs_signals i [KControl e] = []) as Q by (intros i; destruct e; auto; exfalso; eapply N; eauto).
    eapply IH; eauto; [apply PI_quiet; auto|]. intros j Nj. unfold ext. rewrite Q, app_nil_r. auto.
Qed.
Lemma PI_control K c src c' rv evs sg : wf K c -> bytes src -> read_control_stream K c src = KOk c' rv evs -> PI c sg -> absent c sg -> PI c' (ext sg evs).
Proof.
  intros W B. unfold read_control_stream. pose proof (read_control_fact (mk_cenv (ke_server K) (k_maxcl c) (ke_sf K)) (k_ctl c) src (wf_ctl _ _ W) B) as R.
  destruct (read_control _ _ _ _) as [s' ev| | |] eqn:RC; try discriminate. destruct R as [R1 R2].
  destruct (apply_updates _ _ _) as [c1| |] eqn:A; try discriminate. intros [= <- _ <-] I AB. eapply PI_updates; eauto.
Qed.
Lemma sp_put c id s s' : find_stream c id = Some s -> st_sp s' = st_sp s -> st_pu s' = st_pu s -> sameP c (put c id s').
Proof. intros F A B j t. rewrite find_put, F. destruct (Z.eqb_spec j id) as [->|N]; [intros [= <-]; exists s; auto|eauto]. Qed.
Lemma sp_identify c v c1 u : identify c v = Ok (c1, u) -> (forall j, find_stream c1 j = find_stream c j) /\ k_sch c1 = k_sch c.
Proof. intros H. destruct (identify_same _ _ _ _ H) as [-> _]. split; reflexivity. Qed.
Lemma PI_new K c id s sg : PI c sg -> find_stream c id = None -> sg id = [] -> st_sp s = false -> st_pu s = false -> PI (add_stream K c id s) sg.
Proof.
  intros I F S A B i t C. rewrite (find_add K c id s i F). assert (k_sch (add_stream K c id s) = sc_create (k_sch c) id) as -> by (unfold add_stream; destruct (is_server_bidi K id); reflexivity).
  unfold sc_create, set_node. cbn [sc_n]. destruct (Z.eqb_spec i id) as [->|N].
  - intros [= <-]. rewrite S, upd_z_same. apply ps_new; auto.
  - rewrite upd_z_other; auto.
Qed.
Definition empties (c : conn) (sg : Z -> list signal) : Prop := forall id, find_stream c id = None -> sg id = [].
Lemma PI_opened K c id c0 s pre sg : opened K c id c0 s pre -> PI c sg -> empties c sg -> PI c0 (ext sg pre) /\ absent c0 sg /\ find_stream c0 id = Some s.
Proof.
  intros O I E. assert (forall c1, (forall j, find_stream c1 j = None -> find_stream c j = None) -> absent c1 sg) as AB by (intros c1 H j N; rewrite (E j); [constructor|auto]).
  destruct O as [s F KD|r g s F SB IT ES|F PU].
  - split; [|split; auto]. apply PI_quiet; auto.
  - assert (find_stream (kk_maxid (kk_idtr c g) (Z.max (k_maxid c) id)) id = None) as F0 by exact F. split; [|split].
    + apply PI_quiet; [intros; destruct (rejected c id); reflexivity|]. apply PI_new; auto; subst s; destruct (rejected c id); reflexivity.
    + apply AB. intros j. rewrite (find_add K _ id s j F0). destruct (j =? id); [discriminate|auto].
    + rewrite (find_add K _ id s id F0), Z.eqb_refl. reflexivity.
  - split; [|split].
    + apply PI_quiet; auto. apply PI_new; auto.
    + apply AB. intros j. rewrite (find_add K _ id _ j F). destruct (j =? id); [discriminate|auto].
    + rewrite (find_add K _ id _ id F), Z.eqb_refl. reflexivity.
Qed.
Lemma opened_wf K c id c0 s pre : wf K c -> id_range id -> opened K c id c0 s pre -> wf K c0.
Proof.
  intros W RG O. destruct O as [s F KD|r g s F SB IT ES|F PU]; auto.
  - eapply kst_wf; [|apply (t_new K (kk_maxid (kk_idtr c g) (Z.max (k_maxid c) id)) id s F RG); [left; split; auto|intros _; cbn; lia]].
    assert (kk_maxid (kk_idtr c g) (Z.max (k_maxid c) id) = kk_ndec (kk_maxcl (kk_maxid (kk_idtr c g) (Z.max (k_maxid c) id)) (k_maxcl c)) (k_ndec c)) as -> by (destruct c; reflexivity).
    eapply kst_wf; [exact W|apply t_misc; [right; eexists _, _; split; [exact RG|exact IT]|lia|lia]].
  - eapply kst_wf; [exact W|]. apply t_new; auto; [right; left; auto|]. intros SB. apply peer_is_uni in PU. unfold is_server_bidi in SB. apply andb_true_iff in SB as [_ SB]. apply bidi_uni in SB. congruence.
Qed.
Lemma PI_typed K c id src fin u c' n evs sg : wf K c -> bytes src -> typed_read K c id src fin u c' n evs -> PI c sg -> absent c sg -> PI c' (ext sg evs).
Proof.
  intros W B T I A. destruct T.
  - eapply PI_control; eauto.
  - eapply PI_encoder; eauto.
  - apply PI_quiet; auto.
  - apply PI_quiet; auto. intros. destruct fin; reflexivity.
Qed.
Lemma PI_uni K c id s src fin c' rv evs sg : wf K c -> bytes src -> find_stream c id = Some s -> peer_uni K id = true -> uni_read K c id s src fin c' rv evs -> PI c sg -> absent c sg -> PI c' (ext sg evs).
Proof.
  intros W B F PU U I A. destruct U.
  - apply drop_rem in H3 as [-> ->]. apply PI_quiet; [|eapply PI_same; [apply sp_rem|exact I]]. intros. rewrite evs_signals_app, quiet_deferred, quiet_close. reflexivity.
  - apply PI_quiet; auto. eapply PI_same; [|exact I]. eapply sp_put; eauto.
  - destruct (sp_identify _ _ _ _ H1) as [E1 E2]. apply PI_quiet; auto. eapply PI_same; [|exact I]. eapply sp_trans; [|eapply sp_put with (s := s); auto; rewrite E1; auto]. intros j t Fj. rewrite E1 in Fj. rewrite E2. eauto.
  - destruct (sp_identify _ _ _ _ H2) as [E1 E2]. apply read_typed_shape in H3.
    assert (forall j, find_stream (put c1 id (ss_u s u)) j = if j =? id then Some (ss_u s u) else find_stream c j) as E3.
    { intros j. rewrite find_put, E1, F. destruct (j =? id); auto. }
    assert (kst K c (AType id u) (put c1 id (ss_u s u))) as TT by (eapply t_type; eauto).
    eapply PI_typed; [eapply kst_wf; [exact W|exact TT]|eapply bytes_rest; eauto|exact H3| |].
    + eapply PI_same; [|exact I]. intros j t. rewrite E3. change (k_sch (put c1 id (ss_u s u))) with (k_sch c1). rewrite E2. destruct (Z.eqb_spec j id) as [->|N]; [intros [= <-]; exists s; auto|eauto].
    + intros j Nj. apply A. rewrite E3 in Nj. destruct (j =? id); [discriminate|auto].
  - apply read_typed_shape in H0. eapply PI_typed; eauto.
Qed.
Lemma PI_read K c id src fin c' rv evs sg : wf K c -> bytes src -> read_stream K c id src fin = KOk c' rv evs -> PI c sg -> empties c sg -> PI c' (ext sg evs).
Proof.
  intros W B R I E. apply read_cases in R as [RG R]. destruct R as [F PU -> ->|c0 s pre O -> ->|c0 s pre c' rv evs O CB NE R|c0 s c' rv evs O PU NE R].
  - apply PI_quiet; auto.
  - eapply PI_opened; eauto.
  - destruct (PI_opened _ _ _ _ _ _ _ O I E) as (I0 & A & F). apply PI_app. eapply (PI_request K c0 id s src fin); [eapply (opened_wf K c); eauto|exact F|exact R|exact I0].
  - destruct (PI_opened _ _ _ _ _ _ _ O I E) as (I0 & A & F). eapply (PI_uni K c0 id s src fin); [eapply (opened_wf K c); eauto|exact B|exact F|exact PU|exact R| |exact A]. eapply PI_ext; [|exact I0]. intros i. unfold ext. cbn. rewrite app_nil_r. reflexivity.
Qed.
(* the other calls *)
Definition keeper (a : kact) : Prop :=
  match a with ANew _ _ | ARecv _ _ _ _ | AResume _ _ _ | APriority _ _ | AUpdate _ _ _ | AServer _ _ | AUpdateIgn _ _ | AControl _ => False | _ => True end.
Lemma sp_sched c sch' id : kept (k_sch c) id sch' -> sameP c (kk_sch c sch').
Proof.
  intros [A B] j t F. exists t. split; [exact F|]. split; auto. split; auto. cbn [k_sch kk_sch]. destruct (Z.eqb_spec j id) as [->|N]; [exact B|rewrite A; auto].
Qed.
Lemma kept_if (b : bool) s x (o : outcome sch) s' : (forall s', o = Ok s' -> kept s x s') -> (if b then o else Ok s) = Ok s' -> kept s x s'.
Proof. intros H. destruct b; [apply H|intros [= <-]; apply kept_refl]. Qed.
Lemma kst_same K c a c' : kst K c a c' -> keeper a -> sameP c c'.
Proof.
  intros H G. destruct H; try (destruct G; fail); try (intros j t F; exists t; auto; fail).
  - apply sp_rem.
  - eapply sp_put; eauto.
  - destruct (sp_identify _ _ _ _ H2) as [E1 E2]. eapply sp_trans; [|eapply sp_put with (s := s); auto; rewrite E1; auto]. intros j t Fj. rewrite E1 in Fj. rewrite E2. eauto.
  - eapply sp_put; eauto.
  - eapply sp_trans; [eapply (sp_put c id s (ss_t s (tx_submit (st_t s) [FGoaway g] false))); auto|]. intros j t F. exists t. auto.
  - assert (sameP c c1 /\ k_sch c1 = k_sch c) as [S E].
    { revert H2. apply (add_ebufs_P (fun x => sameP c x /\ k_sch x = k_sch c)).
      - intros d q sq tq e [S E] _ Fq _. split; auto. eapply sp_trans; [exact S|]. eapply sp_put; eauto.
      - split; auto. eapply sp_put; eauto. }
    eapply sp_trans; [exact S|]. apply (sp_sched c1 sch' id). rewrite E. revert H4. apply kept_if. intros s'. apply kept_offered.
  - eapply sp_trans; [eapply (sp_put c id s (ss_t s t)); auto|]. apply (sp_sched (put c id (ss_t s t)) sch' id). revert H1. apply kept_if. intros s'. apply kept_written.
  - eapply sp_put; eauto.
  - eapply sp_trans; [|apply sp_sched with id; eapply kept_submit; eauto]. eapply sp_put; eauto.
  - eapply sp_trans; [|apply sp_sched with id; revert H0; apply kept_if; intros s'; apply kept_block]. eapply sp_put; eauto; destruct fc; auto.
  - eapply sp_trans; [|apply sp_sched with id; revert H0; apply kept_if; intros s'; apply kept_wake]. eapply sp_put; eauto; destruct fc; auto.
  - cbv zeta. eapply sp_trans; [|apply sp_sched with id; eapply kept_unschedule; eauto]. eapply sp_put; eauto; destruct (b_blk _); auto.
  - eapply sp_trans; [eapply (sp_put c id s (ss_x s (x_shut_rd (st_x s)))); auto|]. intros j t F. exists t. auto.
Qed.
Lemma keeper_quiet a : keeper a -> (forall e, a <> ASee e) -> forall id, evs_signals id (vis a) = [].
Proof.
  destruct a; intros G N i; try destruct G; try reflexivity.
  - cbn [vis]. rewrite evs_signals_app, quiet_deferred, quiet_close. reflexivity.
  - cbn [vis]. clear N. induction calls as [|n l IH]; [reflexivity|exact IH].
  - elim (N e). reflexivity.
Qed.
Definition plain_op (o : cop) : bool := match o with ORead _ _ _ | OServerPriority _ _ | ORequest _ _ _ | OBindControl _ | OBindQpack _ _ => false | _ => true end.
Lemma allowed_plain K o a : plain_op o = true -> allowed K o a -> keeper a /\ forall e, a <> ASee e.
Proof.
  intros P A. destruct a; cbn [allowed allowed0] in A; cbn [keeper]; try (split; [exact I|discriminate]); exfalso; subst; try discriminate P;
    repeat match goal with H : exists _, _ |- _ => destruct H | H : _ \/ _ |- _ => destruct H | H : _ /\ _ |- _ => destruct H end; subst; discriminate P.
Qed.
Lemma ksts_same K o c l c' : plain_op o = true -> ksts K c l c' -> Forall (allowed K o) l -> sameP c c' /\ forall id, evs_signals id (seen l) = [].
Proof.
  intros P S. induction S; intros F; [split; [apply sp_refl|reflexivity]|]. inversion F; subst. destruct (allowed_plain _ _ _ P H2) as [KP NS]. destruct (IHS H3) as [S1 Q1].
  split; [eapply sp_trans; [eapply kst_same; eauto|auto]|]. intros id. unfold seen in *. cbn [map concat]. rewrite evs_signals_app, Q1, (keeper_quiet a); auto.
Qed.
Lemma PI_plain K c o c' rv evs sg : wf K c -> ConnDecomp.op_ok o -> plain_op o = true -> kstep K c o = KOk c' rv evs -> PI c sg -> PI c' (ext sg evs).
Proof.
  intros W O P S I. destruct (step_decomp _ _ _ _ _ _ W O S) as (acts & D & <- & F & _). destruct (ksts_same _ _ _ _ _ P D F) as [SM Q].
  apply PI_quiet; [auto|]. eapply PI_same; eauto.
Qed.
Lemma PI_open K c id u ty frs c' sg : local_uni K id = true -> open_uni K c id u ty frs = Ok c' -> PI c sg -> PI c' sg.
Proof.
  intros LU. unfold open_uni. set (s := ss_u _ u). destruct (create_stream K c id s) as [c1| |] eqn:CR; cbn [obind]; try discriminate. apply create_ok in CR as [F ->].
  destruct (write_raw (st_t s) [ty]) as [t| |]; cbn [obind]; try discriminate. intros [= <-] I i x C.
  assert (i <> id) as N by (intros ->; eapply local_not_bidi; eauto). rewrite find_put_other, (find_add K c id s i F); auto. destruct (Z.eqb_spec i id); [congruence|].
  change (k_sch (put ?a _ _)) with (k_sch a). assert (k_sch (add_stream K c id s) = sc_create (k_sch c) id) as -> by (unfold add_stream; destruct (is_server_bidi K id); reflexivity).
  unfold sc_create, set_node. cbn [sc_n]. rewrite upd_z_other; auto.
Qed.
Lemma PI_step K c o c' rv evs sg : wf K c -> ConnDecomp.op_ok o -> kstep K c o = KOk c' rv evs -> PI c sg -> empties c sg -> PI c' (fun id => sg id ++ call_signals id (mk_call o rv evs c')).
Proof.
  intros W O S I E. destruct (plain_op o) eqn:P.
  - pose proof (PI_plain _ _ _ _ _ _ _ W O P S I) as H. eapply PI_ext; [|exact H]. intros i. unfold ext, call_signals. destruct o; try discriminate P; reflexivity.
  - destruct o as [id|eid did|id src fin| | | | |id nva dr| | | | | | | | | | | | | | |id p]; try discriminate P; cbn [kstep] in S; unfold call_signals; cbn [c_op c_rv c_evs].
    + unfold bind_control in S. destruct (negb _) eqn:NG; [discriminate|]. apply negb_false_iff, andb_true_iff in NG as [_ LU]. destruct (k_tctl c).
      { injection S as <- _ <-. eapply PI_ext; [|exact I]. intros i. apply app_nil_r. }
      apply lift_ok in S as (S & _ & ->). apply obind_ok in S as (c1 & S & [= <-]). pose proof (PI_open K c id _ _ _ _ sg LU S I) as S'. eapply PI_ext; [|exact S']. intros i. apply app_nil_r.
    + unfold bind_qpack in S. destruct (negb _) eqn:NG; [discriminate|]. apply negb_false_iff in NG. rewrite !andb_true_iff in NG. destruct NG as [[_ L1] L2].
      destruct (k_tenc c), (k_tdec c); try (injection S as <- _ <-; eapply PI_ext; [|exact I]; intros i; apply app_nil_r).
      apply lift_ok in S as (S & _ & ->). apply obind_ok in S as (c1 & S1 & S). cbv zeta in S. apply obind_ok in S as (c2 & S2 & [= <-]).
      pose proof (PI_open K c eid _ _ _ _ sg L1 S1 I) as I1. pose proof (PI_open K (kk_tx c1 (k_tctl c1) (Some eid) (k_tdec c1)) did _ _ _ _ sg L2 S2 I1) as I2. eapply PI_ext; [|exact I2]. intros i. apply app_nil_r.
    + eapply PI_read; eauto.
    + unfold submit_request in S. destruct (ke_server K || _) eqn:NG; [discriminate|]. destruct (c_closing (k_ctl c)); [injection S as <- _ <-; eapply PI_ext; [|exact I]; intros i; apply app_nil_r|].
      destruct (find_stream c id) as [s0|] eqn:F; [injection S as <- _ <-; eapply PI_ext; [|exact I]; intros i; apply app_nil_r|]. cbv zeta in S. set (s := new_stream _ _) in *.
      destruct (create_stream K c id s) as [c1| |] eqn:CR; try discriminate. apply create_ok in CR as [_ ->]. unfold submit_headers in S. cbv zeta in S.
      apply lift_ok in S as (S & _ & ->). unfold sched_do in S. destruct (sc_submit _ _ _) as [sch'| |] eqn:SS; try discriminate. injection S as <-.
      eapply PI_ext; [intros i; apply app_nil_r|]. assert (PI (add_stream K c id s) sg) as I1 by (apply PI_new; auto).
      eapply PI_same; [|exact I1]. eapply sp_trans; [|apply sp_sched with id; eapply kept_submit; eauto]. eapply sp_put with (s := s); [rewrite find_add, Z.eqb_refl; auto| |]; reflexivity.
    + unfold set_server_priority in S. destruct (negb _); [discriminate|]. destruct (client_bidi id) eqn:CB; cbn [negb] in S.
      2:{ injection S as <- <- <-. eapply PI_ext; [|exact I]. intros i. cbn. rewrite andb_false_r. apply app_nil_r. }
      destruct (find_stream c id) as [s|] eqn:F; [|injection S as <- <- <-; eapply PI_ext; [|exact I]; intros i; cbn; rewrite andb_false_r; apply app_nil_r].
      cbv zeta in S. apply lift_ok in S as (S & -> & ->). unfold update_priority in S. rewrite CB in S. cbn [negb] in S. unfold sched_do in S.
      destruct (sc_priority _ _ _ _) as [sch'| |] eqn:SP; try discriminate. injection S as <-. apply priority_sets in SP as [S1 S2].
      intros i t C Fi. change (find_stream (put c id (ss_sp s true)) i = Some t) in Fi. rewrite find_put, F in Fi. cbn [k_sch kk_sch]. rewrite andb_true_r. destruct (Z.eqb_spec i id) as [->|N].
      * injection Fi as <-. rewrite Z.eqb_refl, S2. eapply ps_server; eauto.
      * destruct (Z.eqb_spec id i); [congruence|]. rewrite app_nil_r, S1; auto.
Qed.
Lemma signals_snoc id h x : signals id (h ++ [x]) = if is_open (c_post x) id then signals id h ++ call_signals id x else [].
Proof. unfold signals. rewrite life_snoc. destruct (is_open (c_post x) id); [|reflexivity]. rewrite map_app, concat_app. cbn. rewrite app_nil_r. reflexivity. Qed.
Theorem hist_PI K h c : history K h c -> PI c (fun id => signals id h).
Proof.
  revert h c. apply hist_inv; [intros id s _ F; discriminate F|]. intros h c o c' rv evs H W O I S.
  assert (empties c (fun id => signals id h)) as E by (intros id N; unfold signals; rewrite (life_closed _ _ _ _ H N); reflexivity).
  pose proof (PI_step K c o c' rv evs _ W O S I E) as R. intros id s C F. rewrite signals_snoc. unfold is_open. cbn [c_post]. rewrite F. apply R; auto.
Qed.
Theorem priority_of K h c id p : history K h c -> get_priority c id = Ok p -> p = effective (signals id h).
Proof.
  intros H G. unfold get_priority in G. destruct (client_bidi id) eqn:CB; cbn [negb] in G; [|discriminate]. destruct (find_stream c id) as [s|] eqn:F; [|discriminate]. injection G as <-.
  apply (hist_PI K h c H id s CB F).
Qed.
(* every priority is one of those RFC 9218 knows *)
Definition PV (c : conn) : Prop := forall id s, find_stream c id = Some s -> pri_valid (n_pri (sc_n (k_sch c) id)).
Lemma PV_same c c' : sameP c c' -> PV c -> PV c'.
Proof. intros S H id s F. destruct (S _ _ F) as (s0 & F0 & _ & _ & ->). eauto. Qed.
Lemma pv_default : pri_valid (n_pri node_init). Proof. apply fresh_pri. Qed.
Lemma PV_add K c id s : find_stream c id = None -> PV c -> PV (add_stream K c id s).
Proof.
  intros F H j t. rewrite (find_add K c id s j F). assert (k_sch (add_stream K c id s) = sc_create (k_sch c) id) as -> by (unfold add_stream; destruct (is_server_bidi K id); reflexivity).
  unfold sc_create, set_node. cbn [sc_n]. destruct (Z.eqb_spec j id) as [->|N]; [rewrite upd_z_same; intros; apply pv_default|rewrite upd_z_other; eauto].
Qed.
Lemma PV_priority c c1 id p r sch' : (forall j, j <> id -> find_stream c1 j = find_stream c j) -> k_sch c1 = k_sch c -> PV c -> pri_valid p -> sc_priority (k_sch c) id p r = Ok sch' -> PV (kk_sch c1 sch').
Proof.
  intros E ES H V S. apply priority_sets in S as [S1 S2]. intros j t F. change (find_stream c1 j = Some t) in F. cbn [k_sch kk_sch].
  destruct (Z.eqb_spec j id) as [->|N]; [rewrite S2; auto|]. rewrite E in F; auto. rewrite S1; eauto.
Qed.
Lemma server_valid p : urg_ok (p_urg p) = true -> (p_inc p =? 0) || (p_inc p =? 1) = true -> pri_valid p.
Proof. intros A B. apply urg_ok_iff in A. split; auto. lia. Qed.
Lemma kst_PV K c a c' : kst K c a c' -> PV c -> PV c'.
Proof.
  intros H I. pose proof H as HH. destruct H; try (eapply PV_same; [eapply kst_same; [exact HH|exact Logic.I]|exact I]; fail).
  - apply PV_add; auto.
  - eapply PV_same; [|exact I]. eapply sp_mid; eauto.
  - eapply PV_same; [|exact I]. apply (sp_mid (kk_blk c q) id (ss_x s (unblocked c s)) x s); auto.
  - eapply PV_same; [|exact I]. apply (sp_mid (kk_blk c q) id (ss_x s (unblocked c s)) x s); auto.
  - eapply PV_priority; eauto.
  - eapply PV_priority with (c := c); eauto. intros j N. apply find_put_other; auto.
  - cbv zeta. set (c1 := add_stream K c id _). assert (PV c1) as I1 by (apply PV_add; auto). intros j t F. change (find_stream c1 j = Some t) in F. cbn [k_sch kk_sch].
    unfold sc_create_pri, set_node. cbn [sc_n]. destruct (Z.eqb_spec j id) as [->|N]; [rewrite upd_z_same; auto|rewrite upd_z_other; eauto].
  - exact I.
  - exact I.
  - eapply (PV_priority c _ id p); [|reflexivity|exact I|apply server_valid; auto|exact H4]. intros j N. apply find_put_other; auto.
Qed.
Lemma hist_PV K h c : history K h c -> PV c.
Proof.
  revert h c. apply hist_inv; [intros id s F; discriminate F|]. intros h c o c' rv evs H W O I S.
  destruct (step_decomp _ _ _ _ _ _ W O S) as (acts & D & _). clear S H. induction D; auto. apply IHD; [eapply kst_wf; eauto|eapply kst_PV; eauto].
Qed.
