(* Receiving, over histories of API calls: what holds after every history (ConnRecvStep.v for one call). *)
From Verif Require Import Base BaseLemmas Chunk ConvModel RdVarint QpackTabModel QpackDecModel QpackDecProofs QpackHistModel QpackHistProofs HttpModel HttpSpec
  BidiModel BidiHist BidiSpec BidiProofs BidiRun BidiCut BidiAcct BidiDec TraceSpec TraceHttp TraceProofs ControlModel GapModel PqModel PqProofs TxModel SchedModel SchedProofs SchedFair
  ConnModel ConnCtl ConnStep ConnWf ConnDecomp ConnRx ConnHist ConnRead ConnPri ConnShut ConnSched RecvSpec RecvLog ConnRecv ConnRecvStep.
Open Scope Z_scope.

Definition log_of (id : Z) (g : list kcall) : lg := mk_lg (given id g) (all_shown id g) (returned id g) (all_deferred id g).
Lemma log_nil id : log_of id [] = lg0. Proof. reflexivity. Qed.
Lemma log_snoc id g o rv evs c' : log_of id (g ++ [mk_call o rv evs c']) = lg_add (log_of id g) (given1 id o) (shown id evs) (returned1 id o rv) (deferred_to id evs).
Proof.
  unfold log_of, lg_add, given, all_shown, returned, all_deferred. rewrite !map_app, !concat_app, !sum_app. cbn. rewrite !app_nil_r, !Z.add_0_r. reflexivity.
Qed.
Lemma life_open K h c id : history K h c -> is_open c id = true -> life id h <> [].
Proof. intros H O. destruct H; [cbn in O; discriminate|]. rewrite life_snoc. cbn [c_post]. rewrite O. intros E. apply app_eq_nil in E as [_ E]. discriminate. Qed.
Lemma request_snoc g x : g <> [] -> request_of (g ++ [x]) = request_of g.
Proof. destruct g; [congruence|reflexivity]. Qed.
Lemma RT_rq K rq rq' c lf : (forall id, find_stream c id <> None -> rq id = rq' id) -> (forall id, snd (rq' id) <= inserted c) -> RI K rq c lf -> RI K rq' c lf.
Proof.
  intros E N [[A B C] D]. split; [constructor; auto|auto].
  - destruct A as [A1 A2]. split; [exact A1|]. intros id. split; [apply (A2 id)|apply N].
  - intros id s CB F. rewrite <- E by congruence. auto.
Qed.
Definition rq_of (h : list kcall) (id : Z) : list QpackTabModel.nv * Z := (request_of (life id h), inserted_before id h).
Lemma inserted_now K h c : history K h c -> inserted_after h = inserted c.
Proof. intros H. destruct H; [reflexivity|]. unfold inserted_after. rewrite rev_app_distr. reflexivity. Qed.
Lemma before_snoc K h c o rv evs c' id : history K h c -> inserted_before id (h ++ [mk_call o rv evs c']) =
  if is_open c' id then if is_open c id then inserted_before id h else inserted c else inserted c'.
Proof.
  intros H. unfold inserted_before. rewrite life_snoc. cbn [c_post]. rewrite !app_length. cbn [length]. destruct (is_open c' id) eqn:O'.
  - rewrite app_length. cbn [length]. replace (length h + 1 - (length (life id h) + 1))%nat with (length h - length (life id h))%nat by lia.
    rewrite firstn_app. replace (length h - length (life id h) - length h)%nat with 0%nat by lia. cbn [firstn]. rewrite app_nil_r. destruct (is_open c id) eqn:O; [reflexivity|].
    rewrite (life_closed K h c id H) by (unfold is_open in O; destruct (find_stream c id); congruence). cbn [length]. rewrite Nat.sub_0_r, firstn_all. exact (inserted_now K h c H).
  - cbn [length]. rewrite Nat.sub_0_r. rewrite firstn_all2 by (rewrite app_length; cbn [length]; lia). unfold inserted_after. rewrite rev_app_distr. reflexivity.
Qed.
Definition log_h (h : list kcall) (id : Z) : lg := log_of id (life id h).

Section H.
Variable K : kenv.
Hypothesis CAP : 0 <= s_cap (ke_set K).
Lemma init_R : RI K (rq_of []) (conn_init K) (log_h []).
Proof.
  split; [constructor|].
  - split; [exact CAP|]. intros id. split; [constructor|]. vm_compute. discriminate.
  - intros id s _ F. discriminate F.
  - unfold HP. split; [intros x _; exact Logic.I|]. split; [intros i Hi; cbn in Hi; lia|intros j Hj; cbn in Hj; lia].
  - intros id s F. discriminate F.
Qed.
(* the requests as they are during a call *)
Definition rq_at (h : list kcall) (c : conn) (x : kcall) (id : Z) : list QpackTabModel.nv * Z := if is_open c id then rq_of h id else (request_of [x], inserted c).
Lemma hist_LE h c : history K h c -> LE c (log_h h).
Proof. intros H id N. unfold log_h. rewrite (life_closed K h c id H N). reflexivity. Qed.
Lemma hist_step h c o (x : kcall) : history K h c -> RI K (rq_of h) c (log_h h) -> op_ok o -> c_op x = o -> postO K (rq_at h c x) c (log_h h) o (kstep K c o).
Proof.
  intros H R OK X. apply R_step; auto.
  - exact (h_wf _ _ _ H).
  - pose proof (proj2 (r_dec _ _ _ _ (proj1 R))) as RN. eapply RT_rq; [| |exact R].
    + intros id N. unfold rq_at, is_open. destruct (find_stream c id); congruence.
    + intros id. unfold rq_at. destruct (is_open c id); [apply (RN id)|cbn [snd]; lia].
  - apply hist_LE; auto.
  - intros c' rv evs id nva dr -> _ N _. unfold rq_at, is_open. rewrite N. cbn. rewrite X. reflexivity.
Qed.
Theorem hist_R h c : history K h c -> RI K (rq_of h) c (log_h h).
Proof.
  intros H. induction H as [|h c o c' rv evs H IH OK S]; [exact init_R|]. set (x := mk_call o rv evs c').
  pose proof (hist_step h c o x H IH OK eq_refl) as P. rewrite S in P. destruct P as [P _].
  pose proof (proj2 (r_dec _ _ _ _ (proj1 P))) as RN. eapply RT_rq; [| |eapply RI_eq; [|exact P]].
  - intros id N. unfold rq_at, rq_of, x. rewrite (before_snoc K h c o rv evs c' id H), life_snoc. fold x. assert (is_open c' id = true) as OP by (unfold is_open; destruct (find_stream c' id); congruence). rewrite OP. assert (is_open (c_post x) id = true) as -> by (unfold is_open; change (c_post x) with c'; destruct (find_stream c' id); congruence).
    destruct (is_open c id) eqn:O; [f_equal; symmetry; apply request_snoc; eapply life_open; eauto|]. rewrite (life_closed K h c id H); [reflexivity|]. unfold is_open in O. destruct (find_stream c id); congruence.
  - intros id. unfold rq_of, x. cbn [snd]. rewrite (before_snoc K h c o rv evs c' id H). pose proof (proj2 (RN id)) as B. unfold rq_at in B. fold (inserted c') in B. destruct (is_open c' id); [|lia]. destruct (is_open c id); [exact B|exact B].
  - intros id _ N. unfold logcall, log_h. rewrite life_snoc. assert (is_open (c_post x) id = true) as -> by (unfold is_open; change (c_post x) with c'; destruct (find_stream c' id); congruence). unfold x. rewrite log_snoc. reflexivity.
Qed.
(* an open stream *)
Lemma open_T h c id s : history K h c -> client_bidi id = true -> find_stream c id = Some s -> T K (rq_of h id) id (st_x s) (k_dec c) (log_of id (life id h)).
Proof. intros H C F. exact (r_t _ _ _ _ (proj1 (hist_R h c H)) id s C F). Qed.
Lemma open_fine h c id s : history K h c -> client_bidi id = true -> find_stream c id = Some s -> fine K (rq_of h id) (log_of id (life id h)) (held (st_x s)).
Proof. intros H C F. eapply T_fine. eapply open_T; eauto. Qed.
(* a call that fails for good *)
Lemma dead_seen h c id o e evs : history K h c -> op_ok o -> kstep K c o = KDead e evs -> client_bidi id = true -> seen_ok K (rq_of h id) (all_shown id (life id h) ++ shown id evs).
Proof.
  intros H OK S C. pose proof (hist_step h c o (mk_call o 0 [] c) H (hist_R h c H) OK eq_refl) as P. rewrite S in P. specialize (P id C). unfold rq_at, rq_of in P.
  destruct (is_open c id) eqn:O; [exact P|]. assert (life id h = []) as E by (apply (life_closed K h c id H); unfold is_open in O; destruct (find_stream c id); congruence).
  unfold log_h, seen_ok, rq_of in *. cbn [fst] in *. rewrite E in *. cbn [app all_shown map concat log_of l_evs] in *.
  destruct o; auto. rewrite (dead_silent K c (ORequest id0 nva dr) e evs Logic.I S). exists AtStart. constructor.
Qed.
(* a call that ends the stream *)
Lemma closed_fine h c o c' rv evs id : history K h c -> op_ok o -> kstep K c o = KOk c' rv evs -> client_bidi id = true -> find_stream c id <> None -> find_stream c' id = None ->
  fine K (rq_of h id) (log_of id (life id h ++ [mk_call o rv evs c'])) 0.
Proof.
  intros H OK S C N1 N2. pose proof (hist_step h c o (mk_call o rv evs c') H (hist_R h c H) OK eq_refl) as P. rewrite S in P. destruct P as [_ P]. destruct (P id C N2) as [P1 _]. specialize (P1 N1).
  rewrite log_snoc. unfold rq_at, is_open in P1. destruct (find_stream c id); [exact P1|congruence].
Qed.
Lemma closed_silent h c o c' rv evs id : history K h c -> op_ok o -> kstep K c o = KOk c' rv evs -> client_bidi id = true -> find_stream c id = None -> find_stream c' id = None ->
  shown id evs = [] /\ deferred_to id evs = 0.
Proof.
  intros H OK S C N1 N2. pose proof (hist_step h c o (mk_call o rv evs c') H (hist_R h c H) OK eq_refl) as P. rewrite S in P. destruct P as [_ P]. destruct (P id C N2) as [_ P1]. auto.
Qed.

Lemma api_trace h c o id : history K h c -> op_ok o -> client_bidi id = true ->
  match kstep K c o with
  | KOk _ _ evs | KDead _ evs =>
    exists st, leads (role_of K (request_of (life id h ++ [mk_call o 0 [] c]))) AtStart (all_shown id (life id h) ++ shown id evs) st
  | KAbort => True
  end.
Proof.
  intros H OK C. set (x := mk_call o 0 [] c). pose proof (hist_step h c o x H (hist_R h c H) OK eq_refl) as P.
  assert (fst (rq_at h c x id) = request_of (life id h ++ [x])) as E.
  { unfold rq_at, rq_of. destruct (is_open c id) eqn:O; [symmetry; apply request_snoc; eapply life_open; eauto|]. rewrite (life_closed K h c id H); [reflexivity|]. unfold is_open in O. destruct (find_stream c id); congruence. }
  rewrite <- E. destruct (kstep K c o) as [c' rv evs|e evs|] eqn:S; [| |exact Logic.I].
  - destruct P as [P1 P2]. destruct (find_stream c' id) as [s|] eqn:F'.
    + pose proof (r_t _ _ _ _ (proj1 P1) id s C F') as TT. apply T_fine in TT as [TT _]. exact TT.
    + destruct (P2 id C F') as [P3 P4]. destruct (find_stream c id) as [s|] eqn:F.
      * destruct P3 as [P3 _]; [congruence|]. exact P3.
      * destruct (P4 eq_refl) as [-> _]. rewrite (life_closed K h c id H F). exists AtStart. constructor.
  - exact (P id C).
Qed.
Lemma api_message h c id : history K h c -> client_bidi id = true -> In BvEndStream (all_shown id (life id h)) ->
  exists infos hs bd ts, message (role_of K (request_of (life id h))) infos hs bd ts /\ callbacks (all_shown id (life id h)) = message_events infos hs bd ts.
Proof.
  intros H C I. destruct (find_stream c id) as [s|] eqn:F; [|rewrite (life_closed K h c id H F) in I; destruct I].
  destruct (open_fine h c id s H C F) as [[st L] _]. eapply trace_message; eauto.
Qed.
Lemma api_silent h c o c' rv evs id : history K h c -> op_ok o -> kstep K c o = KOk c' rv evs ->
  client_bidi id = true -> is_open c id = false -> is_open c' id = false -> shown id evs = [] /\ deferred_to id evs = 0.
Proof. intros H OK S C O1 O2. unfold is_open in O1, O2. eapply closed_silent; eauto; [destruct (find_stream c id)|destruct (find_stream c' id)]; congruence. Qed.
Lemma api_accounting h c id : history K h c -> client_bidi id = true ->
  0 <= returned id (life id h) /\ 0 <= all_deferred id (life id h) /\ 0 <= held_back id (life id h) /\ (held_back id (life id h) <> 0 -> exists n, waits_for c id n).
Proof.
  intros H C. destruct (find_stream c id) as [s|] eqn:F.
  - destruct (open_fine h c id s H C F) as (_ & A1 & A2 & A3). cbn [log_of l_ret l_def l_rcv l_evs] in *. split; [auto|]. split; [auto|]. unfold held_back.
    assert (0 <= held (st_x s)) as P by (unfold held, zlen; lia). split; [lia|]. intros N. destruct (b_blk (x_st (st_x s))) eqn:B; [eexists; exists s; eauto|].
    exfalso. apply N. pose proof (T_x_inv_q _ _ _ _ _ _ (open_T h c id s H C F) B) as Q. unfold held in A3. rewrite Q in A3. cbn in A3. lia.
  - rewrite (life_closed K h c id H F). cbn. repeat split; try lia; try (intros X; exfalso; apply X; reflexivity).
Qed.
Lemma api_closed h c o c' rv evs id : history K h c -> op_ok o -> kstep K c o = KOk c' rv evs ->
  client_bidi id = true -> is_open c id = true -> is_open c' id = false -> held_back id (life id h ++ [mk_call o rv evs c']) = 0.
Proof.
  intros H OK S C O1 O2. unfold is_open in O1, O2. destruct (find_stream c' id) eqn:F'; [discriminate|]. destruct (find_stream c id) eqn:F; [|discriminate].
  destruct (closed_fine h c o c' rv evs id H OK S C) as (_ & A1 & A2 & A3); [congruence|auto|]. cbn [log_of l_ret l_def l_rcv l_evs] in A3. unfold held_back. lia.
Qed.
Lemma api_waits h c id n : history K h c -> waits_for c id n -> inserted c < n.
Proof. intros H (s & F & B & ->). exact (proj2 (hist_R h c H) id s F B). Qed.
End H.

Lemma recv_blk_ev pre E x src fin : b_blk (x_st x) = true -> match recv pre E x src fin with XOk x' ev => x_st x' = x_st x /\ ev = [] | _ => True end.
Proof.
  intros B. unfold recv. destruct ((zlen src =? 0) && negb fin); auto. unfold read_bidi. cbn. destruct (x_shut x); cbn; auto. rewrite B. cbn. auto.
Qed.
Lemma api_holds K h c id n src fin c' rv evs : history K h c -> waits_for c id n -> kstep K c (ORead id src fin) = KOk c' rv evs -> evs = [] /\ waits_for c' id n.
Proof.
  intros H (s & F & B & ->) S. pose proof (h_wf _ _ _ H) as W. cbn [kstep] in S. unfold read_stream in S. destruct (_ || _); [discriminate|]. rewrite F in S.
  assert (client_bidi id = true) as CB.
  { destruct (client_bidi id) eqn:C; auto. exfalso. destruct (wf_id _ _ W id s F) as [_ [Q|U]]; [congruence|]. rewrite (wf_ux _ _ W id s F U) in B. discriminate. }
  rewrite CB in S. cbn [orb] in S. unfold read_existing in S. destruct ((zlen src =? 0) && negb fin) eqn:Z0; [injection S as <- <- <-; split; [auto|exists s; auto]|].
  rewrite (bidi_uni _ CB) in S. unfold read_request_stream in S. cbv zeta in S.
  pose proof (recv_blk_ev false (benv_of K c s) (rx_now c s) src fin B) as RB. destruct (recv _ _ _ _ _) as [x' ev'| | |]; try discriminate. destruct RB as [R1 ->].
  destruct (after_read c id s x' []) as [c1| |] eqn:A; try discriminate. injection S as <- <- <-. split; [reflexivity|]. apply after_mid in A. rewrite A.
  exists (ss_x s x'). split; [exact (find_mid c id s s x' id F) || (change (find_stream (mid c id s x') id = Some (ss_x s x')); rewrite (find_mid c id s s x' id F), Z.eqb_refl; reflexivity)|].
  change (st_x (ss_x s x')) with x'. rewrite R1. split; [exact B|reflexivity].
Qed.
