(* GOAWAY: identifiers announced, streams refused (C30) *)
From Coq Require Import Sorted.
From Verif Require Import Base BaseLemmas ConvModel RdVarint QpackTabModel QpackDecModel HttpModel BidiModel BidiHist ControlModel GapModel PqModel PqProofs PqWeak TxModel SchedModel ConnModel ConnCtl ConnStep ConnRx ConnWf ConnDecomp ConnHist ConnRead.
Open Scope Z_scope.

Lemma hist_det K h c : history K h c -> forall c', history K h c' -> c = c'.
Proof.
  induction 1 as [|h c o c1 rv evs H IH O S]; intros c' H'.
  - inversion H'; subst; auto. destruct h; discriminate.
  - inversion H' as [E|h2 c2 o2 c3 rv2 evs2 H2 O2 S2 E]; [destruct h; discriminate|]. apply app_inj_tail in E as [-> E]. injection E as _ _ _ ->. auto.
Qed.
(* the identifiers of the GOAWAY frames the calls queued *)
Definition goaways (h : list kcall) : list Z := map (fun x => k_goaway (c_post x)) (filter (fun x => is_goaway (ConnHist.c_op x)) h).
Lemma goaways_snoc h x : goaways (h ++ [x]) = goaways h ++ (if is_goaway (ConnHist.c_op x) then [k_goaway (c_post x)] else []).
Proof. unfold goaways. rewrite filter_app, map_app. cbn. destruct (is_goaway _); reflexivity. Qed.
Lemma goaway_step K c o c' rv evs : is_goaway o = true -> kstep K c o = KOk c' rv evs -> exists t s, k_tctl c = Some t /\ find_stream c t = Some s /\ k_goaway c' <= k_goaway c /\ k_queued c' = true /\
  find_stream c' t = Some (ss_t s (tx_submit (st_t s) [FGoaway (k_goaway c')] false)) /\ k_goaway c' = (match o with ONotice => notice_id K | _ => shutdown_id K c end) /\ rv = 0 /\ evs = [].
Proof.
  intros G S. destruct o; try discriminate G; cbn [kstep] in S; unfold submit_shutdown_notice, shutdown in S; apply queue_inv in S as (t & s & T & F & L & -> & -> & ->); exists t, s;
    (split; [auto|]; split; [auto|]; split; [auto|]; split; [auto|]; split; [exact (find_put_same c t s _ F)|auto]).
Qed.
Lemma last_goaway K h c : history K h c -> (k_queued c = true <-> goaways h <> []) /\ (forall g, In g (goaways h) -> k_goaway c <= g) /\ (goaways h <> [] -> k_goaway c = last (goaways h) 0) /\ Sorted (fun a b => b <= a) (goaways h).
Proof.
  revert h c. apply hist_inv; [cbn; repeat split; try constructor; try congruence; tauto|].
  intros h c o c' rv evs _ W O (A & B & L & D) S. rewrite goaways_snoc. cbn [ConnHist.c_op c_post]. destruct (is_goaway o) eqn:G.
  - destruct (goaway_step _ _ _ _ _ _ G S) as (t & s & T & F & LE & Q & _). split; [rewrite Q; split; auto; intros _ X; apply app_eq_nil in X as [_ X]; discriminate|].
    split; [intros g I; apply in_app_iff in I as [I|[<-|[]]]; [specialize (B g I)|]; lia|]. split; [intros _; rewrite last_last; reflexivity|].
    clear A L T F. revert B D. generalize (goaways h) as l. induction l as [|a l IH]; intros B D; cbn [app]; [repeat constructor|].
    inversion D as [|? ? D1 D2]; subst. constructor; [apply IH; auto; intros g I; apply B; right; auto|].
    destruct l; cbn [app]; constructor; [specialize (B a (or_introl eq_refl)); lia|inversion D2; auto].
  - destruct (step_sg _ _ _ _ _ _ W O S G) as (E1 & E2 & E3). rewrite app_nil_r, E1, E2. auto.
Qed.

Lemma pq_top_has q i : pq_top q = Ok i -> has q i.
Proof. unfold pq_top. destruct (Nat.eqb_spec (pq_len q) 0); [discriminate|]. intros [= <-]. exists 0%nat. split; [lia|auto]. Qed.
Section R.
Context (K : kenv) (id : Z) (SV : ke_server K = true) (CB : client_bidi id = true).
(* the stream, if it is there, swallows what comes *)
Definition refusing (c : conn) : Prop := k_queued c = true /\ k_goaway c <= id /\ forall s, find_stream c id = Some s -> quiet (st_x s).
Definition mute (l : list kev) : Prop := forall e, ~ In (KStream id e) l.
Lemma mute_nil : mute []. Proof. intros e []. Qed.
Lemma mute_app a b : mute a -> mute b -> mute (a ++ b).
Proof. intros A B e I. apply in_app_iff in I as [I|I]; [eapply A|eapply B]; eauto. Qed.
Lemma mute_other i evs : i <> id -> mute (map (KStream i) evs).
Proof. intros N e I. apply in_map_iff in I as (x & E & _). congruence. Qed.
Lemma mute_map i evs : (i = id -> evs = []) -> mute (map (KStream i) evs).
Proof. intros E. destruct (Z.eq_dec i id) as [->|N]; [rewrite E; auto; apply mute_nil|apply mute_other; auto]. Qed.
Lemma mute_def i n : mute (deferred i n).
Proof. unfold deferred. intros e I. destruct (n =? 0); [destruct I|destruct I as [I|[]]; discriminate]. Qed.
Lemma kst_refusing c a c' : wf K c -> kst K c a c' -> refusing c -> refusing c' /\ mute (vis a).
Proof.
  intros W H (Q & G & J).
  assert (PUT : forall i s t, find_stream c i = Some s -> (quiet (st_x s) -> quiet (st_x t)) -> forall u, find_stream (put c i t) id = Some u -> quiet (st_x u)).
  { intros i s t F P u. rewrite find_put, F. destruct (Z.eqb_spec id i) as [->|N]; [intros [= <-]; auto|auto]. }
  assert (NB : forall i s, find_stream c i = Some s -> b_blk (x_st (st_x s)) = true -> i <> id).
  { intros i s F B ->. destruct (J s F) as (_ & B' & _). congruence. }
  assert (SAME : same_goaway c c' -> (forall u, find_stream c' id = Some u -> quiet (st_x u)) -> mute (vis a) -> refusing c' /\ mute (vis a)).
  { intros (E1 & E2 & _) X M. split; auto. split; [congruence|]. split; [lia|auto]. }
  destruct (kst_goaway _ _ _ _ H) as [(g & cm & ->)|SG].
  { inversion H as [| | | | | | | | | | | | | | | | |i s g1 cm1 T F L E1 E2| | | | | | | | | | |]; subst. split; [|apply mute_nil]. split; [reflexivity|]. split; [cbn; lia|]. intros u. apply (PUT i s (ss_t s (tx_submit (st_t s) [FGoaway g] false)) F). auto. }
  apply SAME; auto; clear SAME SG.
  - destruct H; try exact J.
    + intros u. rewrite find_add by auto. destruct (Z.eqb_spec id id0) as [<-|N]; [|auto]. intros [= <-].
      assert (SB : is_server_bidi K id = true) by (unfold is_server_bidi; rewrite SV, CB; auto).
      destruct H1 as [[_ ->]|[[P _]|[[L _]|(X & _)]]].
      * cbv zeta. rewrite Q. destruct (Z.leb_spec (k_goaway c) id); [|lia]. repeat split.
      * pose proof (bidi_uni id CB); pose proof (peer_is_uni K id P); congruence.
      * pose proof (bidi_uni id CB); pose proof (local_is_uni K id L); congruence.
      * congruence.
    + intros u. rewrite (find_mid c id0 s s x id H). destruct (Z.eqb_spec id id0) as [<-|N]; [|auto]. intros [= <-]. pose proof (recv_fact false (benv_of K c s) (rx_now c s) src fin) as RF. rewrite H2 in RF.
      destruct RF as [_ RF]. apply RF. destruct (J s H) as (A1 & A2 & A3). repeat split; auto.
    + assert (N : id0 <> id). { eapply NB; eauto. destruct (proj1 (wf_blk _ _ W id0)) as (s2 & F2 & B2); [eapply pq_top_has; eauto|]. congruence. }
      intros u. rewrite (find_mid (kk_blk c q) id0 _ s x id) by exact H1. destruct (Z.eqb_spec id id0); [congruence|]. apply J.
    + assert (N : id0 <> id). { eapply NB; eauto. destruct (proj1 (wf_blk _ _ W id0)) as (s2 & F2 & B2); [eapply pq_top_has; eauto|]. congruence. }
      intros u. rewrite (find_mid (kk_blk c q) id0 _ s x id) by exact H1. destruct (Z.eqb_spec id id0); [congruence|]. apply J.
    + intros u. apply (PUT id0 s (ss_pu s true) H). auto.
    + cbv zeta. intros u. change (find_stream (add_stream K c id0 (ss_pu (new_stream id0 (rx_init id0 http_init (k_dec c))) true)) id = Some u -> quiet (st_x u)).
      rewrite find_add by auto. destruct (Z.eqb_spec id id0) as [<-|N]; [|auto]. exfalso. rewrite Q in H4. destruct (Z.leb_spec (k_goaway c) id); [discriminate|lia].
    + intros u. unfold find_stream, rem_stream. destruct (is_server_bidi K id0); cbn [k_str kk_num kk_str]; rewrite find_del_s; destruct (id =? id0); try discriminate; apply J.
    + intros u. apply (PUT id0 s (ss_u s (UNone rv')) H). auto.
    + destruct (identify_same _ _ _ _ H2) as [-> _]. intros w. apply (PUT id0 s (ss_u s u) H). auto.
    + intros u. apply (PUT id0 s (ss_t s t) H). auto.
    + intros u. apply (PUT id0 s (ss_t s (tx_submit (st_t s) [FGoaway g] false)) H0). auto.
    + change (forall u, find_stream c1 id = Some u -> quiet (st_x u)). revert H2. apply (add_ebufs_P (fun x => forall u, find_stream x id = Some u -> quiet (st_x u))).
      * intros d q sq tq e S _ Fq _ u. rewrite find_put, Fq. destruct (Z.eqb_spec id q) as [->|]; [intros [= <-]; cbn; auto|auto].
      * intros u. apply (PUT id0 s (ss_t s t) H). auto.
    + intros u. apply (PUT id0 s (ss_t s t) H). auto.
    + intros u. apply (PUT id0 s (ss_t s t) H). auto.
    + intros u. apply (PUT id0 s _ H). auto.
    + intros u. apply (PUT id0 s (if fc then ss_fc s true else ss_swr s true) H). destruct fc; auto.
    + intros u. apply (PUT id0 s (if fc then ss_fc s false else ss_t s (tx_resume (st_t s))) H). destruct fc; auto.
    + cbv zeta. intros u. apply (PUT id0 s (if b_blk (x_st (st_x (ss_code s code))) then ss_x (ss_code s code) (x_close (st_x (ss_code s code))) else ss_code s code) H). destruct (b_blk _); auto.
    + intros u. apply (PUT id0 s (ss_x s (x_shut_rd (st_x s))) H). auto.
    + intros u. apply (PUT id0 s (ss_sp s true) H). auto.
  - destruct H; cbn [vis]; try apply mute_nil; try (intros e0 [I|[]]; discriminate).
    + apply mute_map. intros ->. pose proof (recv_fact false (benv_of K c s) (rx_now c s) src fin) as RF. rewrite H2 in RF. destruct RF as [_ RF]. apply RF. destruct (J s H) as (A1 & A2 & A3). repeat split; auto.
    + assert (N : id0 <> id). { eapply NB; eauto. destruct (proj1 (wf_blk _ _ W id0)) as (s2 & F2 & B2); [eapply pq_top_has; eauto|]. congruence. }
      apply mute_app; [apply mute_other; auto|apply mute_def].
    + assert (N : id0 <> id). { eapply NB; eauto. destruct (proj1 (wf_blk _ _ W id0)) as (s2 & F2 & B2); [eapply pq_top_has; eauto|]. congruence. }
      apply mute_app; [apply mute_other; auto|apply mute_def].
    + apply mute_app; [apply mute_def|]. destruct (client_bidi id0); [intros e0 [I|[]]; discriminate|apply mute_nil].
    + intros e0 I. apply in_map_iff in I as (y & E & _). discriminate.
    + intros e0 [I|[]]. subst e. destruct H as (i & cd & [E|E]); discriminate.
Qed.
Lemma ksts_refusing c l c' : wf K c -> ksts K c l c' -> refusing c -> refusing c' /\ mute (seen l).
Proof.
  intros W S. induction S as [c|c a c1 l c' T S IH]; intros R; [split; [auto|apply mute_nil]|].
  destruct (kst_refusing c a c1 W T R) as [R1 M1]. destruct (IH (kst_wf _ _ _ _ W T) R1) as [R2 M2]. split; auto. unfold seen. cbn [map concat]. apply mute_app; auto.
Qed.
Lemma step_refusing c o c' rv evs : wf K c -> op_ok o -> kstep K c o = KOk c' rv evs -> refusing c -> refusing c' /\ mute evs.
Proof. intros W O S R. destruct (step_decomp _ _ _ _ _ _ W O S) as (acts & D & E & _). subst evs. eapply ksts_refusing; eauto. Qed.
Lemma hist_refusing h1 c1 : history K h1 c1 -> refusing c1 -> forall h c, history K h c -> forall h2, h = h1 ++ h2 -> refusing c /\ forall x, In x h2 -> mute (c_evs x).
Proof.
  intros H1 R1. induction 1 as [|h c o c' rv evs H IH O S]; intros h2 E.
  - destruct h1; [|discriminate]. cbn in E. subst h2. rewrite (hist_det K [] c1 H1 (conn_init K)) in R1 by constructor. split; [auto|intros x []].
  - destruct h2 as [|y h2 _] using rev_ind.
    + rewrite app_nil_r in E. subst h1. rewrite (hist_det K _ c1 H1 c') in R1 by (eapply h_snoc; eauto). split; [auto|intros x []].
    + rewrite app_assoc in E. apply app_inj_tail in E as [E1 E2]. subst y. destruct (IH h2 E1) as [R M]. destruct (step_refusing c o c' rv evs (h_wf _ _ _ H) O S R) as [R' M'].
      split; [auto|]. intros x I. apply in_app_iff in I as [I|[<-|[]]]; [auto|exact M'].
Qed.
End R.

(* every request stream there has been is at most the identifier the server keeps for shutdown *)
Section M.
Context (K : kenv).
Definition below (c : conn) : Prop := forall id, is_server_bidi K id = true -> find_stream c id <> None -> id <= k_maxid c.
Lemma kst_maxid c a c' : kst K c a c' -> k_maxid c <= k_maxid c'.
Proof.
  assert (MID : forall d i s x, k_maxid (mid d i s x) = k_maxid d) by (intros; unfold mid; destruct (b_blk (x_st x) && negb (b_blk (x_st (st_x s)))); reflexivity).
  assert (ADD : forall d i s, k_maxid (add_stream K d i s) = k_maxid d) by (intros; unfold add_stream; destruct (is_server_bidi K i); reflexivity).
  assert (REM : forall d i, k_maxid (rem_stream K d i) = k_maxid d) by (intros; unfold rem_stream; destruct (is_server_bidi K i); reflexivity).
  intros H. destruct H; rewrite ?ADD, ?REM, ?MID; try apply Z.le_refl; try (cbn; lia).
  - cbv zeta. match goal with |- _ <= k_maxid (kk_sch ?d _) => change (k_maxid c <= k_maxid d) end. rewrite ADD. lia.
  - destruct (identify_same _ _ _ _ H2) as [-> _]. cbn. lia.
  - assert (k_maxid c = k_maxid c1) as E; [|cbn; lia]. revert H2. apply (add_ebufs_P (fun x => k_maxid c = k_maxid x)); [|reflexivity]. intros d q sq tq e S _ _ _. exact S.
Qed.
Lemma kst_below c a c' : kst K c a c' -> below c -> below c'.
Proof.
  intros H B i SB F. pose proof (kst_maxid c a c' H) as M.
  assert (D : (exists s, a = ANew i s) \/ (exists p, a = AUpdate i p false) \/ find_stream c i <> None).
  { assert (PUT : forall j s t, find_stream c j = Some s -> find_stream (put c j t) i <> None -> find_stream c i <> None) by (intros j s t Fj; rewrite find_put; destruct (Z.eqb_spec i j) as [->|]; congruence).
    destruct H; try (right; right; exact F); try (right; right; match goal with H0 : find_stream c ?i0 = Some ?s0 |- _ => match type of F with context [put c i0 ?t0] => exact (PUT i0 s0 t0 H0 F) end end).
    - rewrite find_add in F by auto. destruct (Z.eqb_spec i id) as [->|]; [left; eauto|auto].
    - rewrite (find_mid c id s s x i) in F by auto. destruct (Z.eqb_spec i id) as [->|]; right; right; congruence.
    - rewrite (find_mid (kk_blk c q) id _ s x i) in F by exact H1. right. right. destruct (Z.eqb_spec i id) as [->|]; [congruence|exact F].
    - rewrite (find_mid (kk_blk c q) id _ s x i) in F by exact H1. right. right. destruct (Z.eqb_spec i id) as [->|]; [congruence|exact F].
    - cbv zeta in F. change (find_stream (add_stream K c id (ss_pu (new_stream id (rx_init id http_init (k_dec c))) true)) i <> None) in F. rewrite find_add in F by auto. destruct (Z.eqb_spec i id) as [->|]; [right; left; eauto|auto].
    - right. right. unfold find_stream, rem_stream in F. destruct (is_server_bidi K id); cbn [k_str kk_num kk_str] in F; rewrite find_del_s in F; destruct (i =? id); try congruence; exact F.
    - destruct (identify_same _ _ _ _ H2) as [E _]. right. right. rewrite E in F. rewrite find_put in F. destruct (Z.eqb_spec i id) as [->|]; [congruence|]. exact F.
    - right. right. change (find_stream c1 i <> None) in F. revert F. revert H2. apply (add_ebufs_P (fun x => find_stream x i <> None -> find_stream c i <> None)).
      + intros d q sq tq e S _ Fq _ N. rewrite find_put in N. apply S. destruct (Z.eqb_spec i q) as [->|]; congruence.
      + rewrite find_put. destruct (Z.eqb_spec i id) as [->|]; congruence. }
  destruct D as [(s & ->)|[(p & ->)|D]]; [| |specialize (B i SB D); lia].
  - inversion H; subst. match goal with X : is_server_bidi K i = true -> _ |- _ => specialize (X SB) end. lia.
  - inversion H; subst. lia.
Qed.
Lemma step_below c o c' rv evs : wf K c -> op_ok o -> kstep K c o = KOk c' rv evs -> below c -> below c' /\ k_maxid c <= k_maxid c'.
Proof.
  intros W O S. destruct (step_decomp _ _ _ _ _ _ W O S) as (acts & D & _). clear S. induction D as [c|c a c1 l c' T D IH]; intros B; [split; [auto|lia]|].
  pose proof (kst_maxid _ _ _ T). destruct (IH (kst_wf _ _ _ _ W T) (kst_below _ _ _ T B)). split; [auto|lia].
Qed.
Lemma hist_below h c : history K h c -> below c /\ forall x id, In x h -> is_server_bidi K id = true -> find_stream (c_post x) id <> None -> id <= k_maxid c.
Proof.
  revert h c. apply hist_inv; [split; [intros id _ F; elim F; reflexivity|intros x id []]|].
  intros h c o c' rv evs _ W O (B & L) S. destruct (step_below _ _ _ _ _ W O S B) as [B' M]. split; [auto|]. intros x id I SB F. apply in_app_iff in I as [I|[<-|[]]]; [specialize (L x id I SB F); lia|]. apply B'; auto.
Qed.
End M.
(* before shutdown nothing but notices has been announced *)
Lemma hist_notice K h c : history K h c -> ~ In OShutdown (ops_of h) -> notice_id K <= k_goaway c.
Proof.
  revert h c. apply (hist_inv K (fun h c => ~ In OShutdown (ops_of h) -> notice_id K <= k_goaway c)); [intros _; unfold notice_id; destruct (ke_server K); vm_compute; discriminate|].
  intros h c o c' rv evs _ W O IH S N. rewrite ops_snoc in N. cbn [ConnHist.c_op] in N.
  assert (NH : ~ In OShutdown (ops_of h)) by (intros I; apply N, in_app_iff; auto). specialize (IH NH).
  destruct (is_goaway o) eqn:G.
  - destruct (goaway_step _ _ _ _ _ _ G S) as (t & s & _ & _ & _ & _ & _ & E & _). destruct o; try discriminate G; [lia|]. elim N. apply in_app_iff. right. left. reflexivity.
  - destruct (step_sg _ _ _ _ _ _ W O S G) as (E & _). lia.
Qed.
(* once bound, the control stream stays *)
Lemma kst_bound K c a c' : kst K c a c' -> k_tctl c <> None -> k_tctl c' = k_tctl c.
Proof.
  assert (MID : forall d i s x, k_tctl (mid d i s x) = k_tctl d) by (intros; unfold mid; destruct (b_blk (x_st x) && negb (b_blk (x_st (st_x s)))); reflexivity).
  assert (ADD : forall d i s, k_tctl (add_stream K d i s) = k_tctl d) by (intros; unfold add_stream; destruct (is_server_bidi K i); reflexivity).
  assert (REM : forall d i, k_tctl (rem_stream K d i) = k_tctl d) by (intros; unfold rem_stream; destruct (is_server_bidi K i); reflexivity).
  intros H N. destruct H; rewrite ?ADD, ?REM, ?MID; try reflexivity.
  - cbv zeta. match goal with |- k_tctl (kk_sch ?d _) = _ => change (k_tctl d = k_tctl c) end. apply ADD.
  - destruct (identify_same _ _ _ _ H2) as [-> _]. reflexivity.
  - cbn. destruct H; congruence.
  - change (k_tctl c1 = k_tctl c). revert H2. apply (add_ebufs_P (fun x => k_tctl x = k_tctl c)); [|reflexivity]. intros d q sq tq e S _ _ _. exact S.
Qed.
Lemma step_bound K c o c' rv evs : wf K c -> op_ok o -> kstep K c o = KOk c' rv evs -> k_tctl c <> None -> k_tctl c' = k_tctl c.
Proof.
  intros W O S. destruct (step_decomp _ _ _ _ _ _ W O S) as (acts & D & _). clear S W. induction D as [c|c a c1 l c' T D IH]; intros N; auto.
  pose proof (kst_bound _ _ _ _ T N) as E. rewrite <- E. apply IH. congruence.
Qed.
Lemma hist_bound K h c t : history K h c -> In (OBindControl t) (ops_of h) -> exists id, k_tctl c = Some id.
Proof.
  intros H I. enough (k_tctl c <> None) by (destruct (k_tctl c); [eauto|congruence]). revert h c H I.
  apply (hist_inv K (fun h c => In (OBindControl t) (ops_of h) -> k_tctl c <> None)); [intros []|].
  intros h c o c' rv evs _ W O IH S. rewrite ops_snoc, in_app_iff. cbn [ConnHist.c_op]. intros [I|[->|[]]]; [rewrite (step_bound _ _ _ _ _ _ W O S); auto|].
  cbn [kstep] in S. unfold bind_control in S. destruct (negb _); [discriminate|]. destruct (k_tctl c) as [t0|] eqn:T; [injection S as <- _ _; congruence|].
  apply lift_ok in S as (S & _ & _). apply obind_ok in S as (c0 & _ & S). injection S as <-. cbn. congruence.
Qed.
