(* A stream whose reading was shut down *)
From Verif Require Import Base BaseLemmas Chunk ConvModel ConvSpec ConvProofs RdVarint QpackTabModel QpackDecModel QpackHistModel HttpModel BidiModel BidiHist BidiSpec
  ControlModel GapModel PqModel PqProofs TxModel SchedModel ConnModel ConnCtl ConnStep ConnRx ConnWf ConnDecomp ConnHist ConnRead ConnRecv ConnSched ConnUni RecvSpec CloseSpec CloseProofs CloseHist QpackIntModel QpackHistSpec QpackHistProofs ShutRdSpec MeanListen.
Open Scope Z_scope.

Lemma bidi_shut pre E x src fin : x_shut x = true -> read_bidi pre E x src fin = COk x (zlen src) (zlen src) [].
Proof. unfold read_bidi. intros ->. reflexivity. Qed.
Lemma recv_shut pre E x src fin : x_shut x = true -> exists x', recv pre E x src fin = XOk x' [] /\ x_ret x' = x_ret x + zlen src /\ x_st x' = x_st x /\ x_shut x' = true.
Proof.
  intros S. unfold recv. destruct ((zlen src =? 0) && negb fin) eqn:Z0.
  - exists x. apply andb_prop in Z0 as [Z0 _]. apply Z.eqb_eq in Z0. repeat split; auto. lia.
  - cbv zeta. rewrite bidi_shut by exact S. eexists. repeat split. exact S.
Qed.
Lemma process_shut pre E f : forall x, x_shut x = true -> match process_blocked pre f E x with XOk x' ev | XGone x' ev => ev = [] | XErr _ _ => False | XAbort => True end.
Proof.
  induction f as [|f IH]; intros x S; cbn [process_blocked]; [exact Logic.I|]. destruct (x_inq x) as [|[buf room] q] eqn:Q; [reflexivity|].
  rewrite bidi_shut by exact S. rewrite Q. cbv zeta. set (x2 := x_add x _ _ _). assert (S2 : x_shut x2 = true) by exact S. destruct (b_blk (x_st x2)); [reflexivity|]. specialize (IH x2 S2).
  destruct (process_blocked pre f E x2); cbn [x_evs]; auto.
Qed.
Lemma resume_shut pre E x : x_shut x = true -> match resume pre E x with XOk x' ev | XGone x' ev => ev = [] | XErr _ _ => False | XAbort => True end.
Proof. intros SH. unfold resume. pose proof (process_shut pre E (S (length (x_inq x))) x SH) as P. destruct (process_blocked _ _ _ _); auto. destruct (_ && _); exact P. Qed.

Section S.
Variables (K : kenv) (id : Z).
Hypothesis CB : client_bidi id = true.
Definition shx (x : rx) : Prop := x_shut x = true \/ b_blk (x_st x) = false.
Definition SQ (c : conn) : Prop := forall s, find_stream c id = Some s -> shx (st_x s).
Definition SX (c : conn) : Prop := forall s, find_stream c id = Some s -> x_shut (st_x s) = true.
Definition s_act (a : kact) : Prop := forall src fin ev, a <> ARecv id src fin ev.
Lemma SQ_put c i s t : find_stream c i = Some s -> (shx (st_x s) -> shx (st_x t)) -> SQ c -> SQ (put c i t).
Proof. intros F G L u. rewrite find_put, F. destruct (Z.eqb_spec id i) as [E|N]; [intros [= <-]; apply G; apply L; congruence|apply L]. Qed.
Lemma SQ_str c c' : k_str c' = k_str c -> SQ c -> SQ c'.
Proof. intros E L s. unfold find_stream. rewrite E. apply L. Qed.
Lemma top_blk c i s : wf K c -> pq_empty (k_blk c) = false -> pq_top (k_blk c) = Ok i -> find_stream c i = Some s -> b_blk (x_st (st_x s)) = true.
Proof.
  intros W E T F. assert (has (k_blk c) i) as Hs.
  { unfold pq_top in T. destruct (Nat.eqb (pq_len (k_blk c)) 0) eqn:L; [discriminate|]. injection T as <-. exists 0%nat. apply Nat.eqb_neq in L. split; [lia|reflexivity]. }
  apply (wf_blk K c W) in Hs as (s' & F' & B). congruence.
Qed.
Lemma kst_SQ c a c' : wf K c -> kst K c a c' -> s_act a -> SQ c -> SQ c' /\ shown id (vis a) = [].
Proof.
  intros W H Q L. assert (RES : forall i s q x evs g, pq_empty (k_blk c) = false -> pq_top (k_blk c) = Ok i -> find_stream c i = Some s ->
    resume false (benv_of K (kk_blk c q) s) (unblocked c s) = g -> g = XOk x evs \/ g = XGone x evs -> i = id -> evs = [] /\ x_shut x = true).
  { intros i s q x evs g E T F R G EI. rewrite EI in F, T. destruct (L s F) as [SH|B]; [|rewrite (top_blk c id s W E T F) in B; discriminate].
    pose proof (resume_shut false (benv_of K (kk_blk c q) s) (unblocked c s) SH) as X. pose proof (resume_fact false (benv_of K (kk_blk c q) s) (unblocked c s)) as Y. rewrite R in X, Y.
    destruct G as [-> | ->]; (split; [exact X|]); rewrite (xf_shut _ _ _ _ Y); exact SH. }
  assert (NR : forall i evs n, (i = id -> evs = []) -> shown id (map (KStream i) evs ++ deferred i n) = []).
  { intros i evs n X. rewrite shown_app, shown_deferred, app_nil_r, shown_stream. destruct (Z.eqb_spec i id); auto. }
  destruct H; try (split; [exact L|]; reflexivity).
  - split; [|reflexivity]. intros u. rewrite find_add by auto. destruct (Z.eqb_spec id id0) as [<-|N]; [intros [= <-]|apply L].
    right. destruct H1 as [[_ ->]|[[_ ->]|[(_ & _ & u0 & _ & ->)|(_ & _ & _ & nva & ->)]]]; cbv zeta; try destruct (_ && _); reflexivity.
  - assert (NE : id <> id0) by (intros NN; apply (Q src fin evs); congruence). split.
    + intros u. rewrite (find_mid c id0 s s x id H). destruct (Z.eqb_spec id id0) as [|_]; [contradiction|apply L].
    + cbn [vis]. rewrite shown_stream. destruct (Z.eqb_spec id0 id); [congruence|reflexivity].
  - split; [|apply NR; intros E; exact (proj1 (RES _ _ _ _ _ _ H H0 H1 H4 (or_introl eq_refl) E))].
    intros u. rewrite (find_mid (kk_blk c q) id0 _ s x id) by exact H1. destruct (Z.eqb_spec id id0) as [E|N]; [|apply L]. intros [= <-]. left. exact (proj2 (RES _ _ _ _ _ _ H H0 H1 H4 (or_introl eq_refl) (eq_sym E))).
  - split; [|apply NR; intros E; exact (proj1 (RES _ _ _ _ _ _ H H0 H1 H4 (or_intror eq_refl) E))].
    intros u. rewrite (find_mid (kk_blk c q) id0 _ s x id) by exact H1. destruct (Z.eqb_spec id id0) as [E|N]; [|apply L]. intros [= <-]. left. exact (proj2 (RES _ _ _ _ _ _ H H0 H1 H4 (or_intror eq_refl) (eq_sym E))).
  - split; [|reflexivity]. apply (SQ_put c id0 s (ss_pu s true)); auto.
  - split; [|reflexivity]. cbv zeta. eapply SQ_str with (c := add_stream K c id0 _); [reflexivity|]. intros u. rewrite find_add by auto. destruct (Z.eqb_spec id id0) as [<-|N]; [intros [= <-]|apply L]. right. reflexivity.
  - split; [|cbn [vis]; rewrite shown_app, shown_deferred, shown_closed; reflexivity]. intros u. rewrite find_rem. destruct (id =? id0); [discriminate|apply L].
  - split; [|reflexivity]. eapply SQ_put; eauto.
  - split; [|reflexivity]. assert (k_str c1 = k_str c) as X by (unfold identify in H2; repeat match type of H2 with context [if ?b then _ else _] => destruct b end; try discriminate; injection H2 as <- _; reflexivity).
    apply (SQ_put c1 id0 s); auto; [unfold find_stream in *; rewrite X; exact H|]. eapply SQ_str; eauto.
  - split; [|reflexivity]. eapply SQ_put; eauto.
  - split; [|reflexivity]. eapply SQ_str with (c := put c id0 _); [reflexivity|]. eapply SQ_put; eauto.
  - split; [|reflexivity]. eapply SQ_str with (c := c1); [reflexivity|]. revert H2. apply (add_ebufs_P SQ).
    + intros d q sq tq e SS _ Fq _. eapply SQ_put; eauto.
    + eapply SQ_put; eauto.
  - split; [|reflexivity]. eapply SQ_str with (c := put c id0 _); [reflexivity|]. eapply SQ_put; eauto.
  - split; [eapply SQ_put; eauto|]. cbn [vis]. clear. unfold shown. induction calls; auto.
  - split; [|reflexivity]. eapply SQ_str with (c := put c id0 _); [reflexivity|]. eapply SQ_put; eauto.
  - split; [|reflexivity]. eapply SQ_str with (c := put c id0 _); [reflexivity|]. eapply SQ_put; eauto. destruct fc; auto.
  - split; [|reflexivity]. eapply SQ_str with (c := put c id0 _); [reflexivity|]. eapply SQ_put; eauto. destruct fc; auto.
  - split; [|reflexivity]. cbv zeta. eapply SQ_str with (c := put c id0 _); [reflexivity|]. eapply SQ_put; eauto. unfold shx. destruct (b_blk _) eqn:B; cbn; rewrite ?B; auto.
  - split; [|reflexivity]. eapply SQ_str with (c := put c id0 _); [reflexivity|]. eapply SQ_put; eauto. left. reflexivity.
  - split; [|reflexivity]. eapply SQ_str with (c := put c id0 _); [reflexivity|]. eapply SQ_put; eauto.
  - split; [exact L|]. destruct H as (i & code & [-> | ->]); reflexivity.
Qed.
End S.
Section H.
Variables (K : kenv) (id : Z).
Hypothesis CB : client_bidi id = true.
Definition SO (c : conn) : Prop := exists s, find_stream c id = Some s /\ x_shut (st_x s) = true.
Lemma SO_put c i s t d : find_stream c i = Some s -> (forall y, find_stream d y = find_stream (put c i t) y) -> (x_shut (st_x s) = true -> x_shut (st_x t) = true) -> SO c -> SO d.
Proof. intros F E G (u & Fu & U). unfold SO. rewrite E, find_put, F. destruct (Z.eqb_spec id i) as [<-|N]; [|eauto]. exists t. split; [reflexivity|]. apply G. congruence. Qed.
Lemma SO_same c d : (forall y, find_stream d y = find_stream c y) -> SO c -> SO d.
Proof. intros E (s & F & X). exists s. rewrite E. auto. Qed.
Lemma SO_add c i s d : find_stream c i = None -> (forall y, find_stream d y = find_stream (add_stream K c i s) y) -> SO c -> SO d.
Proof. intros F E (u & Fu & U). exists u. rewrite E, find_add by exact F. destruct (Z.eqb_spec id i) as [<-|N]; [congruence|auto]. Qed.
Lemma kst_SO c a c' : kst K c a c' -> (forall n code, a <> ADel id n code) -> SO c -> SO c'.
Proof.
  intros H ND L.
  assert (MID : forall c0 s s0 x i, (forall y, find_stream c0 y = find_stream c y) -> find_stream c i = Some s0 -> (x_shut (st_x s0) = true -> x_shut x = true) -> SO (mid c0 i s x)).
  { intros c0 s s0 x i E F U. eapply (SO_put c i s0 (ss_x s x)); [exact F| |exact U|exact L]. intros y. rewrite (find_mid c0 i s s0) by (rewrite E; exact F). rewrite find_put, F, E. reflexivity. }
  destruct H; try exact L.
  - eapply SO_add; eauto.
  - eapply MID; [reflexivity|exact H|]. pose proof (recv_fact false (benv_of K c s) (rx_now c s) src fin) as R. rewrite H2 in R. destruct R as [R _]. rewrite (xf_shut _ _ _ _ R). auto.
  - eapply MID; [reflexivity|exact H1|]. pose proof (resume_fact false (benv_of K (kk_blk c q) s) (unblocked c s)) as R. rewrite H4 in R. rewrite (xf_shut _ _ _ _ R). auto.
  - eapply MID; [reflexivity|exact H1|]. pose proof (resume_fact false (benv_of K (kk_blk c q) s) (unblocked c s)) as R. rewrite H4 in R. rewrite (xf_shut _ _ _ _ R). auto.
  - eapply (SO_put c id0 s (ss_pu s true)); [exact H|reflexivity|auto|exact L].
  - eapply (SO_add c id0); [exact H|reflexivity|exact L].
  - destruct L as (u & Fu & U). exists u. rewrite find_rem. destruct (Z.eqb_spec id id0) as [->|N]; [exfalso; eapply ND; reflexivity|auto].
  - eapply (SO_put c id0 s); [exact H|reflexivity|auto|exact L].
  - destruct (identify_same _ _ _ _ H2) as [E _]. eapply (SO_put c id0 s (ss_u s u)); [exact H| |auto|exact L]. intros y. unfold find_stream, put. cbn. rewrite E. reflexivity.
  - eapply (SO_put c id0 s); [exact H|reflexivity|auto|exact L].
  - eapply (SO_put c id0 s); [exact H0|reflexivity|auto|exact L].
  - eapply SO_same with (c := c1); [reflexivity|]. revert H2. apply (add_ebufs_P SO).
    + intros d q sq tq e SS _ Fq _. eapply SO_put; [exact Fq|reflexivity|auto|exact SS].
    + eapply SO_put; [exact H|reflexivity|auto|exact L].
  - eapply (SO_put c id0 s); [exact H|reflexivity|auto|exact L].
  - eapply (SO_put c id0 s); [exact H|reflexivity|auto|exact L].
  - eapply (SO_put c id0 s); [exact H|reflexivity|auto|exact L].
  - eapply (SO_put c id0 s); [exact H|reflexivity|destruct fc; auto|exact L].
  - eapply (SO_put c id0 s); [exact H|reflexivity|destruct fc; auto|exact L].
  - eapply (SO_put c id0 s); [exact H|reflexivity|cbv zeta; destruct (b_blk _); auto|exact L].
  - eapply (SO_put c id0 s); [exact H|reflexivity|auto|exact L].
  - eapply (SO_put c id0 s); [exact H|reflexivity|auto|exact L].
Qed.
Lemma step_SO c o c' rv evs : wf K c -> op_ok o -> kstep K c o = KOk c' rv evs -> close_codes id evs = [] -> SO c -> SO c'.
Proof.
  intros W O S E. destruct (step_decomp _ _ _ _ _ _ W O S) as (acts & DD & SE & _ & _). rewrite <- SE in E. clear S W SE evs O.
  induction DD as [c|c a c1 l c' T DD IH]; [auto|]. change (seen (a :: l)) with (vis a ++ seen l) in E. rewrite codes_app in E. apply app_eq_nil in E as [E1 E2].
  intros L. apply (IH E2). eapply kst_SO; [exact T|exact (codes_vis id a CB E1)|exact L].
Qed.
Lemma shut_sets c c' rv evs : shutdown_read c id = KOk c' rv evs -> find_stream c id <> None -> SO c'.
Proof.
  unfold shutdown_read. destruct (negb (id_ok id)); [discriminate|]. rewrite CB. cbn [negb]. destruct (find_stream c id) as [s|] eqn:F; [|congruence]. intros H _. cbv zeta in H.
  destruct (x_shut (st_x s)) eqn:X; [injection H as <- _ _; exists s; auto|]. destruct (dec_cancel_stream _ _) as [d| |]; try discriminate. injection H as <- _ _.
  exists (ss_x s (x_shut_rd (st_x s))). split; [|reflexivity]. change (find_stream (put c id (ss_x s (x_shut_rd (st_x s)))) id = Some (ss_x s (x_shut_rd (st_x s)))). rewrite find_put, F, Z.eqb_refl. reflexivity.
Qed.
Lemma shut_opens c c' rv evs i : shutdown_read c i = KOk c' rv evs -> is_open c' id = is_open c id.
Proof.
  unfold shutdown_read. destruct (negb (id_ok i)); [discriminate|]. destruct (negb (client_bidi i)); [intros [= <- _ _]; reflexivity|]. cbv zeta. destruct (find_stream c i) as [s|] eqn:F.
  - destruct (x_shut (st_x s)); [intros [= <- _ _]; reflexivity|]. destruct (dec_cancel_stream _ _); try discriminate. intros [= <- _ _]. unfold is_open.
    match goal with |- context [find_stream (kk_dec ?a ?b) id] => change (find_stream (kk_dec a b) id) with (find_stream a id) end. rewrite find_put, F. destruct (Z.eqb_spec id i) as [->|N]; [rewrite F|]; reflexivity.
  - destruct (dec_cancel_stream _ _); try discriminate. intros [= <- _ _]. reflexivity.
Qed.
Lemma hist_SO h c : history K h c -> shut_read id h -> SO c.
Proof.
  revert h c. apply (hist_inv K (fun h c => shut_read id h -> SO c)); [intros (x & [] & _)|].
  intros h c o c' rv evs H W O IH S (x & I & X). rewrite life_snoc in I. cbn [c_post] in I. destruct (is_open c' id) eqn:OP'; [|destruct I]. apply in_app_iff in I as [I|[<-|[]]].
  - assert (SO c) as L by (apply IH; exists x; auto). eapply step_SO; eauto. eapply (close_only K); eauto.
  - cbn [ConnHist.c_op] in X. subst o. cbn [kstep] in S. eapply shut_sets; eauto. rewrite (shut_opens _ _ _ _ _ S) in OP'. unfold is_open in OP'. destruct (find_stream c id); [discriminate|discriminate OP'].
Qed.
(* a whole call *)
Lemma acts_silent c l c' : wf K c -> ksts K c l c' -> Forall (s_act id) l -> SQ id c -> shown id (seen l) = [].
Proof.
  intros W H. induction H as [c|c a c1 l c' T H IH]; intros F L; [reflexivity|]. inversion F as [|? ? A F']; subst. destruct (kst_SQ K id CB c a c1 W T A L) as [L1 E1].
  change (seen (a :: l)) with (vis a ++ seen l). rewrite shown_app, E1. cbn [app]. apply IH; auto. eapply kst_wf; eauto.
Qed.
Lemma step_silent c o c' rv evs : wf K c -> op_ok o -> kstep K c o = KOk c' rv evs -> SO c -> shown id evs = [] /\ forall src fin, o = ORead id src fin -> rv = zlen src /\ evs = [].
Proof.
  intros W O S (s0 & F0 & X0). assert (OT : (forall src fin, o <> ORead id src fin) -> shown id evs = []).
  { intros NR. destruct (step_decomp K c o c' rv evs W O S) as (acts & D1 & D2 & D3 & _). rewrite <- D2. eapply acts_silent; [exact W|exact D1| |].
    - rewrite Forall_forall in *. intros a Ha src fin ev ->. specialize (D3 _ Ha). exact (NR _ _ D3).
    - intros s F. left. congruence. }
  destruct o; try (split; [apply OT|]; intros; discriminate). destruct (Z.eq_dec id0 id) as [->|N]; [|split; [apply OT; intros src0 fin0 X|intros src0 fin0 X]; congruence]. clear OT.
  enough (rv = zlen src /\ evs = []) as [-> ->] by (split; [reflexivity|intros ? ? [= -> _]; auto]).
  cbn [kstep] in S. apply read_cases in S as [RG S].
  assert (OPEN : forall c1 s pre, opened K c id c1 s pre -> s = s0 /\ pre = [] /\ c1 = c).
  { intros c1 s pre OP. destruct OP as [s F _|r g s F SB _ ->|F P]; [split; [congruence|auto]|congruence|congruence]. }
  destruct S as [F _ -> ->|c1 s pre OP -> ->|c1 s pre c' rv evs OP Z0 _ R|c1 s c' rv evs OP PU NE R].
  - congruence.
  - destruct (OPEN _ _ _ OP) as (_ & -> & _). split; reflexivity.
  - destruct (OPEN _ _ _ OP) as (E1 & E2 & E3). rewrite E2. unfold read_request_stream in R. cbv zeta in R.
    assert (XS : x_shut (rx_now c1 s) = true) by (rewrite E1; exact X0). destruct (recv_shut false (benv_of K c1 s) (rx_now c1 s) src fin XS) as (x1 & RE1 & R1 & _). rewrite RE1 in R.
    destruct (after_read _ _ _ _ _) as [c2| |]; try discriminate. assert (EQ : x_ret x1 - x_ret (rx_now c1 s) = zlen src) by (rewrite R1; ring). assert (evs = []) as -> by (cbn [map] in R; congruence). split; [congruence|reflexivity].
  - exfalso. pose proof (bidi_uni id CB); pose proof (peer_is_uni K id PU); congruence.
Qed.
End H.
Definition is_shutrd (id : Z) (o : cop) : bool := match o with OShutRead i => i =? id | _ => false end.
Lemma is_shutrd_ok id o : is_shutrd id o = true <-> o = OShutRead id.
Proof. destruct o; cbn; split; try discriminate. - intros E. apply Z.eqb_eq in E. congruence. - intros [= ->]. apply Z.eqb_refl. Qed.
Definition shut_readb (id : Z) (h : list kcall) : bool := existsb (fun x => is_shutrd id (ConnHist.c_op x)) (life id h).
Lemma shut_readb_ok id h : shut_readb id h = true <-> shut_read id h.
Proof. unfold shut_readb, shut_read. rewrite existsb_exists. split; intros (x & I & X); exists x; (split; [exact I|]); apply is_shutrd_ok; exact X. Qed.
Section H2.
Variables (K : kenv) (id : Z).
Hypothesis CB : client_bidi id = true.
Lemma life_silent_aux h c : history K h c -> forall a x b, life id h = a ++ x :: b -> ConnHist.c_op x = OShutRead id -> all_shown id b = [].
Proof.
  revert h c. apply (hist_inv K (fun h c => forall a x b, life id h = a ++ x :: b -> ConnHist.c_op x = OShutRead id -> all_shown id b = [])).
  - intros a x b E. destruct a; discriminate E.
  - intros h c o c' rv evs H W O IH S a x b E X. rewrite life_snoc in E. destruct (is_open _ id); [|destruct a; discriminate E].
    destruct (rev b) as [|y b'] eqn:R; [apply (f_equal (@rev _)) in R; rewrite rev_involutive in R; subst b; reflexivity|].
    apply (f_equal (@rev _)) in R. rewrite rev_involutive in R. cbn [rev] in R. subst b. rewrite app_comm_cons, app_assoc in E. apply app_inj_tail in E as [E <-].
    assert (shut_read id h) as SH by (exists x; split; [rewrite E; apply in_app_iff; right; left; reflexivity|exact X]).
    unfold all_shown. rewrite map_app, concat_app. fold (all_shown id (rev b')). rewrite (IH a x (rev b') E X). cbn [map concat c_evs app]. rewrite app_nil_r.
    exact (proj1 (step_silent K id CB c o c' rv evs W O S (hist_SO K id CB h c H SH))).
Qed.
Lemma shut_twice h c : history K h c -> shut_read id h -> 0 <= id <= max_varint -> kstep K c (OShutRead id) = KOk c 0 [].
Proof.
  intros H SH R. destruct (hist_SO K id CB h c H SH) as (s & F & X). cbn [kstep]. unfold shutdown_read. replace (id_ok id) with true by (symmetry; unfold id_ok; lia). rewrite CB, F, X. reflexivity.
Qed.
(* not shut down unless asked *)
Definition SN (c : conn) : Prop := forall s, find_stream c id = Some s -> x_shut (st_x s) = false.
Lemma SN_put c i s t : find_stream c i = Some s -> (x_shut (st_x s) = false -> x_shut (st_x t) = false) -> SN c -> SN (put c i t).
Proof. intros F G L u. rewrite find_put, F. destruct (Z.eqb_spec id i) as [E|N]; [intros [= <-]; apply G; apply L; congruence|apply L]. Qed.
Lemma SN_str c c' : k_str c' = k_str c -> SN c -> SN c'.
Proof. intros E L s. unfold find_stream. rewrite E. apply L. Qed.
Lemma kst_SN c a c' : kst K c a c' -> a <> AShut id -> SN c -> SN c'.
Proof.
  intros H Q L. destruct H; try exact L.
  - intros u. rewrite find_add by auto. destruct (Z.eqb_spec id id0) as [<-|N]; [intros [= <-]|apply L].
    destruct H1 as [[_ ->]|[[_ ->]|[(_ & _ & u0 & _ & ->)|(_ & _ & _ & nva & ->)]]]; cbv zeta; try destruct (_ && _); reflexivity.
  - intros u. rewrite (find_mid c id0 s s x id H). destruct (Z.eqb_spec id id0) as [<-|N]; [|apply L]. intros [= <-]. pose proof (recv_fact false (benv_of K c s) (rx_now c s) src fin) as R. rewrite H2 in R. destruct R as [R _].
    cbn. rewrite (xf_shut _ _ _ _ R). exact (L s H).
  - intros u. rewrite (find_mid (kk_blk c q) id0 _ s x id) by exact H1. destruct (Z.eqb_spec id id0) as [<-|N]; [|apply L]. intros [= <-]. pose proof (resume_fact false (benv_of K (kk_blk c q) s) (unblocked c s)) as R. rewrite H4 in R.
    cbn. rewrite (xf_shut _ _ _ _ R). exact (L s H1).
  - intros u. rewrite (find_mid (kk_blk c q) id0 _ s x id) by exact H1. destruct (Z.eqb_spec id id0) as [<-|N]; [|apply L]. intros [= <-]. pose proof (resume_fact false (benv_of K (kk_blk c q) s) (unblocked c s)) as R. rewrite H4 in R.
    cbn. rewrite (xf_shut _ _ _ _ R). exact (L s H1).
  - apply (SN_put c id0 s (ss_pu s true)); auto.
  - cbv zeta. eapply SN_str with (c := add_stream K c id0 _); [reflexivity|]. intros u. rewrite find_add by auto. destruct (Z.eqb_spec id id0) as [<-|N]; [intros [= <-]|apply L]. reflexivity.
  - intros u. rewrite find_rem. destruct (id =? id0); [discriminate|apply L].
  - eapply SN_put; eauto.
  - destruct (identify_same _ _ _ _ H2) as [E _]. apply (SN_put c1 id0 s); auto; [unfold find_stream in *; rewrite E; exact H|]. eapply (SN_str c c1); [rewrite E; reflexivity|exact L].
  - eapply SN_put; eauto.
  - eapply SN_str with (c := put c id0 _); [reflexivity|]. eapply SN_put; eauto.
  - eapply SN_str with (c := c1); [reflexivity|]. revert H2. apply (add_ebufs_P SN).
    + intros d q sq tq e SS _ Fq _. eapply SN_put; eauto.
    + eapply SN_put; eauto.
  - eapply SN_str with (c := put c id0 _); [reflexivity|]. eapply SN_put; eauto.
  - eapply SN_put; eauto.
  - eapply SN_str with (c := put c id0 _); [reflexivity|]. eapply SN_put; eauto.
  - eapply SN_str with (c := put c id0 _); [reflexivity|]. eapply SN_put; eauto. destruct fc; auto.
  - eapply SN_str with (c := put c id0 _); [reflexivity|]. eapply SN_put; eauto. destruct fc; auto.
  - cbv zeta. eapply SN_str with (c := put c id0 _); [reflexivity|]. eapply SN_put; eauto. destruct (b_blk _); auto.
  - eapply SN_str with (c := put c id0 _); [reflexivity|]. assert (id <> id0) by congruence. intros u. rewrite find_put. destruct (Z.eqb_spec id id0); [contradiction|apply L].
  - eapply SN_str with (c := put c id0 _); [reflexivity|]. eapply SN_put; eauto.
Qed.
Lemma hist_SN h c : history K h c -> ~ shut_read id h -> SN c.
Proof.
  revert h c. apply (hist_inv K (fun h c => ~ shut_read id h -> SN c)); [intros _ s F; discriminate F|].
  intros h c o c' rv evs H W O IH S NS. unfold SN. destruct (find_stream c' id) as [s'|] eqn:F'; [|intros s X; discriminate X]. rewrite <- F'. fold (SN c').
  assert (OP : is_open (c_post (mk_call o rv evs c')) id = true) by (unfold is_open; cbn [c_post]; rewrite F'; reflexivity).
  destruct (step_decomp K c o c' rv evs W O S) as (acts & D1 & _ & D3 & _). eapply (ksts_inv K SN (fun a => a <> AShut id)); [intros; eapply kst_SN; eauto|exact D1| |].
  - rewrite Forall_forall in *. intros a Ha ->. specialize (D3 _ Ha). cbn in D3. apply NS. exists (mk_call o rv evs c'). rewrite life_snoc, OP. split; [apply in_app_iff; right; left; reflexivity|exact D3].
  - apply IH. intros (x & I & X). apply NS. exists x. rewrite life_snoc, OP. split; [apply in_app_iff; auto|exact X].
Qed.
Lemma shut_cancels h c c' rv evs : history K h c -> ~ shut_read id h -> kstep K c (OShutRead id) = KOk c' rv evs ->
  rv = 0 /\ evs = [] /\ exists l, rfc_dstream l [ICancel id] /\ d_dbuf (k_dec c') = d_dbuf (k_dec c) ++ l.
Proof.
  intros H NS. cbn [kstep]. unfold shutdown_read. destruct (negb (id_ok id)) eqn:IO; [discriminate|]. rewrite CB. cbn [negb]. cbv zeta. apply negb_false_iff in IO. unfold id_ok in IO.
  assert (GO : forall d d', k_dec d = k_dec c -> match dec_cancel_stream (k_dec d) id with Ok e => KOk (kk_dec d e) 0 [] | Err e => KDead e [] | Abort => KAbort end = KOk d' rv evs ->
    rv = 0 /\ evs = [] /\ exists l, rfc_dstream l [ICancel id] /\ d_dbuf (k_dec d') = d_dbuf (k_dec c) ++ l).
  { intros d d' E. rewrite E. unfold dec_cancel_stream. destruct (_ || _); [discriminate|]. destruct (dbuf_overflow _); [discriminate|]. intros [= <- <- <-]. split; [reflexivity|split; [reflexivity|]].
    exists (q_put_varint 64 id 6). split; [|reflexivity]. apply put_dinstr; [auto|]. unfold max_varint in IO. lia. }
  destruct (find_stream c id) as [s|] eqn:F.
  - rewrite (hist_SN h c H NS s F). apply GO. reflexivity.
  - apply GO. reflexivity.
Qed.
Lemma shut_reads c src fin : SO id c -> 0 <= id <= max_varint -> exists c', kstep K c (ORead id src fin) = KOk c' (zlen src) [].
Proof.
  intros (s & F & X) R. cbn [kstep]. unfold read_stream. rewrite F, CB. cbn [orb]. replace ((id <? 0) || (max_varint <? id)) with false by lia.
  unfold read_existing. destruct ((zlen src =? 0) && negb fin) eqn:Z0; [apply andb_prop in Z0 as [Z0 _]; apply Z.eqb_eq in Z0; rewrite Z0; eauto|].
  rewrite (bidi_uni id CB). unfold read_request_stream. cbv zeta. destruct (recv_shut false (benv_of K c s) (rx_now c s) src fin X) as (x1 & RE1 & R1 & _). rewrite RE1.
  unfold after_read, prios. cbn [map concat apply_prios]. rewrite R1. replace (x_ret (rx_now c s) + zlen src - x_ret (rx_now c s)) with (zlen src) by ring. eauto.
Qed.
End H2.
