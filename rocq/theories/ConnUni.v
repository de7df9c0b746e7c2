(* The peer's unidirectional streams along a history: which bytes were received, which type they carry, and that there
   is at most one control, encoder and decoder stream (C28) *)
From Verif Require Import Base BaseLemmas ConvModel ConvProofs RdVarint QpackTabModel QpackDecModel HttpModel BidiModel BidiHist ControlModel GapModel PqModel TxModel SchedModel ConnModel ConnStep ConnCtl ConnWf ConnDecomp ConnHist ConnRead.
Open Scope Z_scope.

(* the bytes a stream brought since it was opened *)
Definition heard1 (id : Z) (x : kcall) : list Z := match ConnHist.c_op x with ORead i src _ => if i =? id then src else [] | _ => [] end.
Definition heard (id : Z) (h : list kcall) : list Z := concat (map (heard1 id) (life id h)).
Lemma heard_snoc id h x : heard id (h ++ [x]) = if is_open (c_post x) id then heard id h ++ heard1 id x else [].
Proof. unfold heard. rewrite life_snoc. destruct (is_open (c_post x) id); [|reflexivity]. rewrite map_app, concat_app. cbn. rewrite app_nil_r. reflexivity. Qed.
Lemma heard_closed K h c id : history K h c -> find_stream c id = None -> heard id h = [].
Proof. intros H F. unfold heard. rewrite (life_closed _ _ _ _ H F). reflexivity. Qed.
Definition kind_u (v : Z) : utype := if v =? 0 then UCtl else if v =? 2 then UEnc else if v =? 3 then UDec else UUnk.
Definition flag (c : conn) (u : utype) : bool := match u with UCtl => k_copen c | UEnc => k_eopen c | UDec => k_dopen c | _ => false end.
Lemma critical_dec u : critical u \/ ~ critical u.
Proof. unfold critical. destruct u; auto; right; intros [A|[A|A]]; discriminate. Qed.

Section U.
Variable K : kenv.
Record sameU (c c' : conn) : Prop := mk_su {
  su_fwd : forall id t, peer_uni K id = true -> find_stream c' id = Some t -> exists s, find_stream c id = Some s /\ st_u t = st_u s;
  su_bwd : forall id s, peer_uni K id = true -> find_stream c id = Some s -> critical (st_u s) -> exists t, find_stream c' id = Some t /\ st_u t = st_u s;
  su_flag : forall u, flag c' u = flag c u }.
Lemma su_refl c : sameU c c. Proof. split; eauto. Qed.
Lemma su_trans a b c : sameU a b -> sameU b c -> sameU a c.
Proof.
  intros [F1 B1 G1] [F2 B2 G2]. split.
  - intros id t P F. destruct (F2 id t P F) as (s & Fs & E). destruct (F1 id s P Fs) as (r & Fr & E'). exists r. split; congruence.
  - intros id s P F C. destruct (B1 id s P F C) as (t & Ft & E). rewrite <- E in C. destruct (B2 id t P Ft C) as (r & Fr & E'). exists r. split; congruence.
  - intros u. rewrite G2. auto.
Qed.
Lemma su_put c id s s' : find_stream c id = Some s -> st_u s' = st_u s -> sameU c (put c id s').
Proof.
  intros F E. split.
  - intros j t P. rewrite find_put, F. destruct (Z.eqb_spec j id) as [->|N]; [intros [= <-]; eauto|eauto].
  - intros j t P Fj C. rewrite find_put, F. destruct (Z.eqb_spec j id) as [->|N]; [exists s'; split; congruence|eauto].
  - intros u. destruct u; reflexivity.
Qed.
Lemma su_str c c' : k_str c' = k_str c -> k_copen c' = k_copen c -> k_eopen c' = k_eopen c -> k_dopen c' = k_dopen c -> sameU c c'.
Proof.
  intros E A B D. split; [unfold find_stream; rewrite E; eauto|unfold find_stream; rewrite E; eauto|]. intros u. destruct u; cbn; auto.
Qed.
Lemma su_add c id s : find_stream c id = None -> peer_uni K id = false -> sameU c (add_stream K c id s).
Proof.
  intros F P. split.
  - intros j t Pj. rewrite find_add by auto. destruct (Z.eqb_spec j id) as [->|N]; [congruence|eauto].
  - intros j t Pj Fj C. rewrite find_add by auto. destruct (Z.eqb_spec j id) as [->|N]; [congruence|eauto].
  - intros u. unfold add_stream. destruct (is_server_bidi K id), u; reflexivity.
Qed.
Lemma su_rem c id s : find_stream c id = Some s -> (peer_uni K id = true -> ~ critical (st_u s)) -> sameU c (rem_stream K c id).
Proof.
  intros F P. assert (E : forall j, find_stream (rem_stream K c id) j = if j =? id then None else find_stream c j).
  { intros j. unfold rem_stream, find_stream. destruct (is_server_bidi K id); cbn [k_str kk_str kk_num]; apply find_del_s. }
  split.
  - intros j t Pj. rewrite E. destruct (Z.eqb_spec j id) as [->|N]; [discriminate|eauto].
  - intros j t Pj Fj C. rewrite E. destruct (Z.eqb_spec j id) as [->|N]; [|eauto]. exfalso. rewrite F in Fj. injection Fj as <-. exact (P Pj C).
  - intros u. unfold rem_stream. destruct (is_server_bidi K id), u; reflexivity.
Qed.
Lemma su_sch c v : sameU c (kk_sch c v). Proof. apply su_str; reflexivity. Qed.
Lemma su_mid c id s s0 x : find_stream c id = Some s0 -> st_u s = st_u s0 -> sameU c (mid c id s x).
Proof.
  intros F E. unfold mid. cbv zeta. eapply su_trans; [eapply (su_put c id s0 (ss_x s x) F); exact E|]. destruct (_ && _); apply su_str; reflexivity.
Qed.
Lemma kst_U c a c' : kst K c a c' -> (forall id s, a = ANew id s -> peer_uni K id = false) -> (forall id u, a <> AType id u) -> sameU c c'.
Proof.
  intros H N T. destruct H; try (apply su_refl).
  - apply su_add; auto. eapply N; reflexivity.
  - eapply su_mid; eauto.
  - eapply su_trans; [|eapply su_mid; [exact H1|reflexivity]]. apply su_str; reflexivity.
  - eapply su_trans; [|eapply su_mid; [exact H1|reflexivity]]. apply su_str; reflexivity.
  - apply su_sch.
  - eapply su_trans; [eapply (su_put c id s (ss_pu s true)); eauto|apply su_sch].
  - cbv zeta. eapply su_trans; [|apply su_sch]. apply su_add; auto. destruct (peer_uni K id) eqn:P; auto. exfalso. pose proof (bidi_uni id H0); pose proof (peer_is_uni K id P); congruence.
  - apply su_str; reflexivity.
  - eapply su_rem; eauto. intros P. destruct H1 as [C|[U|(_ & rv & U)]]; [exfalso; pose proof (bidi_uni id C); pose proof (peer_is_uni K id P); congruence| |]; rewrite U; intros [A|[A|A]]; discriminate.
  - elim (T id (UNone rv')). reflexivity.
  - elim (T id u). reflexivity.
  - apply su_str; reflexivity.
  - apply su_str; reflexivity.
  - apply su_str; reflexivity.
  - eapply su_put; eauto.
  - eapply su_trans; [eapply (su_put c id s (ss_t s (tx_submit (st_t s) [FGoaway g] false))); eauto|apply su_str; reflexivity].
  - assert (S : sameU c c1).
    { revert H2. apply (add_ebufs_P (fun x => sameU c x)).
      - intros d q sq tq e S _ Fq _. eapply su_trans; [exact S|]. eapply su_put; eauto.
      - eapply su_put; eauto. }
    eapply su_trans; [exact S|apply su_sch].
  - eapply su_trans; [eapply (su_put c id s (ss_t s t)); eauto|apply su_sch].
  - eapply su_put; eauto.
  - eapply su_trans; [|apply su_sch]. eapply su_put; eauto.
  - eapply su_trans; [|apply su_sch]. eapply su_put; eauto. destruct fc; reflexivity.
  - eapply su_trans; [|apply su_sch]. eapply su_put; eauto. destruct fc; reflexivity.
  - cbv zeta. eapply su_trans; [|apply su_sch]. eapply su_put; eauto. destruct (b_blk _); reflexivity.
  - eapply su_trans; [eapply (su_put c id s (ss_x s (x_shut_rd (st_x s)))); eauto|apply su_str; reflexivity].
  - eapply su_trans; [eapply (su_put c id s (ss_sp s true)); eauto|apply su_sch].
Qed.
(* a call that is not a read of a peer's unidirectional stream *)
Definition other_op (o : cop) : Prop := match o with ORead id _ _ => peer_uni K id = false | _ => True end.
Lemma peer_local id : peer_uni K id = true -> local_uni K id = true -> False.
Proof. unfold peer_uni, local_uni. destruct (ke_server K); unfold client_uni, server_uni, local_uni; intros A B; rewrite Z.eqb_eq in *; congruence. Qed.
Lemma step_new_id c o c' rv evs id s : kstep K c o = KOk c' rv evs -> other_op o -> allowed K o (ANew id s) -> peer_uni K id = false.
Proof.
  intros S O A. destruct (peer_uni K id) eqn:P; auto. exfalso. destruct A as [(src & fin & ->)|[(nva & dr & ->)|[->|(a & b & -> & AB)]]]; cbn [kstep] in S.
  - cbn [other_op] in O. congruence.
  - unfold submit_request in S. destruct (ke_server K || _) eqn:G; [discriminate|]. apply orb_false_iff in G as [_ G]. apply negb_false_iff, andb_true_iff in G as [_ G].
    pose proof (bidi_uni id G); pose proof (peer_is_uni K id P); congruence.
  - unfold bind_control in S. destruct (negb _) eqn:NG; [discriminate|]. apply negb_false_iff, andb_true_iff in NG as [_ LU]. exact (peer_local id P LU).
  - unfold bind_qpack in S. destruct (negb _) eqn:NG; [discriminate|]. apply negb_false_iff in NG. rewrite !andb_true_iff in NG. destruct NG as [[_ L1] L2].
    destruct AB as [->| ->]; [exact (peer_local a P L1)|exact (peer_local b P L2)].
Qed.
Lemma step_other c o c' rv evs : wf K c -> op_ok o -> kstep K c o = KOk c' rv evs -> other_op o -> sameU c c'.
Proof.
  intros W O S OT. destruct (step_decomp _ _ _ _ _ _ W O S) as (acts & D & _ & F & _).
  assert (N : forall id s, In (ANew id s) acts -> peer_uni K id = false).
  { intros id s I. rewrite Forall_forall in F. eapply step_new_id; eauto. }
  assert (T : forall id u a c1 c2, In a acts -> kst K c1 a c2 -> a <> AType id u).
  { intros id u a c1 c2 I H ->. rewrite Forall_forall in F. specialize (F _ I). cbn in F. destruct F as (src & fin & ->). cbn [other_op] in OT. inversion H; subst; congruence. }
  clear S F O OT W rv evs. induction D as [c|c a c1 l c' H D IH]; [apply su_refl|].
  eapply su_trans; [|apply IH; [intros; eapply N; right; eauto|intros; eapply T; [right|]; eauto]].
  eapply kst_U; eauto; [intros id s ->; eapply N; left; reflexivity|intros id u; eapply T; [left; reflexivity|exact H]].
Qed.
(* once the type is known to be critical, reading the stream changes no type *)
Lemma crit_read id src fin c l c' s : peer_uni K id = true -> ksts K c l c' -> Forall (allowed K (ORead id src fin)) l -> find_stream c id = Some s -> critical (st_u s) -> sameU c c'.
Proof.
  intros P D. revert s. induction D as [c|c a c1 l c' H D IH]; intros s F FS CR; [apply su_refl|]. inversion F as [|? ? A F']; subst.
  assert (S : sameU c c1).
  { apply kst_U with a; auto.
    - intros j t ->. destruct A as [(s1 & f1 & [= <- _ _])|[(? & ? & [=])|[[=]|(? & ? & [=] & _)]]]. inversion H; congruence.
    - intros j u ->. cbn in A. destruct A as (s1 & f1 & [= <- _ _]). destruct CR as [Q|[Q|Q]]; inversion H; subst; congruence. }
  destruct (su_bwd _ _ S id s P FS CR) as (t & Ft & E). eapply su_trans; [exact S|]. eapply IH; eauto. rewrite E. exact CR.
Qed.

Definition typed_as (b : list Z) (u : utype) : Prop :=
  bytes b /\ match get_varint b with None => proper b /\ u = UNone (rv_after b) | Some (v, _) => v <> 1 /\ u = kind_u v end.
Record U (c : conn) (hd : Z -> list Z) : Prop := mk_U {
  u_typ : forall id s, peer_uni K id = true -> find_stream c id = Some s -> typed_as (hd id) (st_u s);
  u_flag : forall u, critical u -> (flag c u = true <-> exists id s, peer_uni K id = true /\ find_stream c id = Some s /\ st_u s = u);
  u_one : forall i s j t, peer_uni K i = true -> peer_uni K j = true -> find_stream c i = Some s -> find_stream c j = Some t -> critical (st_u s) -> st_u t = st_u s -> i = j }.
Lemma U_same c c' hd : sameU c c' -> U c hd -> U c' hd.
Proof.
  intros [SF SB SG] [UT UF UO]. split.
  - intros id t P F. destruct (SF id t P F) as (s & Fs & ->). eauto.
  - intros u C. rewrite SG, (UF u C). split; intros (id & s & P & F & E).
    + destruct (SB id s P F) as (t & Ft & E'); [rewrite E; auto|]. exists id, t. repeat split; congruence.
    + destruct (SF id s P F) as (t & Ft & E'). exists id, t. repeat split; congruence.
  - intros i s j t Pi Pj Fi Fj C E. destruct (SF i s Pi Fi) as (s0 & Fs & Es). destruct (SF j t Pj Fj) as (t0 & Ft & Et). eapply (UO i s0 j t0); eauto; congruence.
Qed.
Lemma U_ext c hd hd' : (forall id, peer_uni K id = true -> find_stream c id <> None -> hd' id = hd id) -> U c hd -> U c hd'.
Proof. intros E [UT UF UO]. split; auto. intros id s P F. rewrite E; [eauto|auto|congruence]. Qed.
Lemma get_nil : get_varint [] = None. Proof. reflexivity. Qed.
Lemma U_add c hd id : find_stream c id = None -> peer_uni K id = true -> hd id = [] -> U c hd -> U (add_stream K c id (fresh c id)) hd.
Proof.
  intros F P E [UT UF UO]. assert (FA : forall j, find_stream (add_stream K c id (fresh c id)) j = if j =? id then Some (fresh c id) else find_stream c j) by (intros; apply find_add; auto).
  assert (NC : critical (st_u (fresh c id)) -> False) by (intros [A|[A|A]]; discriminate).
  split.
  - intros j t Pj. rewrite FA. destruct (Z.eqb_spec j id) as [->|N]; [|eauto]. intros [= <-]. rewrite E. split; [constructor|]. rewrite get_nil. split; [split; [constructor|exact I]|reflexivity].
  - intros u C. assert (flag (add_stream K c id (fresh c id)) u = flag c u) as -> by (unfold add_stream; destruct (is_server_bidi K id), u; reflexivity).
    rewrite (UF u C). split; intros (j & t & Pj & Fj & Ej); exists j, t; rewrite FA in *; destruct (Z.eqb_spec j id) as [->|N]; auto; try congruence.
    all: try (injection Fj as <-; elim NC; rewrite Ej; exact C).
  - intros i s j t Pi Pj. rewrite !FA. destruct (Z.eqb_spec i id) as [->|Ni], (Z.eqb_spec j id) as [->|Nj]; [intros; reflexivity| | |].
    + intros [= <-] _ C _. elim NC. exact C.
    + intros _ [= <-] C Q. rewrite <- Q in C. elim NC. exact C.
    + intros Fi Fj C Q. eauto.
Qed.
Lemma U_opened c hd id c0 s pre : peer_uni K id = true -> opened K c id c0 s pre -> (find_stream c id = None -> hd id = []) -> U c hd -> U c0 hd /\ find_stream c0 id = Some s /\ pre = [].
Proof.
  intros P O E UU. destruct O as [s F _|r g s F SB _ _|F _].
  - auto.
  - exfalso. unfold is_server_bidi in SB. apply andb_true_iff in SB as [_ B]. pose proof (bidi_uni id B); pose proof (peer_is_uni K id P); congruence.
  - split; [apply U_add; auto|]. split; auto. rewrite find_add, Z.eqb_refl; auto.
Qed.
Definition ext1 (hd : Z -> list Z) (id : Z) (src : list Z) (i : Z) : list Z := if i =? id then hd i ++ src else hd i.
Lemma typed_more b u src : typed_as b u -> bytes src -> (forall rv, u <> UNone rv) -> typed_as (b ++ src) u.
Proof.
  intros [B T] BS N. split; [apply Forall_app; auto|]. pose proof (get_varint_app b src B) as G. destruct (get_varint b) as [[v rest]|].
  - destruct G as (-> & _). exact T.
  - destruct T as [_ ->]. elim (N (rv_after b)). reflexivity.
Qed.
Lemma U_more c hd id src s : U c hd -> bytes src -> find_stream c id = Some s -> (forall rv, st_u s <> UNone rv) -> U c (ext1 hd id src).
Proof.
  intros [UT UF UO] B F N. split; auto. intros j t P Fj. unfold ext1. destruct (Z.eqb_spec j id) as [->|]; eauto. rewrite F in Fj. injection Fj as <-. apply typed_more; eauto.
Qed.
Lemma proper_bytes b : proper b -> bytes b. Proof. intros [H _]. exact H. Qed.
(* a stream of which the type is still unknown *)
Lemma U_none c hd id s rv : U c hd -> peer_uni K id = true -> find_stream c id = Some s -> st_u s = UNone rv -> proper (hd id) /\ rv = rv_after (hd id) /\ get_varint (hd id) = None.
Proof.
  intros [UT _ _] P F E. destruct (UT id s P F) as [B T]. destruct (get_varint (hd id)) as [[v r]|].
  - exfalso. destruct T as [_ T]. rewrite E in T. unfold kind_u in T. repeat destruct (_ =? _); discriminate.
  - destruct T as [T1 T2]. split; auto. split; congruence.
Qed.
Lemma U_typing c hd id s src : U c hd -> peer_uni K id = true -> find_stream c id = Some s -> get_varint (hd id ++ src) = None -> proper (hd id ++ src) -> U (put c id (ss_u s (UNone (rv_after (hd id ++ src))))) (ext1 hd id src).
Proof.
  intros UU P F G PR.
  assert (NU : exists rv, st_u s = UNone rv).
  { destruct (u_typ _ _ UU id s P F) as [B T]. pose proof (get_varint_app (hd id) src B) as GA. destruct (get_varint (hd id)) as [[v r]|]; [destruct GA as (GA & _); congruence|]. destruct T as [_ ->]. eauto. }
  destruct NU as [rv NU]. destruct UU as [UT UF UO]. split.
  - intros j t Pj. rewrite find_put, F. unfold ext1. destruct (Z.eqb_spec j id) as [->|N]; [intros [= <-]|eauto]. split; [apply proper_bytes; auto|]. rewrite G. auto.
  - intros u C. change (flag (put c id (ss_u s (UNone (rv_after (hd id ++ src))))) u) with (flag (put c id (ss_u s (UNone (rv_after (hd id ++ src))))) u).
    assert (flag (put c id (ss_u s (UNone (rv_after (hd id ++ src))))) u = flag c u) as -> by (destruct u; reflexivity).
    rewrite (UF u C). split; intros (j & t & Pj & Fj & Ej).
    + exists j, t. rewrite find_put, F. destruct (Z.eqb_spec j id) as [->|N]; auto. exfalso. rewrite F in Fj. injection Fj as <-. rewrite NU in Ej. subst u. destruct C as [A|[A|A]]; discriminate.
    + rewrite find_put, F in Fj. destruct (Z.eqb_spec j id) as [->|N]; [|exists j, t; auto]. injection Fj as <-. cbn in Ej. subst u. destruct C as [A|[A|A]]; discriminate.
  - intros i si j t Pi Pj. rewrite !find_put, F. destruct (Z.eqb_spec i id) as [->|Ni], (Z.eqb_spec j id) as [->|Nj]; [intros; reflexivity| | |].
    + intros [= <-] _ [A|[A|A]]; discriminate.
    + intros _ [= <-] C Q. cbn in Q. rewrite <- Q in C. destruct C as [A|[A|A]]; discriminate.
    + intros Fi Fj C Q. eauto.
Qed.
Definition same_kind (u w : utype) : bool := match u, w with UCtl, UCtl | UEnc, UEnc | UDec, UDec => true | _, _ => false end.
Lemma identify_kind c v c1 u : identify c v = Ok (c1, u) -> v <> 1 /\ u = kind_u v /\ flag c u = false /\ (forall w, critical w -> flag c1 w = flag c w || same_kind u w) /\ (forall j, find_stream c1 j = find_stream c j).
Proof.
  unfold identify, kind_u. destruct (Z.eqb_spec v 0); [|destruct (Z.eqb_spec v 1); [discriminate|]; destruct (Z.eqb_spec v 2); [|destruct (Z.eqb_spec v 3)]].
  - destruct (k_copen c) eqn:O; [discriminate|]. intros [= <- <-]. repeat split; auto; [lia|]. intros w [->|[->| ->]]; cbn; rewrite ?O, ?orb_false_r; auto.
  - destruct (k_eopen c) eqn:O; [discriminate|]. intros [= <- <-]. repeat split; auto. intros w [->|[->| ->]]; cbn; rewrite ?O, ?orb_false_r; auto.
  - destruct (k_dopen c) eqn:O; [discriminate|]. intros [= <- <-]. repeat split; auto. intros w [->|[->| ->]]; cbn; rewrite ?O, ?orb_false_r; auto.
  - intros [= <- <-]. repeat split; auto. intros w [->|[->| ->]]; cbn; rewrite ?orb_false_r; auto.
Qed.
Lemma same_kind_eq u w : critical w -> same_kind u w = true <-> u = w.
Proof. intros [->|[->| ->]]; destruct u; cbn; split; congruence. Qed.
Lemma U_type c hd id s src v rest c1 u rv : U c hd -> peer_uni K id = true -> find_stream c id = Some s -> st_u s = UNone rv -> bytes src ->
  get_varint (hd id ++ src) = Some (v, rest) -> identify c v = Ok (c1, u) -> U (put c1 id (ss_u s u)) (ext1 hd id src) /\ find_stream (put c1 id (ss_u s u)) id = Some (ss_u s u).
Proof.
  intros UU P F NU B G I. destruct (identify_kind _ _ _ _ I) as (V1 & V2 & V3 & V4 & V5). pose proof UU as [UT UF UO].
  assert (FP : forall j, find_stream (put c1 id (ss_u s u)) j = if j =? id then Some (ss_u s u) else find_stream c j).
  { intros j. rewrite find_put, !V5, F. destruct (j =? id); auto. }
  split; [|rewrite FP, Z.eqb_refl; auto].
  assert (OTH : forall w, critical w -> flag c w = false -> forall j t, peer_uni K j = true -> find_stream c j = Some t -> st_u t <> w).
  { intros w C FW j t Pj Fj E. assert (flag c w = true) by (apply UF; eauto). congruence. }
  split.
  - intros j t Pj. rewrite FP. unfold ext1. destruct (Z.eqb_spec j id) as [->|N]; [intros [= <-]|eauto].
    split; [apply Forall_app; split; auto; apply (UT id s P F)|]. rewrite G. auto.
  - intros w C. assert (flag (put c1 id (ss_u s u)) w = flag c1 w) as -> by (destruct w; reflexivity). rewrite (V4 w C), orb_true_iff, (UF w C), (same_kind_eq u w C). split.
    + intros [(j & t & Pj & Fj & Ej)| <-].
      * exists j, t. rewrite FP. destruct (Z.eqb_spec j id) as [->|N]; auto. exfalso. rewrite F in Fj. injection Fj as <-. rewrite NU in Ej. subst w. destruct C as [A|[A|A]]; discriminate.
      * exists id, (ss_u s u). rewrite FP, Z.eqb_refl. auto.
    + intros (j & t & Pj & Fj & Ej). rewrite FP in Fj. destruct (Z.eqb_spec j id) as [->|N]; [|left; exists j, t; auto]. injection Fj as <-. right. exact Ej.
  - intros i si j t Pi Pj. rewrite !FP. destruct (Z.eqb_spec i id) as [->|Ni], (Z.eqb_spec j id) as [->|Nj]; [intros; reflexivity| | |].
    + intros [= <-] Fj C Q. exfalso. cbn in C, Q. exact (OTH u C V3 j t Pj Fj Q).
    + intros Fi [= <-] C Q. exfalso. cbn in Q. rewrite Q in V3. exact (OTH (st_u si) C V3 i si Pi Fi eq_refl).
    + intros Fi Fj C Q. eauto.
Qed.
Lemma U_typed c hd id s (src : list Z) rest fin c' n evs : wf K c -> U c hd -> peer_uni K id = true -> bytes rest -> find_stream c id = Some s -> typed_read K c id rest fin (st_u s) c' n evs ->
  read_uni_typed K c id s rest fin = KOk c' n evs -> U c' hd.
Proof.
  intros W UU P B F T R. destruct (critical_dec (st_u s)) as [C|NC].
  - destruct (ds_typed K id src fin c id s rest fin c' n evs W B R) as (acts & D & _ & FA & _). eapply U_same; [|exact UU]. eapply (crit_read id src fin); eauto.
  - destruct (st_u s) eqn:E; try (exfalso; apply NC; unfold critical; auto; fail); inversion T; subst. exact UU.
Qed.

Lemma delete_gone c id s c' rv evs : find_stream c id = Some s -> ~ critical (st_u s) -> delete_stream K c id s = KOk c' rv evs -> sameU c c' /\ find_stream c' id = None.
Proof.
  intros F NC D. unfold delete_stream, drop_stream in D. destruct (is_server_bidi K id) eqn:SB.
  - destruct (k_num c <=? 0); [discriminate|]. injection D as <- _ _. change (kk_num _ _) with (kk_num (kk_str c (del_s (k_str c) id)) (k_num c - 1)).
    assert (E : rem_stream K c id = kk_num (kk_str c (del_s (k_str c) id)) (k_num c - 1)) by (unfold rem_stream; rewrite SB; reflexivity). rewrite <- E.
    split; [eapply su_rem; eauto|]. unfold rem_stream. rewrite SB. unfold find_stream. cbn. rewrite find_del_s, Z.eqb_refl. auto.
  - injection D as <- _ _. assert (E : rem_stream K c id = kk_str c (del_s (k_str c) id)) by (unfold rem_stream; rewrite SB; reflexivity). rewrite <- E.
    split; [eapply su_rem; eauto|]. rewrite E. unfold find_stream. cbn. rewrite find_del_s, Z.eqb_refl. auto.
Qed.
Lemma wf_type c id s v c1 u rv : wf K c -> find_stream c id = Some s -> peer_uni K id = true -> st_u s = UNone rv -> identify c v = Ok (c1, u) -> wf K (put c1 id (ss_u s u)).
Proof. intros W F P E I. eapply (kst_wf K c (AType id u)); [exact W|]. eapply t_type; eauto. Qed.
Lemma U_uni c hd id s src fin c' rv evs : wf K c -> U c hd -> peer_uni K id = true -> bytes src -> find_stream c id = Some s -> (zlen src =? 0) && negb fin = false ->
  uni_read K c id s src fin c' rv evs -> U c' (ext1 hd id src).
Proof.
  intros W UU P B F NE R. destruct R as [rvi c' rv evs E -> -> L D|rvi rvi' E NF V|rvi v u c1 E V I|rvi v rest u c1 c' n evs E V NR I R|c' n evs N R].
  - destruct (delete_gone c id s c' rv evs F) as [S G]; auto. { rewrite E. intros [A|[A|A]]; discriminate. }
    eapply U_ext; [|eapply U_same; eauto]. intros j Pj Fj. unfold ext1. destruct (Z.eqb_spec j id); auto. subst. congruence.
  - destruct (U_none _ _ _ _ _ UU P F E) as (PR & -> & G). assert (src <> []) as NN by (intros ->; destruct fin; cbn in NE, NF; discriminate).
    destruct (rd_varint_spec (hd id) src fin PR B NN) as [RS RP]. rewrite V in RS. destruct (get_varint (hd id ++ src)) as [[v r]|] eqn:GV; [discriminate|].
    destruct fin; [discriminate|]. injection RS as ->. apply U_typing; auto.
  - destruct (U_none _ _ _ _ _ UU P F E) as (PR & -> & G).
    assert (src <> []) as NN. { intros ->. cbn in V. unfold rd_varint, read_varint in V. cbn in V. destruct fin; discriminate. }
    destruct (rd_varint_spec (hd id) src fin PR B NN) as [RS RP]. rewrite V in RS. destruct (get_varint (hd id ++ src)) as [[v' r]|] eqn:GV; [|destruct fin; discriminate].
    injection RS as <- <-. eapply U_type; eauto.
  - destruct (U_none _ _ _ _ _ UU P F E) as (PR & -> & G).
    assert (src <> []) as NN. { intros ->. cbn in V. unfold rd_varint, read_varint in V. cbn in V. destruct fin; discriminate. }
    destruct (rd_varint_spec (hd id) src fin PR B NN) as [RS RP]. rewrite V in RS. destruct (get_varint (hd id ++ src)) as [[v' r]|] eqn:GV; [|destruct fin; discriminate].
    injection RS as <- <-. destruct (U_type _ _ _ _ _ _ _ _ _ _ UU P F E B GV I) as [U1 F1].
    eapply (U_typed (put c1 id (ss_u s u)) _ id (ss_u s u) src rest fin c' n evs); auto; [eapply wf_type; eauto|eapply bytes_rest; eauto|apply read_typed_shape; auto].
  - eapply U_more in UU; [|exact B|exact F|exact N]. eapply (U_typed c _ id s src src fin c' n evs); auto. apply read_typed_shape; auto.
Qed.
Lemma opened_wfU c id c0 s : wf K c -> id_range id -> opened K c id c0 s [] -> peer_uni K id = true -> wf K c0.
Proof.
  intros W RG O P. inversion O as [s1 F _|r g s1 F SB _ _|F _]; subst; auto.
  - exfalso. unfold is_server_bidi in SB. apply andb_true_iff in SB as [_ B]. pose proof (bidi_uni id B); pose proof (peer_is_uni K id P); congruence.
  - eapply (kst_wf K c (ANew id (fresh c id))); [exact W|]. apply t_new; auto; [right; left; auto|]. intros SB. unfold is_server_bidi in SB. apply andb_true_iff in SB as [_ B]. pose proof (bidi_uni id B); pose proof (peer_is_uni K id P); congruence.
Qed.
Lemma U_step c hd o c' rv evs : wf K c -> op_ok o -> kstep K c o = KOk c' rv evs -> (forall id, find_stream c id = None -> hd id = []) -> U c hd ->
  U c' (fun i => hd i ++ heard1 i (mk_call o rv evs c')).
Proof.
  intros W O S E UU. assert (OT : other_op o -> U c' (fun i => hd i ++ heard1 i (mk_call o rv evs c'))).
  { intros OT. eapply U_ext; [|eapply U_same; [eapply step_other; eauto|exact UU]]. intros j P _. unfold heard1. cbn. destruct o; try apply app_nil_r.
    cbn in OT. destruct (Z.eqb_spec id j); [congruence|apply app_nil_r]. }
  destruct o; try (apply OT; exact I). destruct (peer_uni K id) eqn:P; [|apply OT; exact P]. clear OT. cbn [kstep op_ok] in S, O.
  assert (EX : forall c, U c (ext1 hd id src) -> U c (fun i => hd i ++ heard1 i (mk_call (ORead id src fin) rv evs c'))).
  { intros d UD. eapply U_ext; [|exact UD]. intros j _ _. unfold ext1, heard1. cbn. rewrite (Z.eqb_sym id j). destruct (j =? id); auto. apply app_nil_r. }
  apply EX. clear EX. apply read_cases in S as [RG S]. destruct S as [F _ -> ->|c0 s pre OP -> ->|c0 s pre c' rv evs OP CB _ R|c0 s c' rv evs OP _ NE R].
  - eapply U_ext; [|exact UU]. intros j _ _. unfold ext1. destruct (j =? id); auto. apply app_nil_r.
  - destruct (U_opened _ _ _ _ _ _ P OP (E id) UU) as (U0 & _). eapply U_ext; [|exact U0]. intros j _ _. unfold ext1. destruct (j =? id); auto. apply app_nil_r.
  - exfalso. pose proof (bidi_uni id CB); pose proof (peer_is_uni K id P); congruence.
  - destruct (U_opened _ _ _ _ _ _ P OP (E id) UU) as (U0 & F0 & _). eapply (U_uni c0); eauto. eapply opened_wfU; eauto.
Qed.
Theorem hist_U h c : history K h c -> U c (fun id => heard id h).
Proof.
  revert h c. apply hist_inv.
  - split; [intros id s _ F; discriminate F| |intros i s j t _ _ F; discriminate F]. intros u C. split; [destruct C as [->|[->| ->]]; discriminate|]. intros (id & s & _ & F & _). discriminate F.
  - intros h c o c' rv evs H W O UU S. pose proof (U_step c _ o c' rv evs W O S (fun id => heard_closed K h c id H) UU) as R.
    eapply U_ext; [|exact R]. intros id P N. cbv beta. rewrite heard_snoc. unfold is_open. cbn [c_post]. destruct (find_stream c' id); [reflexivity|congruence].
Qed.
End U.
