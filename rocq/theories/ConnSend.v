(* The sending side of the streams, call by call of the API *)
From Verif Require Import Base BaseLemmas Chunk ConvModel ConvSpec RdVarint QpackTabModel QpackDecModel HttpModel QpackIntModel QpackIntProofs QpackHistProofs BidiModel BidiHist BidiSpec BidiCut ControlModel GapModel PqModel PqProofs PqWeak TxModel TxSpec TxTrace SchedModel SchedProofs ConnModel ConnCtl ConnStep ConnRx ConnWf ConnDecomp ConnHist ConnRead ConnPri ConnSched ConnOffer RecvLog ConnRecv ConnShut SendSpec ConnTx ConnKind.
Open Scope Z_scope.

Section Send.
Context (K : kenv).
(* the type of the stream's opener, from the state *)
Definition kind (id : Z) (s : stream) : option Z := if local_uni K id then match st_u s with UCtl => Some 0 | UEnc => Some 2 | UDec => Some 3 | _ => None end else None.
Lemma kind_known id s : known_ty (kind id s).
Proof. unfold kind, known_ty. destruct (local_uni K id); [destruct (st_u s)|]; auto. Qed.
Definition TI (c : conn) (lf : Z -> list tev) (gf : Z -> gh) : Prop := forall id s, find_stream c id = Some s -> txgx (ke_tx K id) (kind id s) (st_t s) (lf id) (gf id).
Definition LT (c : conn) (lf : Z -> list tev) (gf : Z -> gh) : Prop := forall id, find_stream c id = None -> lf id = [] /\ gf id = g0.
Definition same_tx (id : Z) (s s' : stream) : Prop := st_t s' = st_t s /\ (local_uni K id = true -> st_u s' = st_u s).
Lemma same_kind id s s' : same_tx id s s' -> kind id s' = kind id s.
Proof. intros [_ U]. unfold kind. destruct (local_uni K id); auto. rewrite U; auto. Qed.
Lemma same_refl id s : same_tx id s s. Proof. split; auto. Qed.
Lemma same_trans id a b c : same_tx id a b -> same_tx id b c -> same_tx id a c.
Proof. intros [A1 A2] [B1 B2]. split; [congruence|]. intros L. rewrite B2, A2; auto. Qed.
(* no call on the sending side: streams may go ... *)
Definition stay (c c' : conn) : Prop := forall id s', find_stream c' id = Some s' -> exists s, find_stream c id = Some s /\ same_tx id s s'.
(* ... or come *)
Definition quiet (c c' : conn) : Prop := forall id s', find_stream c' id = Some s' ->
  (exists s, find_stream c id = Some s /\ same_tx id s s') \/ (find_stream c id = None /\ st_t s' = tx_init /\ local_uni K id = false).
Definition grow (c c' : conn) : Prop := quiet c c' /\ forall id, find_stream c id <> None -> find_stream c' id <> None.
Lemma stay_quiet c c' : stay c c' -> quiet c c'. Proof. intros S id s' F. left. auto. Qed.
Lemma stay_refl c : stay c c. Proof. intros id s F. exists s. split; auto using same_refl. Qed.
Lemma stay_same c c' : (forall id, find_stream c' id = find_stream c id) -> stay c c'. Proof. intros S id s F. rewrite S in F. exists s. split; auto using same_refl. Qed.
Lemma stay_trans a b c : stay a b -> stay b c -> stay a c.
Proof. intros A B id s F. destruct (B _ _ F) as (t & Ft & S). destruct (A _ _ Ft) as (u & Fu & S'). exists u. split; eauto using same_trans. Qed.
Lemma grow_refl c : grow c c. Proof. split; [apply stay_quiet, stay_refl|auto]. Qed.
Lemma grow_stay a b c : grow a b -> stay b c -> quiet a c.
Proof.
  intros [A _] B id s F. destruct (B _ _ F) as (t & Ft & S). destruct (A _ _ Ft) as [(u & Fu & S')|(N & T & L)]; [left; exists u; split; eauto using same_trans|right].
  repeat split; auto. destruct S as [S _]. congruence.
Qed.
Lemma grow_trans a b c : grow a b -> grow b c -> grow a c.
Proof.
  intros [A A'] [B B']. split; [|auto]. intros id s F. destruct (B _ _ F) as [(t & Ft & S)|(N & T & L)].
  - destruct (A _ _ Ft) as [(u & Fu & S')|(N & T & L)]; [left; exists u; split; eauto using same_trans|right]. repeat split; auto. destruct S as [S _]. congruence.
  - right. repeat split; auto. destruct (find_stream a id) eqn:Fa; auto. exfalso. apply (A' id); congruence.
Qed.
Lemma stay_put c id s s' : find_stream c id = Some s -> same_tx id s s' -> stay c (put c id s').
Proof. intros F S j t G. rewrite find_put, F in G. destruct (Z.eqb_spec j id) as [->|N]; [injection G as <-|]; [exists s; auto|exists t; split; auto using same_refl]. Qed.
Lemma grow_put c id s s' : find_stream c id = Some s -> same_tx id s s' -> grow c (put c id s').
Proof. intros F S. split; [apply stay_quiet; eapply stay_put; eauto|]. intros j N. rewrite find_put, F. destruct (j =? id); [discriminate|exact N]. Qed.
Lemma stay_rem c id : stay c (rem_stream K c id).
Proof. intros j s F. rewrite find_rem in F. destruct (j =? id); [discriminate|]. exists s. split; auto using same_refl. Qed.
Lemma grow_add c id s : find_stream c id = None -> st_t s = tx_init -> local_uni K id = false -> grow c (add_stream K c id s).
Proof.
  intros F T L. split; intros j; rewrite (find_add K c id s j F); destruct (Z.eqb_spec j id) as [->|N]; try discriminate; auto.
  - intros s' [= <-]. auto.
  - intros s' G. left. exists s'. split; auto using same_refl.
Qed.
Lemma stay_mid c id s x : find_stream c id = Some s -> forall s0, same_tx id s s0 -> stay c (mid c id s0 x).
Proof.
  intros F s0 S j t G. rewrite (find_mid c id s0 s x j F) in G. destruct (Z.eqb_spec j id) as [->|N]; [injection G as <-|exists t; split; auto using same_refl].
  exists s. split; auto.
Qed.
Lemma not_local_bidi id : client_bidi id = true -> local_uni K id = false.
Proof. intros C. destruct (local_uni K id) eqn:L; auto. exfalso. eapply local_not_bidi; eauto. Qed.
Lemma not_local_peer id : peer_uni K id = true -> local_uni K id = false.
Proof. intros C. destruct (local_uni K id) eqn:L; auto. exfalso. eapply local_not_peer; eauto. Qed.
Lemma server_bidi id : is_server_bidi K id = true -> client_bidi id = true.
Proof. unfold is_server_bidi. intros H. apply andb_prop in H. tauto. Qed.

Lemma q_request c id s src fin c' rv evs : find_stream c id = Some s -> read_request_stream K c id s src fin = KOk c' rv evs -> stay c c'.
Proof.
  intros F. unfold read_request_stream. destruct (recv _ _ _ _ _) as [x ev| | |]; try discriminate. destruct (after_read _ _ _ _ _) as [c1| |] eqn:A; try discriminate. intros [= <- _ _].
  apply after_mid in A. eapply stay_trans; [exact (stay_mid c id s x F s (same_refl id s))|]. apply stay_same. intros j. rewrite A. reflexivity.
Qed.
Lemma q_drop c id s evs c' rv ev : drop_stream K c id s evs = KOk c' rv ev -> stay c c'.
Proof. intros H. assert (c' = rem_stream K c id) as ->. { unfold drop_stream in H. unfold rem_stream. destruct (is_server_bidi K id); [destruct (k_num c <=? 0); [discriminate|]|]; injection H as <- _ _; auto. } apply stay_rem. Qed.
Lemma q_unblock f : forall c c' rv evs, unblock_loop K f c = KOk c' rv evs -> stay c c'.
Proof.
  induction f as [|f IH]; intros c c' rv evs H; cbn [unblock_loop] in H; [discriminate|].
  destruct (pq_empty _); [injection H as <- _ _; apply stay_refl|]. destruct (pq_top _) as [id| |]; try discriminate. destruct (find_stream c id) as [s|] eqn:F; [|discriminate].
  destruct (_ <? _); [injection H as <- _ _; apply stay_refl|]. destruct (pq_pop _ _) as [q| |]; try discriminate. cbv zeta in H.
  assert (forall x s0 ev c1, same_tx id s s0 -> after_read (kk_blk c q) id s0 x ev = Ok c1 -> stay c c1) as AF.
  { intros x s0 ev c1 S A. apply after_mid in A. eapply (stay_trans c (kk_blk c q)); [apply stay_same; reflexivity|]. eapply stay_trans; [exact (stay_mid (kk_blk c q) id s x F s0 S)|]. apply stay_same. intros j. rewrite A. reflexivity. }
  destruct (resume _ _ _) as [x ev|x ev|e ev|]; try discriminate.
  - destruct (after_read _ _ _ _ _) as [c1| |] eqn:A; try discriminate. apply AF in A; [|split; auto]. destruct (unblock_loop K f c1) as [c2 r2 e2| |] eqn:U; try discriminate. injection H as <- _ _.
    eapply stay_trans; eauto.
  - destruct (after_read _ _ _ _ _) as [c1| |] eqn:A; try discriminate. apply AF in A; [|split; auto]. destruct (drop_stream _ _ _ _ _) as [c2 r2 e2| |] eqn:D; try discriminate. apply q_drop in D.
    destruct (unblock_loop K f c2) as [c3 r3 e3| |] eqn:U; try discriminate. injection H as <- _ _. eapply stay_trans; eauto using stay_trans.
Qed.
Lemma q_encoder c src c' rv evs : read_qpack_encoder K c src = KOk c' rv evs -> stay c c'.
Proof.
  unfold read_qpack_encoder. destruct (read_encoder _ _) as [d [n| |]]; try discriminate. destruct (unblock_loop _ _ _) as [c1 r1 e1| |] eqn:U; try discriminate. intros [= <- _ _].
  apply q_unblock in U. eapply (stay_trans c (kk_dec c d)); [apply stay_same; reflexivity|exact U].
Qed.
Lemma q_update c id p c' : good_cev (ke_server K) (CvPriority id p) -> on_priority_update K c id p = Ok c' -> grow c c'.
Proof.
  intros (SV & CB & _ & RG) H. unfold on_priority_update in H. destruct (find_stream c id) as [s|] eqn:F.
  - destruct (st_sp s); [injection H as <-; apply grow_refl|]. unfold update_priority in H. destruct (negb _); [discriminate|]. unfold sched_do in H. destruct (sc_priority _ _ _ _) as [sch'| |]; try discriminate. injection H as <-.
    destruct (grow_put c id s (ss_pu s true) F) as [G1 G2]; [split; auto|]. split; auto.
  - destruct (_ && _); [injection H as <-; apply grow_refl|]. apply obind_ok in H as ([rv g] & _ & H). destruct (negb _); [destruct (_ =? _); [injection H as <-; apply grow_refl|discriminate]|].
    cbv zeta in H. apply obind_ok in H as (c1 & CR & [= <-]). apply create_ok in CR as [F1 ->]. set (c0 := kk_maxid (kk_idtr c g) (Z.max (k_maxid c) id)) in *.
    destruct (grow_add c0 id (ss_pu (new_stream id (rx_init id http_init (k_dec c))) true) F1 eq_refl (not_local_bidi _ CB)) as [G1 G2]. split; auto.
Qed.
Lemma q_updates evs : forall c c', Forall (good_cev (ke_server K)) evs -> apply_updates K c evs = Ok c' -> grow c c'.
Proof.
  induction evs as [|e evs IH]; intros c c' G H; cbn [apply_updates] in H; [injection H as <-; apply grow_refl|]. inversion G as [|? ? G1 G2]; subst.
  assert ((exists id p, e = CvPriority id p) \/ (forall id p, e <> CvPriority id p)) as [(id & p & ->)|N] by (destruct e; [right; congruence|right; congruence|right; congruence|right; congruence|right; congruence|right; congruence|left; eauto]).
  - apply obind_ok in H as (c1 & O & H). apply q_update in O; auto. eapply grow_trans; eauto.
  - assert (apply_updates K c evs = Ok c') as H' by (destruct e; auto; exfalso; eapply N; eauto). eapply IH; eauto.
Qed.
Lemma q_control c src c' rv evs : wf K c -> bytes src -> read_control_stream K c src = KOk c' rv evs -> grow c c'.
Proof.
  intros W B. unfold read_control_stream. pose proof (read_control_fact (mk_cenv (ke_server K) (k_maxcl c) (ke_sf K)) (k_ctl c) src (wf_ctl _ _ W) B) as R.
  destruct (read_control _ _ _ _) as [s' ev| | |] eqn:RC; try discriminate. destruct R as [R1 R2].
  destruct (apply_updates _ _ _) as [c1| |] eqn:A; try discriminate. intros [= <- _ _]. apply q_updates in A; auto.
Qed.
Lemma q_typed c id src fin u c' rv evs : wf K c -> bytes src -> typed_read K c id src fin u c' rv evs -> grow c c' \/ stay c c'.
Proof.
  intros W B T. destruct T as [c' n evs _ H|c' n evs _ H|n _ H|].
  - left. eapply q_control; eauto.
  - right. eapply q_encoder; eauto.
  - right. apply stay_same. reflexivity.
  - right. apply stay_refl.
Qed.
Lemma q_opened c id c0 s pre : opened K c id c0 s pre -> grow c c0 /\ find_stream c0 id = Some s /\ local_uni K id = false.
Proof.
  intros O. destruct O as [s F P|r g s F P I E|F P].
  - repeat split; auto using (stay_quiet c c (stay_refl c)). destruct P; [apply not_local_bidi|apply not_local_peer]; auto.
  - pose proof (not_local_bidi _ (server_bidi _ P)) as L.
    assert (st_t s = tx_init) as T by (rewrite E; destruct (rejected c id); reflexivity).
    split; [exact (grow_add (kk_maxid (kk_idtr c g) (Z.max (k_maxid c) id)) id s F T L)|]. split; auto.
    rewrite (find_add K (kk_maxid (kk_idtr c g) (Z.max (k_maxid c) id)) id s id F), Z.eqb_refl. reflexivity.
  - pose proof (not_local_peer _ P) as L. split; [exact (grow_add c id (fresh c id) F eq_refl L)|]. split; auto. rewrite (find_add K c id _ id F), Z.eqb_refl. reflexivity.
Qed.
Lemma quiet_trans_l a b c : grow a b -> grow b c \/ stay b c -> quiet a c.
Proof. intros A [B|B]; [apply (grow_trans a b c A B)|eapply grow_stay; eauto]. Qed.
Lemma opened_wf c id c0 s pre : id_range id -> wf K c -> opened K c id c0 s pre -> wf K c0.
Proof.
  intros IR W O. destruct O as [s F P|r g s F P I E|F P]; auto.
  - assert (wf K (kk_maxid (kk_idtr c g) (Z.max (k_maxid c) id))) as W1.
    { replace (kk_maxid (kk_idtr c g) (Z.max (k_maxid c) id)) with (kk_ndec (kk_maxcl (kk_maxid (kk_idtr c g) (Z.max (k_maxid c) id)) (k_maxcl c)) (k_ndec c)) by (destruct c; reflexivity). eapply kst_wf; [exact W|apply t_misc; [right; eexists _, _; split; [exact IR|exact I]|lia|lia]]. }
    eapply kst_wf; [exact W1|]. apply t_new; [exact F|exact IR|left; split; auto|]. intros _. cbn [k_maxid kk_maxid kk_idtr]. lia.
  - eapply kst_wf; [exact W|]. apply t_new; [exact F|exact IR|right; left; auto|]. intros SB. exfalso. pose proof (server_bidi _ SB). unfold peer_uni, client_bidi, client_uni, server_uni in *.
    destruct (ke_server K); lia.
Qed.
Lemma q_read c id src fin c' rv evs : wf K c -> bytes src -> read_stream K c id src fin = KOk c' rv evs -> quiet c c'.
Proof.
  intros W B H. apply read_cases in H as [IR H]. destruct H as [F P E1 E2|c0 s pre O E1 E2|c0 s pre c' rv evs O CB _ H|c0 s c' rv evs O PU _ H].
  - apply stay_quiet, stay_refl.
  - apply q_opened in O as ([O _] & _). exact O.
  - apply q_opened in O as (O & F & _). eapply grow_stay; [exact O|]. eapply q_request; eauto.
  - pose proof (opened_wf _ _ _ _ _ IR W O) as W0. apply q_opened in O as (O & F & L).
    assert (forall u, same_tx id s (ss_u s u)) as SU by (intros u; split; [reflexivity|intros L'; congruence]).
    destruct H as [rvi c' rv evs U _ _ _ D|rvi rvi' U _ V|rvi v u c1 U V I|rvi v rest u c1 c' n evs U V NR I T|c' n evs NU T].
    + eapply grow_stay; [exact O|]. eapply q_drop; exact D.
    + eapply grow_stay; [exact O|]. eapply stay_put; eauto.
    + eapply grow_stay; [exact O|]. pose proof (identify_same _ _ _ _ I) as [EQ _]. rewrite EQ. eapply (stay_trans c0 (kk_open c0 (k_copen c1) (k_eopen c1) (k_dopen c1))); [apply stay_same; reflexivity|].
      eapply stay_put; [exact F|apply SU].
    + assert (wf K (put c1 id (ss_u s u))) as W1 by (eapply kst_wf; [exact W0|]; eapply t_type; eauto).
      apply read_typed_shape in T. apply q_typed in T; [|exact W1|eapply bytes_rest; eauto].
      eapply quiet_trans_l; [|exact T]. eapply grow_trans; [exact O|]. pose proof (identify_same _ _ _ _ I) as [EQ _]. rewrite EQ.
      eapply (grow_trans c0 (kk_open c0 (k_copen c1) (k_eopen c1) (k_dopen c1))); [split; [apply stay_quiet, stay_same; reflexivity|auto]|]. eapply grow_put; [exact F|apply SU].
    + apply read_typed_shape in T. apply q_typed in T; auto. eapply quiet_trans_l; eauto.
Qed.

Definition kindc (c : conn) (id : Z) : option Z := match find_stream c id with Some s => kind id s | None => None end.
Definition next (lf : Z -> list tev) (o : cop) (rv : Z) (evs : list kev) (c' : conn) (id : Z) : list tev := lf id ++ tlog1 K (kindc c' id) id (mk_call o rv evs c').
Definition kinds (c : conn) (o : cop) (c' : conn) : Prop := forall id s', find_stream c' id = Some s' ->
  kind id s' = match find_stream c id with Some s => kind id s | None => opened_as id o end.
Definition done (c : conn) (lf : Z -> list tev) (gf : Z -> gh) (o : cop) (rv : Z) (evs : list kev) (c' : conn) : Prop := TI c' (next lf o rv evs c') gf /\ kinds c o c'.
Lemma TI_ext c lf gf lf' : (forall id, find_stream c id <> None -> lf id = lf' id) -> TI c lf gf -> TI c lf' gf.
Proof. intros E T id s F. rewrite <- E; [apply T; auto|congruence]. Qed.
Lemma TI_quiet c c' lf gf : quiet c c' -> LT c lf gf -> TI c lf gf -> TI c' lf gf.
Proof.
  intros Q L T id s' F. destruct (Q _ _ F) as [(s & Fs & S)|(N & I & LU)].
  - rewrite (same_kind _ _ _ S). destruct S as [S _]. rewrite S. auto.
  - destruct (L _ N) as [-> ->]. rewrite I. unfold kind. rewrite LU. apply tg_init.
Qed.
Lemma kinds_quiet c o c' : (forall id, opened_as id o = None) -> quiet c c' -> kinds c o c'.
Proof.
  intros O Q id s' F. destruct (Q _ _ F) as [(s & Fs & S)|(N & I & LU)]; [rewrite Fs; apply same_kind; auto|]. rewrite N, O. unfold kind. rewrite LU. reflexivity.
Qed.
Lemma done_quiet c lf gf o rv evs c' : (forall id, opened_as id o = None) -> (forall ty id, tlog1 K ty id (mk_call o rv evs c') = []) -> LT c lf gf -> TI c lf gf -> quiet c c' -> done c lf gf o rv evs c'.
Proof.
  intros O N L T Q. split; [|apply kinds_quiet; auto]. eapply TI_ext; [|eapply TI_quiet; eauto]. intros id _. unfold next. rewrite N, app_nil_r. reflexivity.
Qed.
(* the sending side of one stream changes *)
Lemma TI_one c lf gf c' lf' gf' id s t : TI c lf gf -> find_stream c id = Some s -> (forall j, find_stream c' j = if j =? id then Some (ss_t s t) else find_stream c j) ->
  txgx (ke_tx K id) (kind id s) t (lf' id) (gf' id) -> (forall j, j <> id -> lf' j = lf j /\ gf' j = gf j) -> TI c' lf' gf'.
Proof.
  intros T F G H E j s' Fj. rewrite G in Fj. destruct (Z.eqb_spec j id) as [->|N]; [injection Fj as <-; exact H|]. destruct (E _ N) as [-> ->]. auto.
Qed.
Lemma kinds_one c o c' id s t : find_stream c id = Some s -> (forall j, find_stream c' j = if j =? id then Some (ss_t s t) else find_stream c j) -> kinds c o c'.
Proof.
  intros F G j s' Fj. rewrite G in Fj. destruct (Z.eqb_spec j id) as [->|N]; [injection Fj as <-; rewrite F; reflexivity|]. rewrite Fj. reflexivity.
Qed.
Lemma find_put_if c id s s' : find_stream c id = Some s -> forall j, find_stream (put c id s') j = if j =? id then Some s' else find_stream c j.
Proof. intros F j. rewrite find_put, F. reflexivity. Qed.

(* calls that leave the sending side alone *)
Lemma S_block c lf gf id f o c' rv evs : (forall s, same_tx id s (f s)) -> (forall id, opened_as id o = None) -> (forall ty id c', tlog1 K ty id (mk_call o rv evs c') = []) -> LT c lf gf -> TI c lf gf -> block_with c id f = KOk c' rv evs -> done c lf gf o rv evs c'.
Proof.
  intros SF OA N L T H. apply done_quiet; auto. unfold block_with in H. destruct (find_stream c id) as [s|] eqn:F; [|injection H as <- _ _; apply stay_quiet, stay_refl]. cbv zeta in H.
  apply lift_ok in H as (H & _). apply stay_quiet. eapply stay_trans; [eapply stay_put; [exact F|apply SF]|]. unfold sched_do in H.
  destruct (client_bidi id); [destruct (sc_block _ _); try discriminate|]; injection H as <-; apply stay_same; reflexivity.
Qed.
Lemma S_wake c lf gf id f o c' rv evs : (forall s, same_tx id s (f s)) -> (forall id, opened_as id o = None) -> (forall ty id c', tlog1 K ty id (mk_call o rv evs c') = []) -> LT c lf gf -> TI c lf gf -> wake_with c id f = KOk c' rv evs -> done c lf gf o rv evs c'.
Proof.
  intros SF OA N L T H. apply done_quiet; auto. unfold wake_with in H. destruct (find_stream c id) as [s|] eqn:F; [|injection H as <- _ _; apply stay_quiet, stay_refl]. cbv zeta in H.
  apply lift_ok in H as (H & _). apply stay_quiet. eapply stay_trans; [eapply stay_put; [exact F|apply SF]|]. unfold sched_do in H.
  destruct (client_bidi id); [destruct (sc_wake _ _ _); try discriminate|]; injection H as <-; apply stay_same; reflexivity.
Qed.
Lemma q_close c id code c' rv evs : close_stream K c id code = KOk c' rv evs -> stay c c'.
Proof.
  unfold close_stream. destruct (find_stream c id) as [s|] eqn:F; [|intros [= <- _ _]; apply stay_refl]. destruct (_ && _); [discriminate|]. cbv zeta.
  destruct (sched_do _ _) as [c1| |] eqn:S; try discriminate. assert (stay c c1) as C1.
  { unfold sched_do in S. destruct (sc_close _ _); try discriminate. injection S as <-. eapply (stay_trans c (put c id (ss_code s code))); [|apply stay_same; reflexivity]. eapply stay_put; [exact F|split; auto]. }
  destruct (b_blk _).
  - intros [= <- _ _]. assert (find_stream c1 id = Some (ss_code s code)) as F1.
    { unfold sched_do in S. destruct (sc_close _ _); try discriminate. injection S as <-. exact (find_put_same c id s (ss_code s code) F). }
    eapply stay_trans; [exact C1|]. eapply stay_put; [exact F1|split; auto].
  - intros D. eapply stay_trans; [exact C1|]. eapply q_drop; exact D.
Qed.
Lemma q_shut c id c' rv evs : shutdown_read c id = KOk c' rv evs -> stay c c'.
Proof.
  unfold shutdown_read. destruct (negb _); [discriminate|]. destruct (negb _); [intros [= <- _ _]; apply stay_refl|]. cbv zeta.
  destruct (find_stream c id) as [s|] eqn:F; [destruct (x_shut _)|]; try (intros [= <- _ _]; apply stay_refl).
  - destruct (dec_cancel_stream _ _); try discriminate. intros [= <- _ _]. eapply (stay_trans c (put c id (ss_x s (x_shut_rd (st_x s))))); [|apply stay_same; reflexivity]. eapply stay_put; [exact F|split; auto].
  - destruct (dec_cancel_stream _ _); try discriminate. intros [= <- _ _]. apply stay_same; reflexivity.
Qed.
Lemma q_server c id p c' rv evs : set_server_priority K c id p = KOk c' rv evs -> stay c c'.
Proof.
  unfold set_server_priority. destruct (negb _); [discriminate|]. destruct (negb _); [intros [= <- _ _]; apply stay_refl|].
  destruct (find_stream c id) as [s|] eqn:F; [|intros [= <- _ _]; apply stay_refl]. cbv zeta. intros H. apply lift_ok in H as (H & _). unfold update_priority in H. destruct (negb _); [discriminate|].
  unfold sched_do in H. destruct (sc_priority _ _ _ _); try discriminate. injection H as <-. eapply (stay_trans c (put c id (ss_sp s true))); [|apply stay_same; reflexivity]. eapply stay_put; [exact F|split; auto].
Qed.

(* calls on one stream *)
Lemma S_written c lf gf id n c' rv evs : (forall i, enc_ok (ke_tx K i)) -> (find_stream c id <> None -> 0 <= n /\ l_sent (tled (lf id)) + n <= l_hi (tled (lf id))) ->
  LT c lf gf -> TI c lf gf -> add_write_offset c id n = KOk c' rv evs -> done c lf gf (OAddWrite id n) rv evs c'.
Proof.
  intros EN C L T H. unfold add_write_offset in H. destruct (find_stream c id) as [s|] eqn:F.
  2:{ injection H as <- <- <-. split; [|apply kinds_quiet; auto; apply stay_quiet, stay_refl]. eapply TI_ext; [|exact T]. intros j Fj. unfold next, tlog1. cbn [ConnHist.c_op ConnHist.c_rv Z.eqb negb]. destruct (Z.eqb_spec id j); [congruence|rewrite app_nil_r; reflexivity]. }
  apply lift_ok in H as (H & -> & ->). apply obind_ok in H as (t & W & H). cbv zeta in H.
  assert (forall j, find_stream c' j = if j =? id then Some (ss_t s t) else find_stream c j) as G.
  { intros j. rewrite <- (find_put_if c id s (ss_t s t) F j). unfold sched_do in H. destruct (client_bidi id); [destruct (sc_written _ _ _ _); try discriminate|]; injection H as <-; reflexivity. }
  split; [|eapply kinds_one; eauto]. pose proof (tg_step (ke_tx K id) (kind id s) (st_t s) (lf id) (gf id) (OWritten n) (proj1 (EN id)) (T _ _ F)) as TS.
  cbn [texec] in TS. rewrite W in TS. destruct TS as [_ TS]; [apply C; congruence|apply fits_plain; [apply kind_known|reflexivity|discriminate]|].
  eapply TI_one; [exact T|exact F|exact G| |].
  - unfold next, tlog1. cbn [ConnHist.c_op ConnHist.c_rv Z.eqb negb]. rewrite Z.eqb_refl. cbn [gh1] in TS. rewrite gadd_0 in TS. exact TS.
  - intros j N. unfold next, tlog1. cbn [ConnHist.c_op ConnHist.c_rv Z.eqb negb]. destruct (Z.eqb_spec id j); [congruence|split; [apply app_nil_r|reflexivity]].
Qed.
Lemma ack_no_err q : forall s off e, ack_loop q s off <> Err e.
Proof.
  induction q as [|t q IH]; intros s off e; cbn [ack_loop]; [discriminate|]. destruct (_ && _); [|discriminate]. intros H.
  unfold pop_chunk in H. assert (forall cs, (let! (s0, calls) := ack_loop q cs off in Ok (s0, (match b_type t with BAlien => if t_acko s <? off then [Z.min off (t_ackb s + (b_last t - b_begin t)) - t_acko s] else [] | _ => [] end) ++ calls)) <> Err e) as G.
  { intros cs. destruct (ack_loop q cs off) as [[s0 calls]|e0|] eqn:A; cbn [obind]; try discriminate. intros [= ->]. eapply IH; eauto. }
  destruct (b_type t); cbn [obind] in H; try (eapply G; exact H). destruct (t_chunks s); [discriminate|]. destruct (negb _); [discriminate|]. cbn [obind] in H. eapply G; exact H.
Qed.
Lemma acks_map id calls : acks id (map (KAcked id) calls) = calls.
Proof. unfold acks. induction calls; cbn [map concat]; auto. rewrite Z.eqb_refl. cbn. congruence. Qed.
Lemma S_ack c lf gf id f (o : cop) (x : op) c' rv evs : (forall i, enc_ok (ke_tx K i)) -> o = ConnModel.OAddAck id (match x with TxSpec.OAddAck n => n | _ => 0 end) /\ (exists n, x = TxSpec.OAddAck n) /\ f = (fun t => tx_add_ack t (match x with TxSpec.OAddAck n => n | _ => 0 end)) \/
    o = OUpdateAck id (match x with OAck n => n | _ => 0 end) /\ (exists n, x = OAck n) /\ f = (fun t => tx_update_ack t (match x with OAck n => n | _ => 0 end)) ->
  (find_stream c id <> None -> TxSpec.op_ok (tled (lf id)) x) ->
  LT c lf gf -> TI c lf gf -> ack_call c id f = KOk c' rv evs -> done c lf gf o rv evs c'.
Proof.
  intros EN OX C L T H. unfold ack_call in H.
  assert (OA : forall j, opened_as j o = None) by (intros j; destruct OX as [(-> & _)|(-> & _)]; reflexivity).
  destruct (find_stream c id) as [s|] eqn:F.
  2:{ injection H as <- <- <-. split; [|apply kinds_quiet; auto; apply stay_quiet, stay_refl]. eapply TI_ext; [|exact T]. intros j Fj. unfold next, tlog1.
      destruct OX as [(-> & _)|(-> & _)]; cbn [ConnHist.c_op ConnHist.c_rv Z.eqb negb]; (destruct (Z.eqb_spec id j); [congruence|rewrite app_nil_r; reflexivity]). }
  assert (FP : fits (kind id s) x = true) by (apply fits_plain; [apply kind_known|destruct OX as [(_ & (n & ->) & _)|(_ & (n & ->) & _)]; reflexivity|destruct OX as [(_ & (n & ->) & _)|(_ & (n & ->) & _)]; discriminate]).
  pose proof (tg_step (ke_tx K id) (kind id s) (st_t s) (lf id) (gf id) x (proj1 (EN id)) (T _ _ F) ltac:(apply C; congruence) FP) as TS.
  destruct (f (st_t s)) as [[t calls]|e|] eqn:FF; [| |discriminate].
  - injection H as <- <- <-. pose proof (find_put_if c id s (ss_t s t) F) as G. split; [|eapply kinds_one; eauto]. eapply TI_one; [exact T|exact F|exact G| |].
    + unfold next, tlog1. destruct OX as [(-> & (n & ->) & ->)|(-> & (n & ->) & ->)]; cbn [ConnHist.c_op ConnHist.c_rv c_evs Z.eqb negb]; rewrite Z.eqb_refl, acks_map; cbn [texec] in TS; rewrite FF in TS; cbn [gh1] in TS; rewrite gadd_0 in TS; apply TS.
    + intros j N. unfold next, tlog1. destruct OX as [(-> & _)|(-> & _)]; cbn [ConnHist.c_op ConnHist.c_rv Z.eqb negb]; (destruct (Z.eqb_spec id j); [congruence|split; [apply app_nil_r|reflexivity]]).
  - injection H as <- <- <-. assert (e <> 0) as NE.
    { destruct OX as [(_ & _ & ->)|(_ & _ & ->)]; [exfalso; eapply ack_no_err; exact FF|]. unfold tx_update_ack in FF. destruct (_ <? _); [injection FF as <-; discriminate|exfalso; eapply ack_no_err; exact FF]. }
    apply done_quiet; auto; [|apply stay_quiet, stay_refl]. intros ty j. unfold tlog1. apply Z.eqb_neq in NE. destruct OX as [(-> & _)|(-> & _)]; cbn [ConnHist.c_op ConnHist.c_rv]; rewrite NE; reflexivity.
Qed.
Lemma S_resume c lf gf id c' rv evs : (forall i, enc_ok (ke_tx K i)) -> LT c lf gf -> TI c lf gf -> wake_with c id (fun s => ss_t s (tx_resume (st_t s))) = KOk c' rv evs -> done c lf gf (ConnModel.OResume id) rv evs c'.
Proof.
  intros EN L T H. unfold wake_with in H. assert (NE : forall ty j, tlog1 K ty j (mk_call (ConnModel.OResume id) rv evs c') = []) by (intros; unfold tlog1; cbn [ConnHist.c_op ConnHist.c_rv]; destruct (negb _); reflexivity).
  destruct (find_stream c id) as [s|] eqn:F; [|injection H as <- _ _; apply done_quiet; auto; apply stay_quiet, stay_refl]. cbv zeta in H. apply lift_ok in H as (H & _).
  assert (forall j, find_stream c' j = if j =? id then Some (ss_t s (tx_resume (st_t s))) else find_stream c j) as G.
  { intros j. rewrite <- (find_put_if c id s (ss_t s (tx_resume (st_t s))) F j). unfold sched_do in H. destruct (client_bidi id); [destruct (sc_wake _ _ _); try discriminate|]; injection H as <-; reflexivity. }
  split; [|eapply kinds_one; eauto]. pose proof (tg_step (ke_tx K id) (kind id s) (st_t s) (lf id) (gf id) TxSpec.OResume (proj1 (EN id)) (T _ _ F) I) as TS.
  cbn [texec] in TS. destruct TS as [_ TS]; [apply fits_plain; [apply kind_known|reflexivity|discriminate]|]. cbn [tv1 gh1] in TS. rewrite app_nil_r, gadd_0 in TS.
  eapply TI_one; [exact T|exact F|exact G| |]; intros; unfold next; rewrite NE, app_nil_r; auto.
Qed.
(* frames are queued *)
Lemma tg_submit c lf gf id s frs fin : (forall i, enc_ok (ke_tx K i)) -> TI c lf gf -> find_stream c id = Some s -> kind id s = None \/ kind id s = Some 0 -> Forall frame_ok frs ->
  txgx (ke_tx K id) (kind id s) (tx_submit (st_t s) frs fin) (lf id ++ [TSubmit frs fin]) (gf id).
Proof.
  intros EN T F KD FO. pose proof (tg_step (ke_tx K id) (kind id s) (st_t s) (lf id) (gf id) (OSubmit frs fin) (proj1 (EN id)) (T _ _ F) FO) as TS. cbn [texec gh1] in TS. rewrite gadd_0 in TS. apply TS.
  destruct KD as [-> | ->]; reflexivity.
Qed.
Lemma S_submit c lf gf id s nva dr fin c' rv evs : (forall i, enc_ok (ke_tx K i)) -> TI c lf gf -> find_stream c id = Some s -> kind id s = None -> nva <> [] -> submit_headers c id s nva dr fin = KOk c' rv evs ->
  rv = 0 /\ TI c' (fun j => lf j ++ if id =? j then [TSubmit (TxModel.FHeaders (nva_copy nva) :: (if dr then [TxModel.FData] else [])) fin] else []) gf /\
  exists t, forall j, find_stream c' j = if j =? id then Some (ss_t s t) else find_stream c j.
Proof.
  intros EN T F KD NN H. unfold submit_headers in H. cbv zeta in H. apply lift_ok in H as (H & -> & _). split; auto. set (t := tx_submit _ _ _) in *.
  assert (forall j, find_stream c' j = if j =? id then Some (ss_t s t) else find_stream c j) as G.
  { intros j. rewrite <- (find_put_if c id s (ss_t s t) F j). unfold sched_do in H. destruct (sc_submit _ _ _); try discriminate. injection H as <-; reflexivity. }
  split; [|exists t; exact G]. eapply TI_one; [exact T|exact F|exact G| |].
  - cbn beta. rewrite Z.eqb_refl. eapply tg_submit; eauto. constructor; [|destruct dr; repeat constructor]. cbn [frame_ok]. unfold nva_copy. destruct nva; [congruence|discriminate].
  - intros j N. cbn beta. split; [|reflexivity]. destruct (Z.eqb_spec id j); [congruence|apply app_nil_r].
Qed.
Lemma kind_bidi id s : client_bidi id = true -> kind id s = None. Proof. intros B. unfold kind. rewrite not_local_bidi; auto. Qed.
Lemma S_request c lf gf id nva dr c' rv evs : (forall i, enc_ok (ke_tx K i)) -> LT c lf gf -> TI c lf gf -> nva <> [] -> submit_request K c id nva dr = KOk c' rv evs -> done c lf gf (ORequest id nva dr) rv evs c'.
Proof.
  intros EN L T NN H. unfold submit_request in H. destruct (ke_server K || negb (has_enc c && id_ok id && client_bidi id)) eqn:G; [discriminate|].
  assert (client_bidi id = true) as CB by (apply orb_false_elim in G as [_ G]; apply negb_false_iff in G; apply andb_true_iff in G as [_ G]; exact G).
  assert (forall rv0 ty j, rv0 <> 0 -> tlog1 K ty j (mk_call (ORequest id nva dr) rv0 evs c') = []) as NE.
  { intros rv0 ty j N. unfold tlog1. cbn [ConnHist.c_op ConnHist.c_rv]. apply Z.eqb_neq in N. rewrite N. reflexivity. }
  destruct (c_closing _); [injection H as <- <- <-; apply done_quiet; [reflexivity|intros; apply NE; discriminate|auto|auto|apply stay_quiet, stay_refl]|].
  destruct (find_stream c id) eqn:F; [injection H as <- <- <-; apply done_quiet; [reflexivity|intros; apply NE; discriminate|auto|auto|apply stay_quiet, stay_refl]|]. cbv zeta in H.
  destruct (create_stream _ _ _ _) as [c1| |] eqn:CR; try discriminate. apply create_ok in CR as [_ ->]. set (s := new_stream id _) in *.
  destruct (grow_add c id s F eq_refl (not_local_bidi _ CB)) as [Q _].
  assert (find_stream (add_stream K c id s) id = Some s) as F1 by (rewrite (find_add K c id s id F), Z.eqb_refl; reflexivity).
  destruct (S_submit _ lf gf id s nva dr (negb dr) c' rv evs EN (TI_quiet _ _ _ _ Q L T) F1 (kind_bidi _ _ CB) NN H) as (-> & T' & t & FF). split.
  - eapply TI_ext; [|exact T']. intros j _. unfold next, tlog1. cbn [ConnHist.c_op ConnHist.c_rv Z.eqb negb]. reflexivity.
  - intros j s' Fj. rewrite FF in Fj. destruct (Z.eqb_spec j id) as [->|N].
    + rewrite F. injection Fj as <-. rewrite kind_bidi; auto.
    + destruct (find_stream c j) as [s0|] eqn:F0; rewrite (find_add K c id s j F) in Fj; apply Z.eqb_neq in N; rewrite N in Fj; congruence.
Qed.
Lemma S_more c lf gf id nva dr fin o s c' rv evs : (forall i, enc_ok (ke_tx K i)) -> TI c lf gf -> find_stream c id = Some s -> nva <> [] -> client_bidi id = true -> submit_headers c id s nva dr fin = KOk c' rv evs ->
  (forall ty j, tlog1 K ty j (mk_call o 0 evs c') = if id =? j then [TSubmit (TxModel.FHeaders (nva_copy nva) :: (if dr then [TxModel.FData] else [])) fin] else []) -> done c lf gf o rv evs c'.
Proof.
  intros EN T F NN CB H TL. destruct (S_submit c lf gf id s nva dr fin c' rv evs EN T F (kind_bidi _ _ CB) NN H) as (-> & T' & t & FF). split; [|eapply kinds_one; eauto].
  eapply TI_ext; [|exact T']. intros j _. unfold next. rewrite TL. reflexivity.
Qed.
(* on the control stream *)
Definition NI (c : conn) : Prop := forall id s, find_stream c id = Some s -> kind id s = Some 0 -> k_tctl c = Some id.
Lemma DI_ctl c id s : DI K c -> k_tctl c = Some id -> find_stream c id = Some s -> kind id s = Some 0.
Proof. intros D E F. destruct (D id) as (D1 & _ & _). destruct (D1 E) as (L & s' & F' & U). unfold kind. rewrite L. replace s with s' by congruence. rewrite U. reflexivity. Qed.
Lemma DI_enc c id s : DI K c -> k_tenc c = Some id -> find_stream c id = Some s -> kind id s = Some 2.
Proof. intros D E F. destruct (D id) as (_ & D1 & _). destruct (D1 E) as (L & s' & F' & U). unfold kind. rewrite L. replace s with s' by congruence. rewrite U. reflexivity. Qed.
Lemma DI_dec c id s : DI K c -> k_tdec c = Some id -> find_stream c id = Some s -> kind id s = Some 3.
Proof. intros D E F. destruct (D id) as (_ & _ & D1). destruct (D1 E) as (L & s' & F' & U). unfold kind. rewrite L. replace s with s' by congruence. rewrite U. reflexivity. Qed.
Lemma S_ctl c lf gf q s fr o c' rv evs : (forall i, enc_ok (ke_tx K i)) -> TI c lf gf -> DI K c -> NI c -> k_tctl c = Some q -> find_stream c q = Some s -> frame_ok fr ->
  (forall j, find_stream c' j = find_stream (put c q (ss_t s (tx_submit (st_t s) [fr] false))) j) -> (forall ty j, tlog1 K ty j (mk_call o rv evs c') = if is_ctl ty then [TSubmit [fr] false] else []) -> done c lf gf o rv evs c'.
Proof.
  intros EN T D NK Q F FO G TL. assert (forall j, find_stream c' j = if j =? q then Some (ss_t s (tx_submit (st_t s) [fr] false)) else find_stream c j) as FJ by (intros j; rewrite G; apply (find_put_if c q s); auto).
  pose proof (DI_ctl _ _ _ D Q F) as KD. split; [|eapply kinds_one; eauto]. intros j s' Fj. unfold next. rewrite TL. unfold kindc. rewrite Fj. rewrite FJ in Fj. destruct (Z.eqb_spec j q) as [->|N].
  - injection Fj as <-. change (kind q (ss_t s (tx_submit (st_t s) [fr] false))) with (kind q s). rewrite KD at 2. cbn [is_ctl]. eapply tg_submit; eauto.
  - destruct (is_ctl (kind j s')) eqn:IC; [|rewrite app_nil_r; auto]. exfalso. unfold is_ctl in IC. destruct (kind j s') as [[]|] eqn:KJ; try discriminate. pose proof (NK _ _ Fj KJ). congruence.
Qed.
End Send.
