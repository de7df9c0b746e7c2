(* Receiving, over histories of API calls: every call keeps the invariant of ConnRecv.v. *)
From Verif Require Import Base BaseLemmas Chunk ConvModel RdVarint QpackTabModel QpackDecModel QpackDecProofs QpackHistModel QpackHistProofs HttpModel HttpSpec
  BidiModel BidiHist BidiSpec BidiProofs BidiRun BidiCut BidiAcct BidiDec TraceSpec TraceHttp TraceProofs ControlModel GapModel PqModel PqProofs TxModel SchedModel SchedProofs SchedFair
  ConnModel ConnCtl ConnStep ConnWf ConnDecomp ConnRx ConnHist ConnRead ConnPri ConnShut ConnSched RecvSpec RecvLog ConnRecv.
Open Scope Z_scope.

Section R.
Variable K : kenv.
Variable rq : Z -> list QpackTabModel.nv * Z.
Hypothesis CAP : 0 <= s_cap (ke_set K).

Lemma R_encoder c lf src : wf K c -> RI K rq c lf -> LE c lf -> bytes src -> post K rq c lf (read_qpack_encoder K c src).
Proof.
  intros W [R B] L BS. unfold read_qpack_encoder. destruct (read_encoder (k_dec c) src) as [d [n|e|]] eqn:RE; [|apply dead_quiet; auto using r_t; apply (r_t _ _ _ _ R)|exact I].
  assert (dec_evolves (k_dec c) d) as DE by (eapply de_encoder_stream; [exact BS|exact RE|constructor]).
  assert (R0 K rq (kk_dec c d) lf) as R1.
  { constructor; [eapply (RD_on K rq c); [exact DE|exact (r_dec _ _ _ _ R)]| |exact (r_hp _ _ _ _ R)].
    intros id s CB F. eapply T_other; [exact DE|]. exact (r_t _ _ _ _ R id s CB F). }
  pose proof (R_unblock K rq (S (pq_size (k_blk c))) (kk_dec c d) lf (wf_dec _ _ _ W) R1) as U.
  destruct (unblock_loop _ _ _) as [c1 r1 e1|e e1|]; [| |exact I].
  - destruct U as [U1 U2]. split; [exact U1|]. intros id C N2. destruct (U2 id C) as [A1 A2]. split; [intros N; apply A1; auto|intros N; apply A2; auto].
  - intros id C. specialize (U id C). unfold is_open in U. change (find_stream (kk_dec c d) id) with (find_stream c id) in U. destruct (find_stream c id) eqn:F; [exact U|]. rewrite U, (L id F). apply seen_nil.
Qed.

(* a request stream appears *)
Lemma R_new c lf id s rej : wf K c -> RI K rq c lf -> find_stream c id = None -> id_range id -> lf id = lg0 -> st_x s = x_start K (rq id) id (k_dec c) rej -> RI K rq (add_stream K c id s) lf.
Proof.
  intros W [[A B C] D] F RG L0 X. assert (k_dec (add_stream K c id s) = k_dec c) as KD by (unfold add_stream; destruct (is_server_bidi K id); reflexivity).
  assert (b_blk (x_st (st_x s)) = false) as NB by (rewrite X; destruct rej; reflexivity).
  assert (k_blk (add_stream K c id s) = k_blk c) as KB by (unfold add_stream; destruct (is_server_bidi K id); reflexivity).
  split; [constructor|].
  - unfold RD. rewrite KD. exact A.
  - intros j t Cj. rewrite (find_add K c id s j F), KD. destruct (Z.eqb_spec j id) as [->|]; [intros [= <-]; rewrite L0, X; apply T_new; [auto|apply A|]|auto].
    unfold id_range, max_varint in RG. lia.
  - eapply HP_ext; [exact KB| |exact C]. intros j Hj. unfold ricnt. rewrite (find_add K c id s j F). destruct (Z.eqb_spec j id) as [->|]; auto.
    apply (wf_blk _ _ W) in Hj as (t & Ft & _). congruence.
  - intros j t. rewrite (find_add K c id s j F), KD. destruct (Z.eqb_spec j id) as [->|]; [intros [= <-] BK; congruence|apply D].
Qed.
Lemma server_start id d : ke_server K = true -> rx_init id http_init d = x_start K (rq id) id d false.
Proof. intros S. unfold x_start, role_of. rewrite S. reflexivity. Qed.

(* the control stream *)
Lemma R_update c lf id p c' : wf K c -> RI K rq c lf -> LE c lf -> good_cev (ke_server K) (CvPriority id p) -> on_priority_update K c id p = Ok c' ->
  RI K rq c' lf /\ forall j, find_stream c' j = None -> find_stream c j = None.
Proof.
  intros W R L G H. destruct G as (SV & CB & _ & RG). unfold on_priority_update in H. destruct (find_stream c id) as [s|] eqn:F.
  - destruct (st_sp s); [injection H as <-; auto|]. unfold update_priority in H. destruct (negb _); [discriminate|]. unfold sched_do in H. destruct (sc_priority _ _ _ _) as [sch'| |]; try discriminate. injection H as <-.
    split; [refine (like_RI K rq c _ lf W _ R); eapply like_trans; [exact (like_put c id s (ss_pu s true) F eq_refl)|apply like_same; reflexivity]|].
    intros j. change (find_stream (put c id (ss_pu s true)) j = None -> find_stream c j = None). rewrite find_put, F. destruct (j =? id); [discriminate|auto].
  - destruct (_ && _); [injection H as <-; auto|]. apply obind_ok in H as ([rv g] & IT & H). destruct (negb _); [destruct (_ =? _); [injection H as <-; auto|discriminate]|].
    cbv zeta in H. apply obind_ok in H as (c1 & CR & [= <-]). apply create_ok in CR as [F1 ->]. set (c0 := kk_maxid (kk_idtr c g) (Z.max (k_maxid c) id)) in *.
    assert (wf K c0) as W0.
    { assert (c0 = kk_ndec (kk_maxcl (kk_maxid (kk_idtr c g) (Z.max (k_maxid c) id)) (k_maxcl c)) (k_ndec c)) as -> by (unfold c0; destruct c; reflexivity). eapply kst_wf; [exact W|apply t_misc; [right; eexists _, _; split; [exact RG|exact IT]|lia|lia]]. }
    assert (RI K rq c0 lf) as R' by (eapply like_RI; [exact W| |exact R]; apply like_same; reflexivity).
    split; [eapply (same_RI K rq (add_stream K c0 id (ss_pu (new_stream id (rx_init id http_init (k_dec c0))) true))); [reflexivity|reflexivity|reflexivity|]; exact (R_new c0 lf id (ss_pu (new_stream id (rx_init id http_init (k_dec c0))) true) false W0 R' F1 RG (L id F) (server_start id (k_dec c) SV))|].
    intros j. change (find_stream (add_stream K c0 id (ss_pu (new_stream id (rx_init id http_init (k_dec c0))) true)) j = None -> find_stream c j = None).
    rewrite (find_add K c0 id _ j F1). destruct (j =? id); [discriminate|auto].
Qed.
Lemma R_updates evs : forall c lf c', wf K c -> RI K rq c lf -> LE c lf -> Forall (good_cev (ke_server K)) evs -> apply_updates K c evs = Ok c' ->
  RI K rq c' lf /\ forall j, find_stream c' j = None -> find_stream c j = None.
Proof.
  induction evs as [|e evs IH]; intros c lf c' W R L G H; cbn [apply_updates] in H; [injection H as <-; auto|]. inversion G as [|? ? G1 G2]; subst.
  assert ((exists id p, e = CvPriority id p) \/ (forall id p, e <> CvPriority id p)) as [(id & p & ->)|N] by (destruct e; [right; congruence|right; congruence|right; congruence|right; congruence|right; congruence|right; congruence|left; eauto]).
  - apply obind_ok in H as (c1 & O & H). destruct (R_update c lf id p c1 W R L G1 O) as [R1 N1].
    assert (wf K c1) as W1 by (eapply ds_wf; [exact W|]; eapply (ds_prio_update K 0 [] false); eauto).
    destruct (IH c1 lf c' W1 R1) as [R2 N2]; auto. intros j Nj. apply L. auto.
  - assert (apply_updates K c evs = Ok c') as H' by (destruct e; auto; exfalso; eapply N; eauto). eapply IH; eauto.
Qed.
Lemma R_control c lf src : wf K c -> RI K rq c lf -> LE c lf -> bytes src -> post K rq c lf (read_control_stream K c src).
Proof.
  intros W R L B. unfold read_control_stream. pose proof (read_control_fact (mk_cenv (ke_server K) (k_maxcl c) (ke_sf K)) (k_ctl c) src (wf_ctl _ _ W) B) as RF.
  assert (forall e evs, post K rq c lf (KDead e (map KControl evs))) as DEAD by (intros; apply dead_quiet; auto using shown_control; apply R).
  destruct (read_control _ _ _ _) as [s' ev| | |] eqn:RC; auto; try exact I. destruct RF as [R1 R2].
  destruct (apply_updates _ _ _) as [c1| |] eqn:A; auto; [|exact I].
  assert (wf K (kk_ctl c s')) as W1 by (eapply kst_wf; [exact W|eapply t_ctl; eauto]).
  assert (RI K rq (kk_ctl c s') lf) as R' by (eapply same_RI; [| | |exact R]; reflexivity).
  destruct (R_updates ev (kk_ctl c s') lf c1 W1 R' L R2 A) as [R3 N]. split.
  - eapply RI_eq; [|exact R3]. intros id C _. symmetry. apply ext_quiet; [apply shown_control|apply deferred_control].
  - intros id C N2. split; [intros N1; exfalso; apply N1; exact (N id N2)|intros _; split; [apply shown_control|apply deferred_control]].
Qed.

(* unidirectional streams *)
Lemma post_like c c1 lf r : like c c1 -> post K rq c1 lf r -> post K rq c lf r.
Proof. intros L P. destruct r as [c' rv evs| |]; auto. destruct P as [P1 P2]. split; auto. intros id C N2. destruct (P2 id C N2) as [P3 P4]. split; intros N1; [apply P3|apply P4]; rewrite (like_none _ _ id L C); exact N1. Qed.
Lemma post_rv c lf r f : post K rq c lf r -> post K rq c lf (match r with KOk c n evs => KOk c (f n) evs | KDead e evs => KDead e evs | KAbort => KAbort end).
Proof. destruct r; auto. Qed.
Lemma R_typed c lf id s src fin : wf K c -> RI K rq c lf -> LE c lf -> bytes src -> post K rq c lf (read_uni_typed K c id s src fin).
Proof.
  intros W R L B. assert (forall e, post K rq c lf (KDead e [])) as DEAD by (intros; apply dead_quiet; auto; apply R).
  unfold read_uni_typed. destruct (st_u s); [exact I|destruct fin; auto; apply R_control; auto|destruct fin; auto; apply R_encoder; auto|destruct fin; auto; destruct (ke_dec _ _ _); auto; try exact I|].
  - apply ok_quiet; auto. apply like_same; reflexivity.
  - apply ok_quiet; auto using like_refl. intros i _. destruct fin; split; reflexivity.
Qed.
Lemma read_type_like c id s rvi src fin c1 s1 o : find_stream c id = Some s -> read_type c id s rvi src fin = Ok (c1, s1, o) -> like c c1.
Proof.
  intros F. unfold read_type. destruct (rd_varint _ _ _); try discriminate.
  - intros [= <- <- _]. apply (like_put c id s); auto.
  - intros H. apply obind_ok in H as ([c2 u] & ID & [= <- <- _]). destruct (identify_same _ _ _ _ ID) as [-> _]. eapply like_trans; [exact (like_put c id s (ss_u s u) F eq_refl)|apply like_same; reflexivity].
Qed.
Lemma R_uni c lf id s src fin : wf K c -> RI K rq c lf -> LE c lf -> bytes src -> find_stream c id = Some s -> peer_uni K id = true -> post K rq c lf (read_uni K c id s src fin).
Proof.
  intros W R L B F PU. assert (forall e, post K rq c lf (KDead e [])) as DEAD by (intros; apply dead_quiet; auto; apply R).
  unfold read_uni. destruct (st_u s) as [rvi| | | |] eqn:U; try (apply R_typed; assumption).
  destruct (_ && _).
  { destruct (negb _); auto. unfold delete_stream. destruct (drop_stream _ _ _ _ _) as [c1 rv evs|e evs|] eqn:DR; [| |exact I].
    - apply drop_rem in DR as [-> ->]. pose proof (peer_is_uni _ _ PU) as UN. apply ok_quiet; auto.
      + eapply like_rem; eauto; [apply uni_bidi; auto|eapply wf_ux; eauto].
      + intros i Ci. rewrite shown_app, deferred_app, shown_deferred, deferred_deferred, shown_closed, deferred_closed. destruct (Z.eqb_spec id i) as [->|]; auto. apply uni_bidi in UN. congruence.
    - unfold drop_stream in DR. destruct (is_server_bidi K id); [destruct (_ <=? _)|]; discriminate. }
  destruct (read_type c id s rvi src fin) as [[[c1 s1] o]|e|] eqn:RT; auto; [|exact I]. pose proof (read_type_like _ _ _ _ _ _ _ _ _ F RT) as LK.
  assert (wf K c1) as W1.
  { unfold read_type in RT. destruct (rd_varint _ _ _) as [rvi'|v rest| |]; try discriminate; cycle 1.
    - apply obind_ok in RT as ([c2 u] & ID & [= <- <- _]). eapply kst_wf; [exact W|eapply t_type; eauto].
    - injection RT as <- <- _. eapply kst_wf; [exact W|eapply t_typing; eauto]. }
  assert (LE c1 lf) as L1. { intros j Nj. apply L. destruct (find_stream c j) as [t|] eqn:Fj; auto. exfalso. unfold read_type in RT. destruct (rd_varint _ _ _) as [rvi'|v rest| |]; try discriminate; cycle 1.
    - apply obind_ok in RT as ([c2 u] & ID & [= <- <- _]). destruct (identify_same _ _ _ _ ID) as [E2 _]. rewrite E2 in Nj. change (find_stream (put c id (ss_u s u)) j = None) in Nj. rewrite find_put, F in Nj. destruct (j =? id); congruence.
    - injection RT as <- <- _. rewrite find_put, F in Nj. destruct (j =? id); congruence. }
  destruct o as [rest|]; [|apply ok_quiet; auto].
  cbv zeta. destruct (zlen rest =? 0); [apply ok_quiet; auto|]. eapply post_like; [exact LK|]. apply (post_rv c1 lf (read_uni_typed K c1 id s1 rest fin) (fun n => zlen src - zlen rest + n)).
  apply R_typed; auto; [exact (like_RI K rq c c1 lf W LK R)|]. unfold read_type in RT. destruct (rd_varint _ _ _) as [rvi'|v rest'| |] eqn:RV; try discriminate.
  apply obind_ok in RT as ([c2 u] & ID & [= _ _ <-]). eapply bytes_rest; eauto.
Qed.

(* ---- the outcome of a call ---- *)
Definition logcall (lf : Z -> lg) (o : cop) (rv : Z) (evs : list kev) (id : Z) : lg := lg_add (lf id) (given1 id o) (shown id evs) (returned1 id o rv) (deferred_to id evs).
Definition postO (c : conn) (lf : Z -> lg) (o : cop) (r : kres) : Prop :=
  match r with
  | KOk c' rv evs => RI K rq c' (logcall lf o rv evs) /\ forall id, client_bidi id = true -> find_stream c' id = None ->
      (find_stream c id <> None -> fine K (rq id) (logcall lf o rv evs id) 0) /\ (find_stream c id = None -> shown id evs = [] /\ deferred_to id evs = 0)
  | KDead _ evs => forall id, client_bidi id = true -> seen_ok K (rq id) (l_evs (lf id) ++ shown id evs)
  | KAbort => True
  end.
Lemma post_call c lf o r : (forall id rv, client_bidi id = true -> given1 id o = [] /\ returned1 id o rv = 0) -> post K rq c lf r -> postO c lf o r.
Proof.
  intros H P. destruct r as [c' rv evs| |]; auto. assert (forall id, client_bidi id = true -> extR lf evs id = logcall lf o rv evs id) as E by (intros id C; unfold extR, logcall; destruct (H id rv C) as [-> ->]; reflexivity).
  destruct P as [P1 P2]. split; [eapply RI_eq; [|exact P1]; intros; apply E; auto|]. intros id C N2. rewrite <- E; auto.
Qed.
Lemma uni_call id src fin i rv : client_bidi i = true -> client_bidi id = false -> given1 i (ORead id src fin) = [] /\ returned1 i (ORead id src fin) rv = 0.
Proof. intros A B. cbn. destruct (Z.eqb_spec id i) as [->|]; [congruence|auto]. Qed.
Lemma post_nothing c lf id fin rv evs c' : (forall i, client_bidi i = true -> find_stream c' i = None -> find_stream c i = None) -> RI K rq c' lf -> (forall i, shown i evs = [] /\ deferred_to i evs = 0) -> rv = 0 ->
  postO c lf (ORead id [] fin) (KOk c' rv evs).
Proof.
  intros N R Q ->. split.
  - eapply RI_eq; [|exact R]. intros i C _. destruct (Q i) as [Q1 Q2]. unfold logcall, lg_add. rewrite Q1, Q2. cbn [given1 returned1]. destruct (id =? i); apply lg_eq; cbn; rewrite ?app_nil_r; auto; lia.
  - intros i C N2. split; [intros N1; exfalso; apply N1; auto|intros _; apply Q].
Qed.
Lemma R_existing c c0 lf id s src fin pre : wf K c0 -> RI K rq c0 lf -> LE c0 lf -> find_stream c0 id = Some s -> bytes src -> client_bidi id = true \/ peer_uni K id = true ->
  (forall j, client_bidi j = true -> find_stream c0 j = None -> find_stream c j = None) -> (forall j, j <> id -> find_stream c j = None -> find_stream c0 j = None) -> (forall i, shown i pre = [] /\ deferred_to i pre = 0) ->
  postO c lf (ORead id src fin) (k_evs pre (read_existing K c0 id s src fin)).
Proof.
  intros W R L F B KD N N' Q. unfold read_existing. destruct ((zlen src =? 0) && negb fin) eqn:Z0.
  { apply andb_prop in Z0 as [Z0 _]. apply Z.eqb_eq in Z0. apply zlen_nil in Z0. subst src. cbn [k_evs]. rewrite app_nil_r. apply post_nothing; auto. }
  destruct (stream_uni id) eqn:UN.
  - assert (peer_uni K id = true) as PU by (destruct KD as [C|]; auto; apply bidi_uni in C; congruence).
    assert (client_bidi id = false) as NB by (apply uni_bidi; auto).
    pose proof (R_uni c0 lf id s src fin W R L B F PU) as P. apply (post_call _ _ (ORead id src fin)) in P; [|intros; apply uni_call; auto].
    destruct (read_uni K c0 id s src fin) as [c' rv evs|e evs|]; cbn [k_evs postO] in *; auto.
    + destruct P as [P1 P2]. assert (forall i, logcall lf (ORead id src fin) rv evs i = logcall lf (ORead id src fin) rv (pre ++ evs) i) as E by (intros i; unfold logcall; destruct (Q i) as [Q1 Q2]; rewrite shown_app, deferred_app, Q1, Q2; reflexivity).
      split; [eapply RI_eq; [|exact P1]; auto|]. intros i Ci N2. rewrite <- E. destruct (P2 i Ci N2) as [P3 P4]. assert (i <> id) as NI by congruence. destruct (Q i) as [Q1 Q2]. rewrite shown_app, deferred_app, Q1, Q2. split; intros N1; [apply P3; auto|apply P4; auto].
    + intros i Ci. destruct (Q i) as [Q1 _]. rewrite shown_app, Q1. apply P; auto.
  - assert (client_bidi id = true) as CB by (destruct KD as [|PU]; auto; apply peer_is_uni in PU; congruence).
    pose proof (R_request K rq c0 lf id s src fin W R L F CB B) as P. destruct (read_request_stream K c0 id s src fin) as [c' rv evs|e evs|]; cbn [k_evs postO] in *; auto.
    + destruct P as (P1 & P2 & P3). split.
      * eapply RI_eq; [|exact P1]. intros i _ _. unfold logcall. destruct (Q i) as [Q1 Q2]. rewrite shown_app, deferred_app, Q1, Q2. cbn [given1 returned1]. reflexivity.
      * intros i Ci N2. split; [intros N1; exfalso; apply N1; apply N; auto; apply P2; exact N2|]. intros _. apply P2 in N2. assert (i <> id) as NI by congruence. destruct (Q i) as [Q1 Q2], (P3 i NI) as [P4 P5]. rewrite shown_app, deferred_app, Q1, Q2, P4, P5. auto.
    + intros i Ci. destruct (Q i) as [Q1 _]. rewrite shown_app, Q1. apply P; auto.
Qed.
Lemma k_evs_nil r : k_evs [] r = r. Proof. destruct r; reflexivity. Qed.
Lemma R_read c lf id src fin : wf K c -> RI K rq c lf -> LE c lf -> bytes src -> postO c lf (ORead id src fin) (read_stream K c id src fin).
Proof.
  intros W R L B. assert (forall e, postO c lf (ORead id src fin) (KDead e [])) as DEAD by (intros e; exact (dead_quiet K rq c lf e [] (r_t _ _ _ _ (proj1 R)) L (fun _ _ => eq_refl))).
  unfold read_stream. destruct ((id <? 0) || (max_varint <? id)) eqn:RG; [exact I|]. apply orb_false_iff in RG as [RG1 RG2]. apply Z.ltb_ge in RG1, RG2. assert (id_range id) as RG by (split; auto).
  destruct (find_stream c id) as [s|] eqn:F.
  - destruct (client_bidi id || _) eqn:KD; [|exact I]. rewrite <- (k_evs_nil (read_existing _ _ _ _ _ _)). apply R_existing; auto. apply orb_true_iff in KD. exact KD.
  - cbv zeta. destruct (is_server_bidi K id) eqn:SB.
    + destruct (conn_bidi_idtr_open (k_idtr c) id) as [[r g]| |] eqn:IT; auto; [|exact I]. set (c0 := kk_maxid (kk_idtr c g) (Z.max (k_maxid c) id)).
      change (k_queued c0 && (k_goaway c0 <=? id)) with (rejected c id). set (s := if rejected c id then _ else _). destruct (create_stream K c0 id s) as [c1| |] eqn:CR; auto; [|exact I].
      apply create_ok in CR as [F0 ->]. assert (wf K (add_stream K c0 id s)) as W1 by (apply (opened_wf K c id _ s (if rejected c id then [KStop id H3_REQUEST_REJECTED; KReset id H3_REQUEST_REJECTED] else [])); auto; eapply op_request; eauto).
      unfold is_server_bidi in SB. apply andb_prop in SB as [SV CB].
      assert (wf K c0) as W0.
      { assert (c0 = kk_ndec (kk_maxcl (kk_maxid (kk_idtr c g) (Z.max (k_maxid c) id)) (k_maxcl c)) (k_ndec c)) as -> by (unfold c0; destruct c; reflexivity). eapply kst_wf; [exact W|apply t_misc; [right; eexists _, _; split; [exact RG|exact IT]|lia|lia]]. }
      assert (st_x s = x_start K (rq id) id (k_dec c0) (rejected c id)) as SX by (unfold s; rewrite server_start by auto; destruct (rejected c id); reflexivity).
      assert (RI K rq c0 lf) as R' by (eapply same_RI; [| | |exact R]; reflexivity).
      pose proof (find_add K c0 id s) as FA.
      apply R_existing; auto.
      * exact (R_new c0 lf id s (rejected c id) W0 R' F0 RG (L id F) SX).
      * intros j Nj. rewrite (FA j F0) in Nj. destruct (j =? id); [discriminate|]. apply L. exact Nj.
      * rewrite (FA id F0), Z.eqb_refl. reflexivity.
      * intros j _ Nj. rewrite (FA j F0) in Nj. destruct (j =? id); [discriminate|]. exact Nj.
      * intros j Nj Fj. rewrite (FA j F0). destruct (Z.eqb_spec j id); [congruence|exact Fj].
      * intros i. destruct (rejected c id); split; reflexivity.
    + change (if ke_server K then client_uni id else server_uni id) with (peer_uni K id). destruct (peer_uni K id) eqn:PU; auto.
      destruct ((zlen src =? 0) && fin) eqn:Z0.
      { apply andb_prop in Z0 as [Z0 _]. apply Z.eqb_eq in Z0. apply zlen_nil in Z0. subst src. apply post_nothing; auto. }
      set (s := new_stream _ _). destruct (create_stream K c id s) as [c1| |] eqn:CR; auto; [|exact I]. apply create_ok in CR as [_ ->].
      pose proof (find_add K c id s) as FA. assert (client_bidi id = false) as NB by (apply uni_bidi; eapply peer_is_uni; eauto).
      assert (like c (add_stream K c id s)) as LK by (apply like_add; auto).
      rewrite <- (k_evs_nil (read_existing _ _ _ _ _ _)). apply R_existing; auto.
      * apply (opened_wf K c id _ s []); auto. apply op_uni; auto.
      * eapply like_RI; eauto.
      * intros j Nj. rewrite (FA j F) in Nj. destruct (j =? id); [discriminate|]. apply L. exact Nj.
      * rewrite (FA id F), Z.eqb_refl. reflexivity.
      * intros j Cj Nj. rewrite (FA j F) in Nj. destruct (j =? id); [discriminate|]. exact Nj.
      * intros j Nj Fj. rewrite (FA j F). destruct (Z.eqb_spec j id); [congruence|exact Fj].
Qed.

(* ---- the calls that do not read ---- *)
Definition quiet_act (a : kact) : Prop :=
  match a with
  | ANew id _ => client_bidi id = false
  | ABlock _ _ | AWake _ _ | AServer _ _ | AGoaway _ _ | ASubmit _ _ _ _ | AWritten _ _ | AAcked _ _ | ABind _ _ _ | AOut _ | AMisc => True
  | _ => False
  end.
Lemma like_sch c c' sch : like c c' -> like c (kk_sch c' sch).
Proof. intros L. eapply like_trans; [exact L|apply like_same; reflexivity]. Qed.
Lemma kst_like c a c' : quiet_act a -> kst K c a c' -> like c c'.
Proof.
  intros Q H. destruct H; cbn [quiet_act] in Q; try contradiction; try (apply like_same; reflexivity).
  - apply like_add; auto. destruct H1 as [(SB & ->)|[(PU & ->)|[(LU & IO & u & _ & ->)|(_ & C & _)]]]; try reflexivity; [|congruence].
    unfold is_server_bidi in SB. apply andb_prop in SB as [_ SB]. congruence.
  - apply (like_put c id s); auto.
  - eapply like_trans; [apply (like_put c id s (ss_t s (tx_submit (st_t s) [FGoaway g] false))); auto|apply like_same; reflexivity].
  - apply like_sch. apply (like_put c id s); auto.
  - apply (like_put c id s); auto.
  - apply like_sch. apply (like_put c id s); auto.
  - apply like_sch. apply (like_put c id s); auto. destruct fc; reflexivity.
  - apply like_sch. apply (like_put c id s); auto. destruct fc; reflexivity.
  - apply like_sch. apply (like_put c id s); auto.
Qed.
Lemma ksts_like c acts c' : Forall quiet_act acts -> ksts K c acts c' -> like c c'.
Proof. intros Q H. induction H; [apply like_refl|]. inversion Q; subst. eapply like_trans; [eapply kst_like; eauto|auto]. Qed.
Lemma quiet_seen id acts : Forall quiet_act acts -> shown id (seen acts) = [] /\ deferred_to id (seen acts) = 0.
Proof.
  induction 1 as [|a l Q _ [IH1 IH2]]; [split; reflexivity|]. unfold seen in *. cbn [map concat]. rewrite shown_app, deferred_app, IH1, IH2.
  destruct a; cbn [quiet_act] in Q; try contradiction; cbn [vis]; auto. rewrite app_nil_r, Z.add_0_r. clear. match goal with |- context [map (KAcked _) ?k] => induction k as [|x k [IH1 IH2]] end; [split; reflexivity|]. split; [exact IH1|exact IH2].
Qed.
Definition quiet_op (o : cop) : bool :=
  match o with
  | ORead _ _ _ | ORequest _ _ _ | OClose _ _ | OShutRead _ | OMaxConcurrent _ | OWritev _ => false
  | _ => true
  end.
Lemma given_quiet id o rv : match o with ORead _ _ _ => False | _ => True end -> given1 id o = [] /\ returned1 id o rv = 0.
Proof. destruct o; cbn; tauto. Qed.
Lemma post_other c lf o r : match o with ORead _ _ _ => False | _ => True end -> post K rq c lf r -> postO c lf o r.
Proof. intros H. apply post_call. intros. apply given_quiet. exact H. Qed.
Lemma R_quiet c lf o c' rv evs : wf K c -> RI K rq c lf -> op_ok o -> quiet_op o = true -> kstep K c o = KOk c' rv evs -> postO c lf o (KOk c' rv evs).
Proof.
  intros W R OK Q S. apply post_other; [destruct o; auto; discriminate|].
  destruct (step_decomp _ _ _ _ _ _ W OK S) as (acts & D1 & D2 & D3 & _). assert (Forall quiet_act acts) as QA.
  { rewrite Forall_forall in *. intros a Ha. specialize (D3 a Ha). destruct a; cbn [allowed allowed0 quiet_act] in *; auto;
      try (destruct fc; subst o; discriminate Q); try (subst o; discriminate Q); try (destruct D3 as (? & ? & ? & ->); discriminate Q); try (destruct D3 as (? & ? & ->); discriminate Q); try (destruct D3 as (? & ->); discriminate Q).
    - destruct D3 as [(src & fin & ->)|[(nva & dr & ->)|[->|(a & b & -> & O)]]]; try discriminate Q; cbn [kstep] in S.
      + unfold bind_control in S. destruct (negb _) eqn:N; [discriminate|]. apply negb_false_iff, andb_prop in N as [_ LU]. destruct (client_bidi id) eqn:C; auto. exfalso. eapply local_not_bidi; eauto.
      + unfold bind_qpack in S. destruct (negb _) eqn:N; [discriminate|]. apply negb_false_iff, andb_prop in N as [N LU2]. apply andb_prop in N as [_ LU1]. destruct (client_bidi id) eqn:C; auto. exfalso. destruct O as [-> | ->]; [exact (local_not_bidi K _ LU1 C)|exact (local_not_bidi K _ LU2 C)].
    - destruct D3 as [(? & ? & ? & ->)|(? & ->)]; discriminate Q.
    - destruct o; auto; discriminate Q. }
  apply ok_quiet; auto; [eapply ksts_like; eauto|]. intros id C. rewrite <- D2. apply quiet_seen; auto.
Qed.
Lemma dead_silent c o e evs : match o with ORead _ _ _ => False | _ => True end -> kstep K c o = KDead e evs -> evs = [].
Proof.
  intros H S.
  assert (forall x, k_lift x = KDead e evs -> evs = []) as KL by (intros x; unfold k_lift; destruct x; congruence).
  destruct o; try contradiction; cbn [kstep] in S.
  - unfold bind_control in S. destruct (negb _); [discriminate|]. destruct (k_tctl c); [discriminate|eauto].
  - unfold bind_qpack in S. destruct (negb _); [discriminate|]. destruct (k_tenc c), (k_tdec c); try discriminate. eauto.
  - unfold writev_call in S. destruct (writev_stream _ _ _) as [[c1 [[[i vs] f]|]]| |]; congruence.
  - unfold add_write_offset in S. destruct (find_stream c id); [eauto|discriminate].
  - unfold ack_call in S. destruct (find_stream c id); [|discriminate]. destruct (tx_add_ack _ _) as [[t calls]| |]; congruence.
  - unfold ack_call in S. destruct (find_stream c id); [|discriminate]. destruct (tx_update_ack _ _) as [[t calls]| |]; congruence.
  - unfold submit_request in S. destruct (_ || _); [discriminate|]. destruct (c_closing _); [discriminate|]. destruct (find_stream c id); [discriminate|]. destruct (create_stream _ _ _ _); try congruence. unfold submit_headers in S. eauto.
  - unfold submit_info in S. destruct (negb _); [discriminate|]. destruct (find_stream c id); [|discriminate]. unfold submit_headers in S. eauto.
  - unfold submit_response in S. destruct (negb _); [discriminate|]. destruct (find_stream c id); [|discriminate]. unfold submit_headers in S. eauto.
  - unfold submit_trailers in S. repeat match type of S with context [if ?b then _ else _] => destruct b; try discriminate end. destruct (find_stream c id); [|discriminate]. repeat match type of S with context [if ?b then _ else _] => destruct b; try discriminate end. unfold submit_headers in S. eauto.
  - unfold submit_shutdown_notice, queue_goaway in S. repeat match type of S with context [match ?b with _ => _ end] => destruct b; try discriminate end; congruence.
  - unfold shutdown, queue_goaway in S. repeat match type of S with context [match ?b with _ => _ end] => destruct b; try discriminate end; congruence.
  - unfold block_with, wake_with in S. destruct (find_stream c id); [cbv zeta in S; eapply KL; exact S|discriminate S].
  - unfold block_with, wake_with in S. destruct (find_stream c id); [cbv zeta in S; eapply KL; exact S|discriminate S].
  - unfold block_with, wake_with in S. destruct (find_stream c id); [cbv zeta in S; eapply KL; exact S|discriminate S].
  - unfold block_with, wake_with in S. destruct (find_stream c id); [cbv zeta in S; eapply KL; exact S|discriminate S].
  - unfold close_stream in S. destruct (find_stream c id); [|discriminate]. destruct (_ && _); [congruence|]. cbv zeta in S. destruct (sched_do _ _) as [c1| |]; try congruence. destruct (b_blk _); [discriminate|].
    unfold delete_stream, drop_stream in S. destruct (is_server_bidi K id); [destruct (_ <=? _)|]; discriminate.
  - unfold shutdown_read in S. destruct (negb (id_ok _)); [discriminate|]. destruct (negb _); [discriminate|]. destruct (find_stream c id) as [t|]; [destruct (x_shut _); [discriminate|]|]; destruct (dec_cancel_stream _ _); congruence.
  - unfold set_max_client in S. destruct (_ && _); discriminate.
  - discriminate.
  - unfold set_client_priority in S. repeat match type of S with context [match ?b with _ => _ end] => destruct b; try discriminate end.
  - unfold set_server_priority in S. repeat match type of S with context [if ?b then _ else _] => destruct b; try discriminate end. destruct (find_stream c id); [eauto|discriminate].
Qed.
Lemma dead_other c lf o e evs : RI K rq c lf -> LE c lf -> match o with ORead _ _ _ => False | _ => True end -> kstep K c o = KDead e evs -> postO c lf o (KDead e evs).
Proof.
  intros [R _] L H S. apply post_other; auto. apply dead_quiet; [apply (r_t _ _ _ _ R)|auto|]. intros id _. rewrite (dead_silent _ _ _ _ H S). reflexivity.
Qed.
(* sending *)
Lemma add_ebufs_like es : forall c c', add_ebufs c es = Ok c' -> like c c'.
Proof.
  induction es as [|e es IH]; intros c c'; cbn [add_ebufs]; [intros [= <-]; apply like_refl|]. destruct (k_tenc c) as [q|]; [|discriminate]. destruct (find_stream c q) as [s|] eqn:F; [|discriminate].
  intros H. apply obind_ok in H as (t & _ & H). eapply like_trans; [apply (like_put c q s (ss_t s t)); auto|]. apply IH. exact H.
Qed.
Lemma cw_like c id n c1 r : conn_writev K c id n = Ok (c1, r) -> like c c1.
Proof.
  unfold conn_writev. destruct (find_stream c id) as [s|] eqn:F; [|discriminate]. intros H. apply obind_ok in H as ([t es] & _ & H). apply obind_ok in H as (c2 & AE & H). apply obind_ok in H as (early & _ & H).
  assert (c1 = c2) as ->.
  { destruct early; [injection H as <- _; auto|]. destruct (find_stream c2 id); [|discriminate]. apply obind_ok in H as ([vs fin] & _ & [= <- _]). auto. }
  eapply like_trans; [apply (like_put c id s (ss_t s t)); auto|]. eapply add_ebufs_like; eauto.
Qed.
Lemma try_like c w n c1 r : try_uni K c w n = Ok (c1, r) -> like c c1.
Proof.
  unfold try_uni. destruct w as [id|]; [|intros [= <- _]; apply like_refl]. destruct (find_stream c id); [|discriminate]. destruct (is_blocked s); [intros [= <- _]; apply like_refl|].
  intros H. apply obind_ok in H as ([c2 o] & CW & [= <- _]). eapply cw_like; eauto.
Qed.
Lemma flush_like c c1 : flush_decoder c = Ok c1 -> like c c1.
Proof.
  unfold flush_decoder. destruct (k_tdec c) as [id|]; [|intros [= <-]; apply like_refl]. destruct (find_stream c id) as [s|] eqn:F; [|discriminate].
  destruct (is_blocked s); [intros [= <-]; apply like_refl|]. destruct (_ =? 0); [intros [= <-]; apply like_refl|].
  intros H. apply obind_ok in H as ([d l] & WD & H). apply obind_ok in H as (t & _ & [= <-]).
  apply like_trans with (b := kk_dec c d).
  - apply like_dec; [eapply de_decoder_stream; [exact WD|constructor]|]. unfold write_decoder in WD. repeat match type of WD with context [if ?b then _ else _] => destruct b; try discriminate end; injection WD as <- _; reflexivity.
  - apply (like_put (kk_dec c d) id s); auto.
Qed.
Lemma writev_like c n c1 r : writev_stream K c n = Ok (c1, r) -> like c c1.
Proof.
  unfold writev_stream. destruct (Nat.eqb n 0); [intros [= <- _]; apply like_refl|]. intros H. apply obind_ok in H as ([c2 o2] & T2 & H). apply try_like in T2. destruct o2; [injection H as <- _; auto|].
  apply obind_ok in H as (c3 & FL & H). apply flush_like in FL. pose proof (like_trans _ _ _ T2 FL) as L3. apply obind_ok in H as ([c4 o4] & T4 & H). apply try_like in T4. pose proof (like_trans _ _ _ L3 T4) as L4. destruct o4; [injection H as <- _; auto|].
  apply obind_ok in H as ([c5 o5] & T5 & H). apply try_like in T5. pose proof (like_trans _ _ _ L4 T5) as L5. destruct o5; [injection H as <- _; auto|].
  apply obind_ok in H as (nxt & _ & H). destruct nxt as [id|]; [|injection H as <- _; auto]. apply obind_ok in H as ([c6 o6] & T6 & H). apply cw_like in T6. pose proof (like_trans _ _ _ L5 T6) as L6.
  destruct (find_stream c6 id); [|discriminate]. apply obind_ok in H as (c7 & SD & [= <- _]). unfold sched_do in SD. destruct (if client_bidi id then _ else _); try discriminate. injection SD as <-. apply like_sch. exact L6.
Qed.
Lemma R_writev c lf n c' rv evs : wf K c -> RI K rq c lf -> kstep K c (OWritev n) = KOk c' rv evs -> postO c lf (OWritev n) (KOk c' rv evs).
Proof.
  intros W R S. apply post_other; [exact I|]. cbn [kstep] in S. unfold writev_call in S. destruct (writev_stream K c n) as [[c1 [[[i vs] fin]|]]| |] eqn:WS; try discriminate; injection S as <- <- <-; apply writev_like in WS.
  - apply ok_quiet; auto.
  - apply ok_quiet; auto.
Qed.
Lemma R_concurrent c lf n c' rv evs : wf K c -> RI K rq c lf -> kstep K c (OMaxConcurrent n) = KOk c' rv evs -> postO c lf (OMaxConcurrent n) (KOk c' rv evs).
Proof.
  intros W R S. apply post_other; [exact I|]. cbn [kstep] in S. unfold set_max_concurrent in S. injection S as <- <- <-. apply ok_quiet; auto. apply like_dec; [eapply de_concurrent; constructor|reflexivity].
Qed.
(* a request *)
Lemma R_submit c lf id nva dr c' rv evs : wf K c -> RI K rq c lf -> LE c lf -> (find_stream c id = None -> find_stream c' id <> None -> fst (rq id) = map same_nv nva) -> kstep K c (ORequest id nva dr) = KOk c' rv evs -> postO c lf (ORequest id nva dr) (KOk c' rv evs).
Proof.
  intros W R L RQ S. apply post_other; [exact I|]. cbn [kstep] in S. unfold submit_request in S. destruct (_ || _) eqn:G; [discriminate|]. apply orb_false_iff in G as [SV G]. apply negb_false_iff in G. apply andb_prop in G as [G CB]. apply andb_prop in G as [HE IO].
  destruct (c_closing _); [injection S as <- <- <-; apply ok_quiet; auto using like_refl|]. destruct (find_stream c id) eqn:F; [injection S as <- <- <-; apply ok_quiet; auto using like_refl|].
  cbv zeta in S. set (s := new_stream _ _) in S. destruct (create_stream K c id s) as [c1| |] eqn:CR; try discriminate. apply create_ok in CR as [_ ->].
  unfold submit_headers, sched_do in S. cbv zeta in S. set (s2 := ss_t s _) in S. destruct (sc_submit _ _ _) as [sch'| |]; try discriminate. cbn [k_lift] in S. injection S as <- <- <-.
  pose proof (find_add K c id s) as FA. assert (find_stream (add_stream K c id s) id = Some s) as F1 by (rewrite (FA id F), Z.eqb_refl; reflexivity).
  assert (forall j, find_stream (kk_sch (put (add_stream K c id s) id s2) sch') j = if j =? id then Some s2 else find_stream c j) as FJ.
  { intros j. change (find_stream (kk_sch (put (add_stream K c id s) id s2) sch') j) with (find_stream (put (add_stream K c id s) id s2) j). rewrite find_put, F1, (FA j F). destruct (j =? id); auto. }
  assert (id_range id) as RG by (unfold id_ok in IO; apply andb_prop in IO as [I1 I2]; apply Z.leb_le in I1, I2; split; auto).
  assert (fst (rq id) = map same_nv nva) as E by (apply RQ; auto; rewrite FJ, Z.eqb_refl; discriminate).
  assert (st_x s = x_start K (rq id) id (k_dec c) false) as SX by (unfold x_start, role_of; rewrite SV, E; reflexivity).
  split.
  - eapply RI_eq with (lf := lf); [intros; symmetry; apply ext_quiet; reflexivity|]. eapply like_RI with (c := add_stream K c id s).
    + eapply kst_wf; [exact W|]. apply t_new; auto; [right; right; right; repeat split; auto; exists nva; reflexivity|]. unfold is_server_bidi. rewrite SV. discriminate.
    + apply like_sch. apply (like_put _ id s); auto.
    + eapply R_new; eauto.
  - intros j C N2. split; [|auto]. intros N1. rewrite FJ in N2. destruct (j =? id); [discriminate|congruence].
Qed.
(* reading is shut down *)
Lemma R_shut c lf id c' rv evs : wf K c -> RI K rq c lf -> kstep K c (OShutRead id) = KOk c' rv evs -> postO c lf (OShutRead id) (KOk c' rv evs).
Proof.
  intros W R S. apply post_other; [exact I|]. cbn [kstep] in S. unfold shutdown_read in S. destruct (negb (id_ok id)); [discriminate|]. destruct (client_bidi id) eqn:CB; cbn [negb] in S; [|injection S as <- <- <-; apply ok_quiet; auto using like_refl].
  cbv zeta in S. assert (forall d d', dec_cancel_stream d id = Ok d' -> dec_evolves d d' /\ d_ctx d' = d_ctx d) as DC.
  { intros d d' H. split; [eapply de_cancel; [exact H|constructor]|]. unfold dec_cancel_stream in H. repeat match type of H with context [if ?b then _ else _] => destruct b; try discriminate end; try (injection H as <-; reflexivity). }
  destruct (find_stream c id) as [s|] eqn:F.
  - destruct (x_shut (st_x s)) eqn:XS; [injection S as <- <- <-; apply ok_quiet; auto using like_refl|]. set (s2 := ss_x s _) in S. change (k_dec (put c id s2)) with (k_dec c) in S. destruct (dec_cancel_stream (k_dec c) id) as [d| |] eqn:D; try discriminate. injection S as <- <- <-.
    destruct (DC _ _ D) as [DE DX]. assert (forall j, find_stream (kk_dec (put c id s2) d) j = if j =? id then Some s2 else find_stream c j) as FJ.
    { intros j. change (find_stream (kk_dec (put c id s2) d) j) with (find_stream (put c id s2) j). rewrite find_put, F. destruct (j =? id); auto. }
    split; [|intros j C N2; split; [intros N1|auto]; rewrite FJ in N2; destruct (j =? id); [discriminate|congruence]].
    eapply RI_eq with (lf := lf); [intros; symmetry; apply ext_quiet; reflexivity|]. destruct R as [[R1 R2 R3] R4]. split; [constructor|].
    + eapply (RD_on K rq c); [exact DE|exact R1].
    + intros j t C. rewrite FJ. cbn [k_dec kk_dec]. destruct (Z.eqb_spec j id) as [->|]; [intros [= <-]|intros Fj; eapply T_other; [exact DE|]; exact (R2 j t C Fj)].
      apply (T_shut K (rq id) id (st_x s) (k_dec c)); auto; [exact (R4 id s F)|]. apply (wf_x _ _ W _ _ F).
    + eapply (HP_ext c); [reflexivity| |exact R3]. intros j Hj. unfold ricnt. rewrite FJ. destruct (Z.eqb_spec j id) as [->|]; auto. rewrite F. reflexivity.
    + intros j t. rewrite FJ. cbn [k_dec kk_dec]. unfold settled, waits. rewrite DX. destruct (Z.eqb_spec j id) as [->|]; [intros [= <-]; exact (R4 id s F)|exact (R4 j t)].
  - destruct (dec_cancel_stream (k_dec c) id) as [d| |] eqn:D; try discriminate. injection S as <- <- <-. destruct (DC _ _ D) as [DE DX]. apply ok_quiet; auto. apply like_dec; auto.
Qed.
(* a stream is closed *)
Lemma R_close c lf id code c' rv evs : wf K c -> RI K rq c lf -> kstep K c (OClose id code) = KOk c' rv evs -> postO c lf (OClose id code) (KOk c' rv evs).
Proof.
  intros W R S. apply post_other; [exact I|]. cbn [kstep] in S. unfold close_stream in S. destruct (find_stream c id) as [s|] eqn:F; [|injection S as <- <- <-; apply ok_quiet; auto using like_refl].
  destruct (_ && _) eqn:CR; [discriminate|]. cbv zeta in S. unfold sched_do in S. destruct (sc_close _ _) as [sch'| |] eqn:SC; try discriminate. set (s1 := ss_code s code) in S. change (st_x s1) with (st_x s) in S.
  set (c1 := kk_sch (put c id s1) sch') in S. assert (forall j, find_stream c1 j = if j =? id then Some s1 else find_stream c j) as F1.
  { intros j. change (find_stream c1 j) with (find_stream (put c id s1) j). rewrite find_put, F. destruct (j =? id); auto. }
  assert (F1i : find_stream c1 id = Some s1) by (rewrite F1, Z.eqb_refl; reflexivity).
  assert (like c c1) as LK by (apply like_sch; apply (like_put c id s); auto). pose proof (like_RI K rq c c1 lf W LK R) as R1.
  destruct (b_blk (x_st (st_x s))) eqn:BK.
  - injection S as <- <- <-. set (s2 := ss_x s1 _). assert (forall j, find_stream (put c1 id s2) j = if j =? id then Some s2 else find_stream c j) as F2 by (intros j; rewrite find_put, F1i, F1; destruct (j =? id); auto).
    split; [|intros j C N2; split; [intros N1|auto]; rewrite F2 in N2; destruct (j =? id); [discriminate|congruence]].
    eapply RI_eq with (lf := lf); [intros; symmetry; apply ext_quiet; reflexivity|]. destruct R as [[A1 A2 A3] A4]. split; [constructor|].
    + exact A1.
    + intros j t C. rewrite F2. change (k_dec (put c1 id s2)) with (k_dec c). destruct (Z.eqb_spec j id) as [->|]; [intros [= <-]|intros Fj; exact (A2 j t C Fj)].
      apply (T_close K (rq id) id (st_x s) (k_dec c)); auto. exact (A4 id s F).
    + eapply (HP_ext c); [reflexivity| |exact A3]. intros j Hj. unfold ricnt. rewrite F2. destruct (Z.eqb_spec j id) as [->|]; auto. rewrite F. reflexivity.
    + intros j t. rewrite F2. change (k_dec (put c1 id s2)) with (k_dec c). destruct (Z.eqb_spec j id) as [->|]; [intros [= <-]; exact (A4 id s F)|exact (A4 j t)].
  - unfold delete_stream in S. apply drop_rem in S as [-> ->].
    assert (forall j, find_stream (rem_stream K c1 id) j = if j =? id then None else find_stream c j) as F2 by (intros j; rewrite find_rem, F1; destruct (j =? id); auto).
    destruct (client_bidi id) eqn:CB.
    + assert (x_inq (st_x s) = []) as Q0 by (eapply T_x_inv_q; [exact (r_t _ _ _ _ (proj1 R) id s CB F)|exact BK]).
      assert (forall j, extR lf (deferred id (buffered_len (x_inq (st_x s1))) ++ [KClosed id (st_code s1)]) j = lf j) as EX.
      { intros j. apply ext_quiet; rewrite ?shown_app, ?deferred_app, ?shown_deferred, ?deferred_deferred; cbn; auto. change (st_x s1) with (st_x s). unfold buffered_len. rewrite Q0. cbn. destruct (id =? j); reflexivity. }
      split.
      * eapply RI_eq with (lf := lf); [intros; symmetry; apply EX|]. destruct R as [[A1 A2 A3] A4]. assert (k_dec (rem_stream K c1 id) = k_dec c) as KD by (unfold rem_stream; destruct (is_server_bidi K id); reflexivity). split; [constructor|].
        -- unfold RD. rewrite KD. exact A1.
        -- intros j t C. rewrite F2, KD. destruct (j =? id); [discriminate|]. exact (A2 j t C).
        -- eapply (HP_ext c); [unfold rem_stream; destruct (is_server_bidi K id); reflexivity| |exact A3]. intros j Hj. unfold ricnt. rewrite F2. destruct (Z.eqb_spec j id) as [->|]; auto. apply (wf_blk _ _ W) in Hj as (t & Ft & Bt). congruence.
        -- intros j t. rewrite F2, KD. destruct (j =? id); [discriminate|]. exact (A4 j t).
      * intros j C N2. split; [|intros N1; assert (id <> j) by congruence; rewrite shown_app, deferred_app, shown_deferred, deferred_deferred; destruct (Z.eqb_spec id j); [congruence|auto]].
        intros N1. rewrite F2 in N2. destruct (Z.eqb_spec j id) as [->|]; [|congruence]. rewrite EX. eapply T_fine_idle; [exact (r_t _ _ _ _ (proj1 R) id s CB F)|exact BK].
    + apply ok_quiet; auto.
      * eapply like_trans; [exact LK|]. eapply like_rem; [exact F1i|auto|exact BK].
      * intros j C. rewrite app_nil_r, shown_deferred, deferred_deferred. destruct (Z.eqb_spec id j) as [->|]; [congruence|auto].
Qed.
Theorem R_step c lf o : wf K c -> RI K rq c lf -> LE c lf -> op_ok o -> (forall c' rv evs id nva dr, o = ORequest id nva dr -> kstep K c o = KOk c' rv evs -> find_stream c id = None -> find_stream c' id <> None -> fst (rq id) = map same_nv nva) ->
  postO c lf o (kstep K c o).
Proof.
  intros W R L OK RQ. destruct (kstep K c o) as [c' rv evs|e evs|] eqn:S; [| |exact I].
  - destruct (quiet_op o) eqn:Q; [eapply R_quiet; eauto|]. destruct o; try discriminate Q.
    + rewrite <- S. apply R_read; auto.
    + apply R_writev; auto.
    + apply R_submit; eauto.
    + apply R_close; auto.
    + apply R_shut; auto.
    + apply R_concurrent; auto.
  - assert (match o with ORead _ _ _ => False | _ => True end \/ exists id src fin, o = ORead id src fin) as [H|(id & src & fin & ->)] by (destruct o; auto; right; eauto).
    + eapply dead_other; eauto.
    + rewrite <- S. apply R_read; auto.
Qed.
End R.
