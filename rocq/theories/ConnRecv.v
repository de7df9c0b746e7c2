(* Receiving, over histories of API calls: each request stream of a connection is a history of the single-stream model
   (RecvLog.T), the queue of blocked streams is ordered by what the streams wait for, and between two calls every
   blocked stream waits for insertions that have not arrived. *)
From Verif Require Import Base BaseLemmas Chunk ConvModel RdVarint QpackTabModel QpackDecModel QpackDecProofs QpackHistModel QpackHistProofs HttpModel HttpSpec
  BidiModel BidiHist BidiSpec BidiProofs BidiRun BidiCut BidiAcct BidiDec TraceSpec TraceHttp TraceProofs ControlModel GapModel PqModel PqProofs TxModel SchedModel SchedProofs SchedFair
  ConnModel ConnCtl ConnStep ConnWf ConnDecomp ConnRx ConnHist ConnRead ConnPri ConnShut ConnSched RecvSpec RecvLog.
Open Scope Z_scope.

Notation put := ConnModel.put.
(* ---- reading events ---- *)
Lemma shown_app id a b : shown id (a ++ b) = shown id a ++ shown id b.
Proof. unfold shown. rewrite map_app, concat_app. reflexivity. Qed.
Lemma sum_app a b : sum (a ++ b) = sum a + sum b.
Proof. unfold sum. induction a; cbn [app fold_right]; lia. Qed.
Lemma deferred_app id a b : deferred_to id (a ++ b) = deferred_to id a + deferred_to id b.
Proof. unfold deferred_to. rewrite map_app, sum_app. reflexivity. Qed.
Lemma shown_stream id i evs : shown id (map (KStream i) evs) = if i =? id then evs else [].
Proof. unfold shown. induction evs as [|e evs IH]; cbn; [destruct (i =? id); auto|]. rewrite IH. destruct (i =? id); auto. Qed.
Lemma deferred_stream id i evs : deferred_to id (map (KStream i) evs) = 0.
Proof. unfold deferred_to, sum. induction evs; cbn; auto. Qed.
Lemma shown_control id evs : shown id (map KControl evs) = [].
Proof. unfold shown. induction evs; cbn; auto. Qed.
Lemma deferred_control id evs : deferred_to id (map KControl evs) = 0.
Proof. unfold deferred_to, sum. induction evs; cbn; auto. Qed.
Lemma shown_deferred id i n : shown id (deferred i n) = [].
Proof. unfold deferred. destruct (n =? 0); reflexivity. Qed.
Lemma deferred_deferred id i n : deferred_to id (deferred i n) = if i =? id then n else 0.
Proof. unfold deferred, deferred_to. destruct (Z.eqb_spec n 0) as [->|]; cbn; destruct (i =? id); lia. Qed.
Lemma shown_closed id i code : shown id (if client_bidi i then [KClosed i code] else []) = []. Proof. destruct (client_bidi i); reflexivity. Qed.
Lemma deferred_closed id i code : deferred_to id (if client_bidi i then [KClosed i code] else []) = 0. Proof. destruct (client_bidi i); reflexivity. Qed.

(* ---- the invariant ---- *)
Definition extR (lf : Z -> lg) (evs : list kev) (id : Z) : lg := lg_add (lf id) [] (shown id evs) 0 (deferred_to id evs).
Lemma lg_eq a b : l_rcv a = l_rcv b -> l_evs a = l_evs b -> l_ret a = l_ret b -> l_def a = l_def b -> a = b.
Proof. destruct a, b. cbn. congruence. Qed.
Lemma ext_app lf a b id : extR (extR lf a) b id = extR lf (a ++ b) id.
Proof. unfold extR, lg_add. apply lg_eq; cbn; rewrite ?app_nil_r, ?shown_app, ?deferred_app, ?app_assoc; auto; lia. Qed.
Lemma ext_quiet lf evs id : shown id evs = [] -> deferred_to id evs = 0 -> extR lf evs id = lf id.
Proof. intros A B. unfold extR, lg_add. rewrite A, B. apply lg_eq; cbn; rewrite ?app_nil_r; auto; lia. Qed.

Section R.
Variable K : kenv.
Variable rq : Z -> list QpackTabModel.nv * Z.
Definition RT (c : conn) (lf : Z -> lg) : Prop := forall id s, client_bidi id = true -> find_stream c id = Some s -> T K (rq id) id (st_x s) (k_dec c) (lf id).
Definition BL (c : conn) : Prop := forall id s, find_stream c id = Some s -> settled (st_x s) (k_dec c).
Definition HP (c : conn) : Prop := pq_inv (ricnt_less c) (fun _ => True) (k_blk c).
Definition RD (c : conn) : Prop := 0 <= s_cap (ke_set K) /\ forall id, reach_at K (rq id) (k_dec c).
Lemma RD_on c c' : dec_evolves (k_dec c) (k_dec c') -> RD c -> RD c'.
Proof.
  intros E [C R]. split; [exact C|]. intros id. destruct (R id) as [R1 R2]. destruct (evolves_ok _ _ E (reach_ok K _ C R1)) as [_ [_ L]].
  split; [exact (evolves_trans _ _ _ R1 E)|lia].
Qed.
(* inside the loop over the queue blocked streams may be ready *)
Record R0 (c : conn) (lf : Z -> lg) : Prop := { r_dec : RD c; r_t : RT c lf; r_hp : HP c }.
Definition RI (c : conn) (lf : Z -> lg) : Prop := R0 c lf /\ BL c.

Lemma RT_eq c lf lf' : (forall id, client_bidi id = true -> find_stream c id <> None -> lf id = lf' id) -> RT c lf -> RT c lf'.
Proof. intros E H id s C F. rewrite <- E; auto. congruence. Qed.
Lemma R0_eq c lf lf' : (forall id, client_bidi id = true -> find_stream c id <> None -> lf id = lf' id) -> R0 c lf -> R0 c lf'.
Proof. intros E [A B C]. constructor; auto. eapply RT_eq; eauto. Qed.
Lemma RI_eq c lf lf' : (forall id, client_bidi id = true -> find_stream c id <> None -> lf id = lf' id) -> RI c lf -> RI c lf'.
Proof. intros E [A B]. split; auto. eapply R0_eq; eauto. Qed.
Lemma less_asym c x y : True -> True -> ricnt_less c x y = true -> ricnt_less c y x = false.
Proof. unfold ricnt_less. intros _ _ H. apply Z.ltb_lt in H. apply Z.ltb_ge. lia. Qed.
Lemma less_trans c x y z : True -> True -> True -> le (ricnt_less c) x y -> le (ricnt_less c) y z -> le (ricnt_less c) x z.
Proof. unfold le, ricnt_less. intros _ _ _ A B. apply Z.ltb_ge in A, B. apply Z.ltb_ge. lia. Qed.
Lemma HP_ext c c' : k_blk c' = k_blk c -> (forall id, has (k_blk c) id -> ricnt c' id = ricnt c id) -> HP c -> HP c'.
Proof.
  unfold HP. intros -> E (A & X & H). split; [auto|]. split; auto. intros j Hj. specialize (H j Hj). unfold le, ricnt_less in *.
  assert (has (k_blk c) (pq_q (k_blk c) j)) as H1 by (exists j; split; [lia|auto]). assert (has (k_blk c) (pq_q (k_blk c) (par j))) as H2 by (exists (par j); split; [pose proof (par_lt j); lia|auto]).
  rewrite (E _ H1), (E _ H2). exact H.
Qed.
(* the parts of the connection that matter here *)
Record like (c c' : conn) : Prop := {
  lk_dec : dec_evolves (k_dec c) (k_dec c') /\ d_ctx (k_dec c') = d_ctx (k_dec c); lk_blk : k_blk c' = k_blk c;
  lk_fwd : forall id s', client_bidi id = true \/ b_blk (x_st (st_x s')) = true -> find_stream c' id = Some s' -> exists s, find_stream c id = Some s /\ st_x s' = st_x s;
  lk_bwd : forall id s, client_bidi id = true \/ b_blk (x_st (st_x s)) = true -> find_stream c id = Some s -> exists s', find_stream c' id = Some s' /\ st_x s' = st_x s }.
Lemma like_same c c' : k_dec c' = k_dec c -> k_blk c' = k_blk c -> (forall id, find_stream c' id = find_stream c id) -> like c c'.
Proof. intros A B C. constructor; auto; [rewrite A; split; [constructor|auto]| |]; intros id s _ F; exists s; split; auto; [rewrite <- C|rewrite C]; exact F. Qed.
Lemma like_refl c : like c c. Proof. apply like_same; auto. Qed.
Lemma like_trans a b c : like a b -> like b c -> like a c.
Proof.
  intros [[A0 A1] A2 A3 A4] [[B0 B1] B2 B3 B4]. constructor; try congruence; [split; [eapply evolves_trans; eauto|congruence]| |].
  - intros id s' C F. destruct (B3 _ _ C F) as (s1 & F1 & E1). destruct (A3 id s1) as (s2 & F2 & E2); [destruct C; [auto|right; rewrite <- E1; auto]|auto|]. exists s2. split; congruence.
  - intros id s C F. destruct (A4 _ _ C F) as (s1 & F1 & E1). destruct (B4 id s1) as (s2 & F2 & E2); [destruct C; [auto|right; rewrite E1; auto]|auto|]. exists s2. split; congruence.
Qed.
Lemma like_put c id s s' : find_stream c id = Some s -> st_x s' = st_x s -> like c (put c id s').
Proof.
  intros F E. constructor; auto; [split; [constructor|auto]| |].
  - intros j t _. rewrite find_put, F. destruct (Z.eqb_spec j id) as [->|]; [intros [= <-]; eauto|eauto].
  - intros j t _ Fj. rewrite find_put, F. destruct (Z.eqb_spec j id) as [->|]; [exists s'; split; congruence|eauto].
Qed.
Lemma like_add c id s : find_stream c id = None -> client_bidi id = false -> b_blk (x_st (st_x s)) = false -> like c (add_stream K c id s).
Proof.
  intros F C B. constructor; try (unfold add_stream; destruct (is_server_bidi K id); reflexivity); [unfold add_stream; destruct (is_server_bidi K id); split; auto using de_refl| |].
  - intros j t O. rewrite (find_add K c id s j F). destruct (Z.eqb_spec j id) as [->|]; [intros [= <-]; destruct O; congruence|eauto].
  - intros j t O Fj. rewrite (find_add K c id s j F). destruct (Z.eqb_spec j id) as [->|]; [congruence|eauto].
Qed.
Lemma like_rem c id s : find_stream c id = Some s -> client_bidi id = false -> b_blk (x_st (st_x s)) = false -> like c (rem_stream K c id).
Proof.
  intros F C B. constructor; try (unfold rem_stream; destruct (is_server_bidi K id); reflexivity); [unfold rem_stream; destruct (is_server_bidi K id); split; auto using de_refl| |].
  - intros j t O. rewrite find_rem. destruct (Z.eqb_spec j id) as [->|]; [discriminate|eauto].
  - intros j t O Fj. rewrite find_rem. destruct (Z.eqb_spec j id) as [->|]; [assert (t = s) as -> by congruence; destruct O; congruence|eauto].
Qed.
Lemma like_ricnt c c' id : wf K c -> like c c' -> has (k_blk c) id -> ricnt c' id = ricnt c id.
Proof. intros W L H. apply (wf_blk _ _ W) in H as (s & F & B). destruct (lk_bwd _ _ L id s (or_intror B) F) as (s' & F' & E). unfold ricnt. rewrite F, F', E. reflexivity. Qed.
Lemma like_R0 c c' lf : wf K c -> like c c' -> R0 c lf -> R0 c' lf.
Proof.
  intros W L [A B C]. constructor.
  - eapply RD_on; [apply (lk_dec _ _ L)|exact A].
  - intros id s' CB F. destruct (lk_fwd _ _ L id s' (or_introl CB) F) as (s & F1 & E). rewrite E. eapply T_other; [apply (lk_dec _ _ L)|auto].
  - eapply HP_ext; [apply (lk_blk _ _ L)| |exact C]. intros. eapply like_ricnt; eauto.
Qed.
Lemma like_BL c c' : like c c' -> BL c -> BL c'.
Proof. intros L B id s' F BK. destruct (lk_fwd _ _ L id s' (or_intror BK) F) as (s & F1 & E). rewrite E in *. unfold waits. rewrite (proj2 (lk_dec _ _ L)). eapply B; eauto. Qed.
Lemma like_RI c c' lf : wf K c -> like c c' -> RI c lf -> RI c' lf.
Proof. intros W L [A B]. split; [eapply like_R0; eauto|eapply like_BL; eauto]. Qed.
Lemma same_RI c c' lf : k_dec c' = k_dec c -> k_blk c' = k_blk c -> (forall id, find_stream c' id = find_stream c id) -> RI c lf -> RI c' lf.
Proof.
  intros A B C [[R1 R2 R3] R4]. split; [constructor|].
  - unfold RD. rewrite A. exact R1.
  - intros id s CB F. rewrite C in F. rewrite A. auto.
  - eapply HP_ext; [exact B| |exact R3]. intros id _. unfold ricnt. rewrite C. reflexivity.
  - intros id s F. rewrite C in F. rewrite A. exact (R4 id s F).
Qed.
Lemma like_none c c' id : like c c' -> client_bidi id = true -> find_stream c' id = None <-> find_stream c id = None.
Proof.
  intros L C. split; intros N.
  - destruct (find_stream c id) as [s|] eqn:F; auto. destruct (lk_bwd _ _ L id s (or_introl C) F) as (s' & F' & _). congruence.
  - destruct (find_stream c' id) as [s|] eqn:F; auto. destruct (lk_fwd _ _ L id s (or_introl C) F) as (s' & F' & _). congruence.
Qed.

(* the decoder moves on; what is waited for does not arrive *)
Lemma like_dec c d : dec_evolves (k_dec c) d -> d_ctx d = d_ctx (k_dec c) -> like c (kk_dec c d).
Proof. intros A B. constructor; auto; intros id s _ F; exists s; auto. Qed.
Lemma RI_dec c d lf : dec_evolves (k_dec c) d -> d_ctx d = d_ctx (k_dec c) -> RI c lf -> RI (kk_dec c d) lf.
Proof.
  intros E X [[A B C] D]. split; [constructor|].
  - eapply RD_on; [|exact A]. exact E.
  - intros id s CB F. cbn [k_dec kk_dec]. eapply T_other; [exact E|]. exact (B id s CB F).
  - exact C.
  - intros id s F BK. cbn [k_dec kk_dec]. unfold waits. rewrite X. exact (D id s F BK).
Qed.
(* a stream has been read, [mid] *)
Lemma HP_mid c id s s0 x : find_stream c id = Some s0 -> HP c ->
  (has (k_blk c) id -> b_blk (x_st (st_x s)) = true /\ s_ricnt (b_sctx (x_st x)) = ricnt c id) -> HP (mid c id s x).
Proof.
  intros F H Q. set (c1 := kk_dec (put c id (ss_x s x)) (b_dec (x_st x))).
  assert (HP c1) as H1.
  { eapply (HP_ext c); [reflexivity| |exact H]. intros j Hj. unfold ricnt. change (find_stream c1 j) with (find_stream (put c id (ss_x s x)) j). rewrite find_put, F.
    destruct (Z.eqb_spec j id) as [->|]; auto. destruct (Q Hj) as [_ Q2]. unfold ricnt in Q2. rewrite F in Q2. rewrite F. exact Q2. }
  unfold mid. fold c1. destruct (b_blk (x_st x) && negb (b_blk (x_st (st_x s)))) eqn:P; [|exact H1]. apply andb_prop in P as [P1 P2].
  unfold HP. cbn [k_blk kk_blk]. change (ricnt_less (kk_blk c1 (pq_push (ricnt_less c1) (k_blk c1) id))) with (ricnt_less c1).
  apply (push_ok (ricnt_less c1) (fun _ => True) (less_asym c1) (less_trans c1)); auto.
  intros Hj. destruct (Q Hj) as [Q1 _]. rewrite Q1 in P2. discriminate.
Qed.
Lemma mid_dec c id s x : k_dec (mid c id s x) = b_dec (x_st x).
Proof. unfold mid. destruct (_ && _); reflexivity. Qed.
Lemma prios_sch l : forall c id s c', apply_prios c id s l = Ok c' -> c' = kk_sch c (k_sch c').
Proof.
  induction l as [|p l IH]; intros c id s c'; cbn [apply_prios]; [intros [= <-]; destruct c; reflexivity|].
  intros H. apply obind_ok in H as (c1 & U & H). unfold update_priority in U. destruct (negb _); [discriminate|]. unfold sched_do in U. destruct (sc_priority _ _ _ _); try discriminate. injection U as <-.
  apply IH in H. rewrite H. reflexivity.
Qed.
Lemma after_mid c id s x evs c' : after_read c id s x evs = Ok c' -> c' = kk_sch (mid c id s x) (k_sch c').
Proof. intros H. apply prios_sch in H. exact H. Qed.

(* ---- the outcome of a call, or of a part of it ---- *)
Definition post (c : conn) (lf : Z -> lg) (r : kres) : Prop :=
  match r with
  | KOk c' _ evs => RI c' (extR lf evs) /\ forall id, client_bidi id = true -> find_stream c' id = None ->
      (find_stream c id <> None -> fine K (rq id) (extR lf evs id) 0) /\ (find_stream c id = None -> shown id evs = [] /\ deferred_to id evs = 0)
  | KDead _ evs => forall id, client_bidi id = true -> seen_ok K (rq id) (l_evs (lf id) ++ shown id evs)
  | KAbort => True
  end.
Definition LE (c : conn) (lf : Z -> lg) : Prop := forall id, find_stream c id = None -> lf id = lg0.
Lemma seen_nil id : seen_ok K (rq id) []. Proof. exists AtStart. constructor. Qed.
Lemma seen_open c lf id : RT c lf -> LE c lf -> client_bidi id = true -> seen_ok K (rq id) (l_evs (lf id)).
Proof.
  intros R L C. destruct (find_stream c id) as [s|] eqn:F; [|rewrite (L id F); apply seen_nil]. destruct (T_fine _ _ _ _ _ _ (R id s C F)) as [H _]. exact H.
Qed.
Lemma dead_quiet c lf e evs : RT c lf -> LE c lf -> (forall id, client_bidi id = true -> shown id evs = []) -> post c lf (KDead e evs).
Proof. intros R L Q id C. rewrite Q, app_nil_r; auto. eapply seen_open; eauto. Qed.
Lemma ok_quiet c lf c' rv evs : wf K c -> RI c lf -> like c c' -> (forall id, client_bidi id = true -> shown id evs = [] /\ deferred_to id evs = 0) -> post c lf (KOk c' rv evs).
Proof.
  intros W R L Q. split.
  - eapply RI_eq; [|eapply like_RI; eauto]. intros id C _. destruct (Q id C). symmetry. apply ext_quiet; auto.
  - intros id C N2. split; [intros N1; exfalso; apply N1; apply (like_none _ _ id L C); exact N2|intros _; auto].
Qed.

(* ---- reading a request stream ---- *)
Lemma R_request c lf id s src fin : wf K c -> RI c lf -> LE c lf -> find_stream c id = Some s -> client_bidi id = true -> bytes src ->
  match read_request_stream K c id s src fin with
  | KOk c' rv evs => RI c' (fun i => lg_add (lf i) (if id =? i then src else []) (shown i evs) (if id =? i then rv else 0) (deferred_to i evs)) /\ (forall j, find_stream c' j = None <-> find_stream c j = None) /\ (forall j, j <> id -> shown j evs = [] /\ deferred_to j evs = 0)
  | KDead _ evs => forall i, client_bidi i = true -> seen_ok K (rq i) (l_evs (lf i) ++ shown i evs)
  | KAbort => True
  end.
Proof.
  intros W [R B] L F C BS. unfold read_request_stream. cbv zeta. change (rx_now c s) with (with_dec (st_x s) (k_dec c)).
  pose proof (r_t _ _ R id s C F) as HT. pose proof (B id s F) as ST. pose proof (env_now K (rq id) c s) as EN.
  assert (forall e evs, recv false (benv_of K c s) (with_dec (st_x s) (k_dec c)) src fin = XErr e evs \/ (exists x', recv false (benv_of K c s) (with_dec (st_x s) (k_dec c)) src fin = XOk x' evs) ->
    forall i, client_bidi i = true -> seen_ok K (rq i) (l_evs (lf i) ++ shown i (map (KStream id) evs))) as DEAD.
  { intros e evs H i Ci. rewrite shown_stream. destruct (Z.eqb_spec id i) as [<-|]; [|rewrite app_nil_r; eapply seen_open; eauto using r_t].
    destruct H as [H|(x' & H)]; [eapply T_recv_err; eauto|]. destruct (T_recv _ _ _ _ _ _ _ _ _ _ _ HT ST EN BS H) as (T1 & _). destruct (T_fine _ _ _ _ _ _ T1) as [S _]. exact S. }
  destruct (recv false (benv_of K c s) (with_dec (st_x s) (k_dec c)) src fin) as [x' evs| |e evs|] eqn:RV; auto.
  2:{ eapply DEAD; eauto. }
  destruct (after_read c id s x' evs) as [c'| |] eqn:A; auto; [|eapply (DEAD 0); eauto].
  apply after_mid in A. destruct (T_recv _ _ _ _ _ _ _ _ _ _ _ HT ST EN BS RV) as (T1 & DE & DC & S1).
  assert (forall j, find_stream c' j = if j =? id then Some (ss_x s x') else find_stream c j) as FJ by (intros j; rewrite A; apply (find_mid c id s s x' j F)).
  assert (k_dec c' = b_dec (x_st x')) as KD by (rewrite A; apply (mid_dec c id s x')).
  split; [split; [constructor|]|].
  - eapply (RD_on c); [rewrite KD; exact DE|exact (r_dec _ _ R)].
  - intros i t Ci Fi. rewrite FJ in Fi. rewrite shown_stream, deferred_stream, KD. destruct (Z.eqb_spec i id) as [->|N].
    + injection Fi as <-. rewrite Z.eqb_refl. exact T1.
    + destruct (Z.eqb_spec id i); [congruence|]. replace (lg_add (lf i) [] [] 0 0) with (lf i) by (apply lg_eq; cbn; rewrite ?app_nil_r; auto; lia).
      eapply T_other; [exact DE|]. exact (r_t _ _ R i t Ci Fi).
  - rewrite A. apply (HP_mid c id s s x' F (r_hp _ _ R)). intros Hj. apply (wf_blk _ _ W) in Hj as (s1 & F1 & B1). assert (s1 = s) as -> by congruence. split; auto.
    pose proof (recv_blk false (benv_of K c s) (with_dec (st_x s) (k_dec c)) src fin B1) as RB. rewrite RV in RB. destruct RB as [_ RB]. rewrite RB. unfold ricnt. rewrite F. reflexivity.
  - intros i t Fi BK. rewrite FJ in Fi. rewrite KD. destruct (Z.eqb_spec i id) as [->|N]; [injection Fi as <-; exact (S1 BK)|]. unfold waits. rewrite DC. exact (B i t Fi BK).
  - split; [intros j; rewrite FJ; destruct (Z.eqb_spec j id) as [->|]; [split; congruence|tauto]|]. intros j N. rewrite shown_stream, deferred_stream. destruct (Z.eqb_spec id j); [congruence|auto].
Qed.

(* ---- the encoder stream ---- *)
Lemma find_mid2 c q id s x s0 j : find_stream c id = Some s0 -> find_stream (mid (kk_blk c q) id s x) j = if j =? id then Some (ss_x s x) else find_stream c j.
Proof. intros F. apply (find_mid (kk_blk c q) id s s0 x j F). Qed.
Definition postU (c : conn) (lf : Z -> lg) (r : kres) : Prop :=
  match r with
  | KOk c' _ evs => RI c' (extR lf evs) /\ forall id, client_bidi id = true ->
      (find_stream c id <> None -> find_stream c' id = None -> fine K (rq id) (extR lf evs id) 0) /\
      (find_stream c id = None -> find_stream c' id = None /\ shown id evs = [] /\ deferred_to id evs = 0)
  | KDead _ evs => forall id, client_bidi id = true -> if is_open c id then seen_ok K (rq id) (l_evs (lf id) ++ shown id evs) else shown id evs = []
  | KAbort => True
  end.
Lemma BL_end c : wf K c -> HP c -> (pq_empty (k_blk c) = true \/ exists id, pq_top (k_blk c) = Ok id /\ next_absidx (d_ctx (k_dec c)) < ricnt c id) -> BL c.
Proof.
  intros W H O j s F BK. assert (has (k_blk c) j) as Hj by (apply (wf_blk _ _ W); eauto).
  destruct O as [O|(id & PT & LT)].
  - destruct Hj as (i & Hi & _). unfold pq_empty in O. apply Nat.eqb_eq in O. lia.
  - assert (pq_len (k_blk c) <> 0%nat) as NZ by (destruct Hj as (i & Hi & _); lia).
    destruct (top_ok (ricnt_less c) (fun _ => True) (less_asym c) (less_trans c) _ H NZ) as (x & PT' & _ & MIN). assert (x = id) as -> by congruence.
    specialize (MIN j Hj). unfold ricnt_less in MIN. apply Z.ltb_ge in MIN. unfold waits. unfold ricnt at 2 in MIN. rewrite F in MIN. lia.
Qed.
Lemma R_unblock f : forall c lf, wf K c -> R0 c lf -> postU c lf (unblock_loop K f c).
Proof.
  induction f as [|f IH]; intros c lf W R; cbn [unblock_loop]; [exact I|].
  assert (BL c -> postU c lf (KOk c 0 [])) as DONE.
  { intros B. split; [split; auto; eapply R0_eq; [|exact R]; intros; symmetry; apply ext_quiet; reflexivity|]. intros id C. split; [congruence|]. intros N. split; [exact N|split; reflexivity]. }
  destruct (pq_empty (k_blk c)) eqn:PE; [apply DONE; apply BL_end; [exact W|exact (r_hp _ _ R)|auto]|].
  destruct (pq_top (k_blk c)) as [id| |] eqn:PT; try exact I. destruct (find_stream c id) as [s|] eqn:F; [|exact I].
  destruct (Z.ltb_spec (next_absidx (d_ctx (k_dec c))) (ricnt c id)) as [LT|RC]; [apply DONE; apply BL_end; [exact W|exact (r_hp _ _ R)|eauto]|].
  destruct (pq_pop (ricnt_less c) (k_blk c)) as [q| |] eqn:PP; try exact I. cbv zeta.
  change (x_set_st (rx_now (kk_blk c q) s) (st_blk (x_st (rx_now (kk_blk c q) s)) false)) with (unblocked c s).
  change (benv_of K (kk_blk c q) (ss_x s (unblocked c s))) with (benv_of K (kk_blk c q) s). change (unblocked c s) with (woken (st_x s) (k_dec c)).
  destruct (wf_pop K c id s q W PE PT F PP) as (CB & BK & W0).
  pose proof (r_t _ _ R id s CB F) as HT. pose proof (env_now K (rq id) (kk_blk c q) s) as EN.
  assert (s_ricnt (b_sctx (x_st (st_x s))) <= next_absidx (d_ctx (k_dec c))) as RC' by (unfold ricnt in RC; rewrite F in RC; exact RC).
  pose proof (resume_fact false (benv_of K (kk_blk c q) s) (unblocked c s)) as RF. pose proof (resume_gone false (benv_of K (kk_blk c q) s) (unblocked c s)) as RG.
  pose proof (proj2 (wf_x _ _ W _ _ F)) as PV. change (unblocked c s) with (woken (st_x s) (k_dec c)) in RF, RG.
  assert (HP (kk_blk c q) /\ forall j, has q j -> j <> id) as [HPq NQ].
  { assert (pq_len (k_blk c) <> 0%nat) as NZ by (unfold pq_empty in PE; apply Nat.eqb_neq in PE; exact PE).
    destruct (pop_ok (ricnt_less c) (fun _ => True) (less_asym c) (less_trans c) _ (r_hp _ _ R) NZ) as (q' & PP' & G). assert (q' = q) as -> by congruence. destruct G as (G1 & _ & G3 & _).
    split; [exact G1|]. intros j Hj. apply G3 in Hj as [Hj _]. unfold pq_top in PT. destruct (Nat.eqb _ _); [discriminate|]. congruence. }
  assert (forall e evs, seen_ok K (rq id) (l_evs (lf id) ++ evs) -> postU c lf (KDead e (map (KStream id) evs))) as DEAD.
  { intros e evs S i Ci. unfold is_open. rewrite shown_stream. destruct (Z.eqb_spec id i) as [<-|N]; [rewrite F; exact S|]. destruct (find_stream c i) as [t|] eqn:Fi; auto.
    rewrite app_nil_r. destruct (T_fine _ _ _ _ _ _ (r_t _ _ R i t Ci Fi)) as [S' _]. exact S'. }
  (* the rest of the loop, from the state c1 in which the logs are those extended by e1 *)
  assert (forall c1 e1 r, (forall j, client_bidi j = true -> j <> id -> (find_stream c1 j = None <-> find_stream c j = None) /\ shown j e1 = [] /\ deferred_to j e1 = 0) ->
    (find_stream c1 id = None -> fine K (rq id) (extR lf e1 id) 0) -> postU c1 (extR lf e1) r -> postU c lf (k_evs e1 r)) as NEXT.
  { intros c1 e1 r O G P. destruct r as [c2 rv2 e2|e e2|]; cbn [k_evs postU] in *; auto.
    - destruct P as [P1 P2]. split; [eapply RI_eq; [|exact P1]; intros; apply ext_app|]. intros i Ci. destruct (P2 i Ci) as [P3 P4]. rewrite <- ext_app. destruct (Z.eq_dec i id) as [->|N].
      + split; [|congruence]. intros _ N2. destruct (find_stream c1 id) eqn:F1; [apply P3; auto; congruence|]. destruct (P4 eq_refl) as (_ & Q1 & Q2). rewrite ext_quiet; auto.
      + destruct (O i Ci N) as (O1 & O2 & O3). split.
        * intros N1 N2. apply P3; auto. rewrite O1. auto.
        * intros N1. destruct (P4 (proj2 O1 N1)) as (Q1 & Q2 & Q3). rewrite shown_app, deferred_app, O2, O3, Q2, Q3. auto.
    - intros i Ci. specialize (P i Ci). unfold is_open in *. rewrite shown_app. destruct (Z.eq_dec i id) as [->|N].
      + rewrite F. destruct (find_stream c1 id) eqn:F1; [rewrite app_assoc; exact P|]. rewrite P, app_nil_r. destruct (G eq_refl) as [S _]. exact S.
      + destruct (O i Ci N) as (O1 & O2 & O3). rewrite O2. cbn [app]. destruct (find_stream c i) as [t|] eqn:Fi; destruct (find_stream c1 i) as [t1|] eqn:F1; auto.
        * unfold extR, lg_add in P. cbn [l_evs] in P. rewrite O2, app_nil_r in P. exact P.
        * destruct O1 as [O1 _]. specialize (O1 eq_refl). discriminate.
        * destruct O1 as [_ O1]. specialize (O1 eq_refl). discriminate. }
  destruct (resume false (benv_of K (kk_blk c q) s) (woken (st_x s) (k_dec c))) as [x' ev|x' ev|e ev|] eqn:RS; [| | |exact I].
  3:{ apply DEAD. eapply T_resume_err; eauto. }
  - destruct (T_resume _ _ _ _ _ _ _ _ _ HT BK RC' EN RS) as (T1 & DE & DC & S1).
    destruct (after_read _ _ _ _ _) as [c1| |] eqn:A; [| |exact I]. 2:{ apply DEAD. destruct (T_fine _ _ _ _ _ _ T1) as [S _]. exact S. }
    destruct RF as [RF _ _ _].
    destruct (ds_after K 0 [] false (kk_blk c q) id (ss_x s (woken (st_x s) (k_dec c))) _ _ _ s F (ann_ok K (kk_blk c q) s ev (x_st (unblocked c s)) _ PV RF) A) as [D _].
    assert (kst K c (AResume id ev (x_def x' - x_def (st_x s))) (mid (kk_blk c q) id (ss_x s (unblocked c s)) x')) as KT by (eapply t_resume; eauto).
    assert (wf K c1) as W1 by (eapply dsP_wf; [eapply kst_wf; [exact W|exact KT]|exact D]).
    apply after_mid in A. assert (forall j, find_stream c1 j = if j =? id then Some (ss_x s x') else find_stream c j) as FJ by (intros j; rewrite A; exact (find_mid2 c q id (ss_x s (woken (st_x s) (k_dec c))) x' s j F)).
    assert (k_dec c1 = b_dec (x_st x')) as KD by (rewrite A; apply mid_dec).
    eapply NEXT; [| |apply IH; [exact W1|constructor]].
    + intros j Cj N. rewrite FJ, shown_app, deferred_app, shown_stream, deferred_stream, shown_deferred, deferred_deferred. destruct (Z.eqb_spec j id); [congruence|]. destruct (Z.eqb_spec id j); [congruence|]. split; [tauto|auto].
    + rewrite FJ, Z.eqb_refl. discriminate.
    + eapply (RD_on c); [rewrite KD; exact DE|exact (r_dec _ _ R)].
    + intros i t Ci Fi. rewrite FJ in Fi. rewrite KD. unfold extR. rewrite shown_app, deferred_app, shown_stream, deferred_stream, shown_deferred, deferred_deferred, app_nil_r. destruct (Z.eqb_spec i id) as [->|N].
      * injection Fi as <-. rewrite Z.eqb_refl. exact T1.
      * destruct (Z.eqb_spec id i); [congruence|]. replace (lg_add (lf i) [] [] 0 (0 + 0)) with (lf i) by (apply lg_eq; cbn; rewrite ?app_nil_r; auto; lia).
        eapply T_other; [exact DE|]. exact (r_t _ _ R i t Ci Fi).
    + rewrite A. apply (HP_mid (kk_blk c q) id (ss_x s (woken (st_x s) (k_dec c))) s x' F HPq). intros Hj. exfalso. exact (NQ _ Hj eq_refl).
  - destruct (T_resume_gone _ _ _ _ _ _ _ _ _ HT BK RC' EN RS) as (T1 & DE & DC).
    destruct (after_read _ _ _ _ _) as [c1| |] eqn:A; [| |exact I]. 2:{ apply DEAD. destruct T1 as [S _]. exact S. }
    destruct RF as [RF _ _ _]. destruct (RG _ _ eq_refl) as [RG1 RG2].
    destruct (ds_after K 0 [] false (kk_blk c q) id (ss_x s (woken (st_x s) (k_dec c))) _ _ _ s F (ann_ok K (kk_blk c q) s ev (x_st (unblocked c s)) _ PV RF) A) as [D F1].
    assert (kst K c (AResume id ev (x_def x' - x_def (st_x s))) (mid (kk_blk c q) id (ss_x s (unblocked c s)) x')) as KT by (eapply t_resume_gone; eauto).
    assert (wf K c1) as W1 by (eapply dsP_wf; [eapply kst_wf; [exact W|exact KT]|exact D]).
    destruct (drop_stream _ _ _ _ _) as [c2 r2 e2|e2 ev2|] eqn:DR; [| |exact I].
    2:{ exfalso. unfold drop_stream in DR. destruct (is_server_bidi K id); [destruct (_ <=? _)|]; discriminate. }
    apply drop_rem in DR as [-> ->].
    assert (wf K (rem_stream K c1 id)) as W2 by (eapply (wf_rem K c1 id); eauto).
    apply after_mid in A. assert (forall j, find_stream c1 j = if j =? id then Some (ss_x s x') else find_stream c j) as FJ by (intros j; rewrite A; exact (find_mid2 c q id (ss_x s (woken (st_x s) (k_dec c))) x' s j F)).
    assert (k_dec (rem_stream K c1 id) = b_dec (x_st x')) as KD by (transitivity (k_dec c1); [unfold rem_stream; destruct (is_server_bidi K id); reflexivity|rewrite A; apply mid_dec]).
    eapply NEXT; [| |apply IH; [exact W2|constructor]].
    + intros j Cj N. rewrite find_rem, FJ, !shown_app, !deferred_app, shown_stream, deferred_stream, shown_deferred, deferred_deferred, shown_closed, deferred_closed. destruct (Z.eqb_spec j id); [congruence|]. destruct (Z.eqb_spec id j); [congruence|]. split; [tauto|auto].
    + intros _. unfold extR. rewrite !shown_app, !deferred_app, shown_stream, deferred_stream, shown_deferred, deferred_deferred, shown_closed, deferred_closed, !app_nil_r, Z.eqb_refl. replace (0 + (x_def x' - x_def (woken (st_x s) (k_dec c))) + 0) with (x_def x' - x_def (st_x s)) by (cbn; lia). exact T1.
    + eapply (RD_on c); [rewrite KD; exact DE|exact (r_dec _ _ R)].
    + intros i t Ci Fi. rewrite find_rem in Fi. rewrite KD. destruct (Z.eqb_spec i id) as [->|N]; [discriminate|]. rewrite FJ in Fi. destruct (Z.eqb_spec i id) as [->|_]; [congruence|].
      rewrite ext_quiet; [eapply T_other; [exact DE|]; exact (r_t _ _ R i t Ci Fi)| |];
      rewrite ?shown_app, ?deferred_app, ?shown_stream, ?deferred_stream, ?shown_deferred, ?deferred_deferred, ?shown_closed, ?deferred_closed; (destruct (Z.eqb_spec id i); [congruence|reflexivity]).
    + assert (HP c1) as H1 by (rewrite A; apply (HP_mid (kk_blk c q) id (ss_x s (woken (st_x s) (k_dec c))) s x' F HPq); intros Hj; exfalso; exact (NQ _ Hj eq_refl)).
      eapply (HP_ext c1); [unfold rem_stream; destruct (is_server_bidi K id); reflexivity| |exact H1].
      intros j Hj. unfold ricnt. rewrite find_rem. destruct (Z.eqb_spec j id) as [->|]; auto. exfalso.
      apply (wf_blk _ _ W1) in Hj as (s1 & Fs & Bs). rewrite FJ, Z.eqb_refl in Fs. injection Fs as <-. cbn [st_x ss_x] in Bs. congruence.
Qed.
End R.
