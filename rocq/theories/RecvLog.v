(* A request stream inside a connection: what has happened to it, as a history of the model of a single stream
   (BidiHist.v).  [T K req id x d l]: the stream [id] is in the state [x], the connection's decoder is [d], and what
   was received, shown, returned and reported so far is [l]. *)
From Verif Require Import Base BaseLemmas Chunk ConvModel RdVarint QpackTabModel QpackDecModel QpackDecProofs QpackHistModel QpackHistProofs HttpModel HttpSpec
  BidiModel BidiHist BidiSpec BidiProofs BidiRun BidiCut BidiAcct BidiDec TraceSpec TraceHttp TraceProofs TxModel ConnModel ConnHist RecvSpec.
Open Scope Z_scope.

(* ---- histories of one stream can be extended ---- *)
Definition env_after (E : benv) (o : rop) : benv := match o with ROther E' _ => E' | _ => E end.
Definition env_end (E : benv) (ops : list rop) : benv := fold_left env_after ops E.
Lemma step_env pre E x o : fst (x_step pre E x o) = env_after E o.
Proof. destruct o; cbn [x_step env_after]; try reflexivity. cbv zeta. match goal with |- context [if ?b then _ else _] => destruct b end; reflexivity. Qed.
Lemma x_run_app pre a : forall E x b, x_run pre E x (a ++ b) = match x_run pre E x a with XOk x' e => x_evs e (x_run pre (env_end E a) x' b) | r => r end.
Proof.
  induction a as [|o a IH]; intros E x b; [cbn; destruct (x_run pre E x b); reflexivity|]. cbn [app x_run env_end fold_left].
  pose proof (step_env pre E x o) as S. destruct (x_step pre E x o) as [E' [x' e| | |]]; try reflexivity. cbn [fst] in S. rewrite <- S, IH.
  destruct (x_run pre E' x' a); cbn [x_evs]; try reflexivity. rewrite x_evs_app. reflexivity.
Qed.
Lemma hist_app a : forall E x b, hist_ok E x a -> (forall x' e, x_run false E x a = XOk x' e -> hist_ok (env_end E a) x' b) -> hist_ok E x (a ++ b).
Proof.
  induction a as [|o a IH]; intros E x b H1 H2; [eapply H2; reflexivity|]. cbn [app hist_ok x_run env_end fold_left] in *.
  destruct H1 as [H1 H3]. split; auto. pose proof (step_env false E x o) as S. destruct (x_step false E x o) as [E' [x' e| | |]]; auto. cbn [fst] in S.
  apply IH; auto. intros x2 e2 R. rewrite R in H2. cbn [x_evs] in H2. rewrite S. eapply H2. reflexivity.
Qed.
Lemma received_app a b : received (a ++ b) = received a ++ received b.
Proof. induction a as [|[]]; cbn; rewrite ?IHa, ?app_assoc; auto. Qed.

(* ---- the log ---- *)
Record lg := mk_lg { l_rcv : list Z; l_evs : list bev; l_ret : Z; l_def : Z }.
Definition lg0 : lg := mk_lg [] [] 0 0.
Definition lg_add (l : lg) (r : list Z) (e : list bev) (n m : Z) : lg := mk_lg (l_rcv l ++ r) (l_evs l ++ e) (l_ret l + n) (l_def l + m).

Section Stream.
Variable K : kenv.
(* what the stream was opened with: the request (at a client), and how many insertions the decoder then knew *)
Variable req : list QpackTabModel.nv * Z.
Variable id : Z.
Let r := role_of K (fst req).
Definition x_start (d : dec) (rej : bool) : rx := let x := rx_init id (http_of r) d in if rej then rd_ign x else x.
Definition with_dec (x : rx) (d : dec) : rx := x_set_st x (st_dec (x_st x) d).
Definition reach (d : dec) : Prop := dec_evolves (dec_init (s_cap (ke_set K)) (TxModel.s_blk (ke_set K))) d.
Definition reach_at (d : dec) : Prop := reach d /\ snd req <= next_absidx (d_ctx d).
Definition env_good (E : benv) : Prop := env_of r (ke_sf K) E.

Record T (x : rx) (dn : dec) (l : lg) : Prop := mk_T {
  T_hist : exists E0 d0 rej ops d1, env_good E0 /\ envs_ok r (ke_sf K) ops /\ reach_at d0 /\ hist_ok E0 (x_start d0 rej) ops /\ bytes (received ops) /\
    x_run false E0 (x_start d0 rej) ops = XOk (with_dec x d1) (l_evs l) /\ received ops = l_rcv l /\ dec_evolves d1 dn /\ dec_evolves d0 d1;
  T_ret : x_ret x = l_ret l; T_def : x_def x = l_def l; T_id : 0 <= id < 2 ^ 62; T_cap : 0 <= s_cap (ke_set K) }.

Lemma env_now c s : env_good (benv_of K c s).
Proof. unfold env_good, env_of, r, role_of, benv_of. destruct (ke_server K); cbn; auto 6. Qed.
Lemma reach_ok d : 0 <= s_cap (ke_set K) -> reach d -> dec_ok d.
Proof. intros H E. apply (evolves_ok _ _ E). split; [apply es_inv_init; auto|reflexivity]. Qed.
Lemma with_with x d d' : with_dec (with_dec x d) d' = with_dec x d'. Proof. reflexivity. Qed.
Lemma with_same x : with_dec x (b_dec (x_st x)) = x. Proof. destruct x as [? s ? ? ? ? ? ?]. destruct s. reflexivity. Qed.
Lemma start_inv d rej : dec_ok d -> 0 <= id < 2 ^ 62 -> x_inv (x_start d rej).
Proof.
  intros D I. pose proof (rx_init_inv id (http_of r) d D I) as H. unfold x_start. destruct rej; auto. destruct H as [[] ? ? ?].
  constructor; auto. constructor; auto; cbn in *; try discriminate; auto.
Qed.

Lemma T_new d rej : 0 <= s_cap (ke_set K) -> reach_at d -> 0 <= id < 2 ^ 62 -> T (x_start d rej) d lg0.
Proof.
  intros C R I. constructor; auto; try (destruct rej; reflexivity). exists (mk_benv (ke_server K) (ke_server K && s_conn (ke_set K)) (ke_sf K) false false), d, rej, [], d.
  split; [unfold env_good, env_of, r, role_of; destruct (ke_server K); cbn; auto 6|]. split; [constructor|]. split; [auto|]. split; [exact Logic.I|]. split; [constructor|].
  split; [cbn; f_equal; symmetry; destruct rej; reflexivity|]. split; [reflexivity|]. split; constructor.
Qed.
Lemma T_other x d d' l : dec_evolves d d' -> T x d l -> T x d' l.
Proof. intros E [(E0 & d0 & rej & ops & d1 & ? & ? & ? & ? & ? & ? & ? & ? & ?) ? ? ? ?]. constructor; auto. exists E0, d0, rej, ops, d1. repeat (split; auto). eapply evolves_trans; eauto. Qed.
Lemma T_dec x d l : T x d l -> dec_ok d.
Proof.
  intros [(E0 & d0 & rej & ops & d1 & _ & _ & R & _ & _ & _ & _ & E1 & E2) _ _ _ C]. apply (evolves_ok d0 d (evolves_trans _ _ _ E2 E1) (reach_ok _ C (proj1 R))).
Qed.
(* the state the stream is read in *)
Lemma T_inv x d l : T x d l -> x_inv (with_dec x d).
Proof.
  intros [(E0 & d0 & rej & ops & d1 & EV & EO & R & H & B & X & _ & E1 & E2) _ _ I C].
  pose proof (reach_ok _ C (proj1 R)) as D0. pose proof (start_inv d0 rej D0 I) as X0. apply hist_thist in H. apply received_bytes in B.
  pose proof (run_bal ops E0 _ X0 B H) as RB. destruct (run_pre ops E0 (x_start d0 rej)) as [P|(e & v1 & v2 & P & _)]; [|congruence].
  rewrite <- P, X in RB. destruct RB as [XI _]. destruct XI as [S Q B' I']. constructor; auto. cbn [x_st with_dec x_set_st] in *.
  assert (dec_ok d1) as D1 by (apply (evolves_ok _ _ E2); auto). destruct (evolves_ok _ _ E1 D1) as [D2 CL].
  change (b_inv (st_dec (st_dec (x_st x) d1) d)). apply st_dec_inv; auto.
Qed.
(* the stream is not waiting for something that has already arrived *)
Definition settled (x : rx) (d : dec) : Prop := b_blk (x_st x) = true -> waits d (b_sctx (x_st x)).
Lemma settled_step x d1 d E E' : settled x d -> x_step false E (with_dec x d1) (ROther E' d) = (E', XOk (with_dec x d) []).
Proof.
  intros S. unfold settled, waits in S. cbn [x_step]. cbv zeta. cbn [x_st with_dec x_set_st st_dec b_blk b_sctx].
  destruct (b_blk (x_st x)); cbn [andb]; [|reflexivity]. specialize (S eq_refl). destruct (Z.leb_spec (s_ricnt (b_sctx (x_st x))) (next_absidx (d_ctx d))); [lia|reflexivity].
Qed.
(* one more thing happens to the stream: first the connection brings it up to date, then o *)
Lemma T_run x d l E o res : T x d l -> settled x d -> env_good E -> rop_bytes o -> match o with ROther _ _ => False | _ => True end ->
  snd (x_step false E (with_dec x d) o) = res ->
  exists E0 d0 rej ops, env_good E0 /\ envs_ok r (ke_sf K) ops /\ reach_at d0 /\ hist_ok E0 (x_start d0 rej) ops /\ bytes (received ops) /\
    x_run false E0 (x_start d0 rej) ops = x_evs (l_evs l) res /\ received ops = l_rcv l ++ received [o] /\ dec_evolves d0 d.
Proof.
  intros [(E0 & d0 & rej & ops & d1 & EV & EO & R & H & B & X & RC & E1 & E2) _ _ I C] S EN BO NO <-.
  exists E0, d0, rej, (ops ++ [ROther E d; o]).
  assert (envs_ok r (ke_sf K) (ops ++ [ROther E d; o])) as EO'.
  { apply Forall_app. split; auto. constructor; [exact EN|]. constructor; [|constructor]. destruct o; auto. contradiction. }
  assert (x_run false (env_end E0 ops) (with_dec x d1) [ROther E d; o] = snd (x_step false E (with_dec x d) o)) as RUN.
  { cbn [x_run]. rewrite (settled_step x d1 d _ E S). pose proof (step_env false E (with_dec x d) o) as SE. destruct (x_step false E (with_dec x d) o) as [E2' [x' e| | |]] eqn:ST; cbn [x_evs snd]; rewrite ?app_nil_r; reflexivity. }
  split; [auto|]. split; [auto|]. split; [auto|]. split.
  { apply hist_app; auto. intros x' e X'. assert (x' = with_dec x d1) as -> by congruence. cbn [hist_ok]. split.
    - cbn [rop_ok]. split; auto. assert (env_good (env_end E0 ops)) as EE.
      { clear - EV EO. revert E0 EV. induction ops as [|o ops IH]; intros E0 EV; auto. inversion EO; subst. cbn. apply IH; auto. destruct o; auto. }
      assert (forall A, env_good A -> e_req A = ke_server K) as ER. { intros A (_ & Q). revert Q. unfold r, role_of. destruct (ke_server K); tauto. }
      rewrite (ER _ EN), (ER _ EE). reflexivity.
    - rewrite (settled_step x d1 d _ E S). cbn [hist_ok]. split; [destruct o; auto; contradiction|].
      destruct (x_step false E (with_dec x d) o) as [? []]; auto. }
  split. { rewrite received_app. apply Forall_app. split; auto. cbn [received]. destruct o; cbn; try constructor. rewrite app_nil_r. exact BO. }
  split. { rewrite x_run_app, X. f_equal. exact RUN. }
  split. { rewrite received_app, RC. reflexivity. }
  eapply evolves_trans; eauto.
Qed.
(* what the history of a stream says about what was seen *)
Lemma start_stage d rej : exists st, link r (ke_sf K) (x_st (x_start d rej)) st /\ forall evs st', leads r st evs st' -> exists st'', leads r AtStart evs st''.
Proof.
  unfold x_start. destruct rej.
  - exists Refused. split; [reflexivity|]. intros evs st' L. inversion L as [|? ? ? ? ? N]; subst; [exists AtStart; constructor|]. inversion N; subst; try discriminate. contradiction.
  - exists AtStart. split; [apply link_init|eauto].
Qed.
Lemma run_leads E0 d0 rej ops res : env_good E0 -> envs_ok r (ke_sf K) ops -> reach_at d0 -> 0 <= s_cap (ke_set K) -> 0 <= id < 2 ^ 62 -> hist_ok E0 (x_start d0 rej) ops -> bytes (received ops) ->
  x_run false E0 (x_start d0 rej) ops = res -> exists st, leads r AtStart (evs_of res) st.
Proof.
  intros EV EO R C I H B <-. pose proof (start_inv d0 rej (reach_ok _ C (proj1 R)) I) as X0. apply hist_thist in H. apply received_bytes in B.
  destruct (start_stage d0 rej) as (st & L & LL). pose proof (run_link r (ke_sf K) ops E0 _ st EV EO X0 B H L) as RL.
  destruct (run_pre ops E0 (x_start d0 rej)) as [-> |(e & v1 & v2 & -> & P & c & ->)].
  - destruct (x_run true E0 _ ops); cbn [xlink evs_of] in *; [destruct RL as (st' & RL & _); eauto|destruct RL as (st' & RL); eauto|destruct RL as (st' & RL); eauto|exists AtStart; constructor].
  - rewrite P in RL. cbn [xlink evs_of] in *. destruct RL as (st' & RL). apply leads_pre in RL as [st2 RL]. eauto.
Qed.
Definition seen_ok (evs : list bev) : Prop := exists st, leads r AtStart evs st.
Definition fine (l : lg) (held : Z) : Prop :=
  seen_ok (l_evs l) /\ 0 <= l_ret l /\ 0 <= l_def l /\ l_ret l + l_def l + zlen (delivered (l_evs l)) + held = zlen (l_rcv l).
Lemma start_bal d rej : x_ret (x_start d rej) = 0 /\ x_def (x_start d rej) = 0 /\ held (x_start d rej) = 0.
Proof. destruct rej; repeat split. Qed.
Lemma T_fine x d l : T x d l -> fine l (held x).
Proof.
  intros [(E0 & d0 & rej & ops & d1 & EV & EO & R & H & B & X & RC & E1 & E2) TR TD I C].
  split. { eapply run_leads in X; eauto. }
  pose proof (start_inv d0 rej (reach_ok _ C (proj1 R)) I) as X0. apply hist_thist in H. apply received_bytes in B.
  pose proof (run_bal ops E0 _ X0 B H) as RB. destruct (run_pre ops E0 (x_start d0 rej)) as [P|(e & v1 & v2 & P & _)]; [|congruence].
  rewrite <- P, X in RB. destruct RB as [_ (B1 & B2 & B3)]. destruct (start_bal d0 rej) as (S1 & S2 & S3). rewrite S1 in B1, B3. rewrite S2 in B2, B3. rewrite S3 in B3.
  change (x_ret (with_dec x d1)) with (x_ret x) in *. change (x_def (with_dec x d1)) with (x_def x) in *. change (held (with_dec x d1)) with (held x) in *.
  rewrite RC in B3. lia.
Qed.
Lemma T_x_inv_q x d l : T x d l -> b_blk (x_st x) = false -> x_inq x = [].
Proof. intros H B. destruct (T_inv _ _ _ H) as [_ _ Q _]. apply Q. exact B. Qed.

(* the operations *)
Lemma T_recv x d l E src fin x' ev : T x d l -> settled x d -> env_good E -> bytes src -> recv false E (with_dec x d) src fin = XOk x' ev ->
  T x' (b_dec (x_st x')) (lg_add l src ev (x_ret x' - x_ret x) 0) /\ dec_evolves d (b_dec (x_st x')) /\ d_ctx (b_dec (x_st x')) = d_ctx d /\ settled x' (b_dec (x_st x')).
Proof.
  intros HT S EN B RV. pose proof (T_inv _ _ _ HT) as XI. destruct (recv_dchg E _ src fin x' ev XI B RV) as (D1 & D2 & D3).
  cbn [x_st with_dec x_set_st st_dec b_dec] in D1, D2, D3.
  destruct (T_run x d l E (RRecv src fin) (XOk x' ev) HT S EN B Logic.I RV) as (E0 & d0 & rej & ops & EV & EO & R & H & BR & X & RC & DE). cbn [x_evs] in X.
  split; [|split; [auto|split; [auto|]]].
  - constructor; [|cbn; rewrite (T_ret _ _ _ HT); lia| |apply (T_id _ _ _ HT)|apply (T_cap _ _ _ HT)].
    + exists E0, d0, rej, ops, (b_dec (x_st x')). split; [auto|]. split; [auto|]. split; [auto|]. split; [auto|]. split; [auto|]. rewrite with_same. split; [exact X|].
      split; [rewrite RC; cbn; rewrite app_nil_r; reflexivity|]. split; [constructor|]. eapply evolves_trans; eauto.
    + cbn. rewrite <- (T_def _ _ _ HT). assert (x_def x' = x_def x); [|lia]. clear - RV. unfold recv in RV. destruct (_ && _); [injection RV as <- _; reflexivity|]. unfold read_bidi in RV.
      cbn [x_shut x_st b_blk with_dec x_set_st st_dec] in RV. destruct (x_shut x); [injection RV as <- _; cbn; lia|]. destruct (b_blk (x_st x)); [injection RV as <- _; cbn; lia|]. destruct (b_read _ _ _ _ _); try discriminate; injection RV as <- _; cbn; lia.
  - intros Bk. destruct (D3 Bk) as [Q|Q]; auto. rewrite Q in Bk |- *. cbn [b_blk st_dec b_sctx b_dec] in *. apply S. exact Bk.
Qed.
Lemma T_recv_err x d l E src fin e ev : T x d l -> settled x d -> env_good E -> bytes src -> recv false E (with_dec x d) src fin = XErr e ev -> seen_ok (l_evs l ++ ev).
Proof.
  intros HT S EN B RV. destruct (T_run x d l E (RRecv src fin) (XErr e ev) HT S EN B Logic.I RV) as (E0 & d0 & rej & ops & EV & EO & R & H & BR & X & RC & DE). cbn [x_evs] in X.
  eapply run_leads in X; eauto using T_id, T_cap.
Qed.
Lemma recv_no_abort x d l E src fin : T x d l -> bytes src -> recv false E (with_dec x d) src fin <> XAbort.
Proof.
  intros HT B A. pose proof (recv_abs E _ src fin (T_inv _ _ _ HT) B) as [_ RI]. destruct (recv_pre E (with_dec x d) src fin) as [P|(e & v1 & v2 & P & _)]; [|congruence].
  rewrite <- P, A in RI. exact RI.
Qed.
Lemma T_shut x d l d' : T x d l -> settled x d -> x_id x = id -> x_shut x = false -> dec_cancel_stream d id = Ok d' -> T (x_shut_rd x) d' l.
Proof.
  intros HT S XI XS CA. set (E := mk_benv (ke_server K) (ke_server K && s_conn (ke_set K)) (ke_sf K) false false).
  assert (env_good E) as EN by (unfold env_good, env_of, r, role_of; destruct (ke_server K); cbn; auto 6).
  edestruct (T_run x d l E RShut _ HT S EN Logic.I Logic.I eq_refl) as (E0 & d0 & rej & ops & EV & EO & R & H & BR & X & RC & DE).
  cbn [x_step snd x_shut with_dec x_set_st x_st st_dec b_dec x_id] in X. rewrite XS, XI, CA in X. cbn [x_evs] in X. rewrite app_nil_r in X.
  destruct HT as [_ TR TD I C]. constructor; auto. exists E0, d0, rej, ops, d'. split; [auto|]. split; [auto|]. split; [auto|]. split; [auto|]. split; [auto|].
  split; [rewrite X; unfold with_dec, x_shut_rd, x_set_st; cbn [x_id]; rewrite XI; reflexivity|]. split; [rewrite RC; cbn; apply app_nil_r|]. split; [constructor|]. eapply evolves_trans; [exact DE|]. eapply de_cancel; [exact CA|constructor].
Qed.
Lemma T_close x d l : T x d l -> settled x d -> b_blk (x_st x) = true -> T (x_close x) d l.
Proof.
  intros HT S XB. set (E := mk_benv (ke_server K) (ke_server K && s_conn (ke_set K)) (ke_sf K) false false).
  assert (env_good E) as EN by (unfold env_good, env_of, r, role_of; destruct (ke_server K); cbn; auto 6).
  edestruct (T_run x d l E RClose _ HT S EN Logic.I Logic.I eq_refl) as (E0 & d0 & rej & ops & EV & EO & R & H & BR & X & RC & DE).
  cbn [x_step snd with_dec x_set_st x_st st_dec b_blk] in X. rewrite XB in X. cbn [x_evs] in X. rewrite app_nil_r in X.
  destruct HT as [_ TR TD I C]. constructor; auto. exists E0, d0, rej, ops, d. split; [auto|]. split; [auto|]. split; [auto|]. split; [auto|]. split; [auto|].
  split; [rewrite X; reflexivity|]. split; [rewrite RC; cbn; apply app_nil_r|]. split; [constructor|]. auto.
Qed.
(* what is left in the queues of the stream when it is deleted *)
Lemma T_fine_idle x d l : T x d l -> b_blk (x_st x) = false -> fine l 0.
Proof. intros HT B. pose proof (T_fine _ _ _ HT) as F. unfold held in F. rewrite (T_x_inv_q _ _ _ HT B) in F. exact F. Qed.

(* the encoder stream has delivered what a blocked stream waited for *)
Lemma T_resume_run x d l E : T x d l -> b_blk (x_st x) = true -> s_ricnt (b_sctx (x_st x)) <= next_absidx (d_ctx d) -> env_good E ->
  exists E0 d0 rej ops, env_good E0 /\ envs_ok r (ke_sf K) ops /\ reach_at d0 /\ hist_ok E0 (x_start d0 rej) ops /\ bytes (received ops) /\
    x_run false E0 (x_start d0 rej) ops = x_evs (l_evs l) (resume false E (x_set_st (with_dec x d) (st_blk (x_st (with_dec x d)) false))) /\ received ops = l_rcv l /\ dec_evolves d0 d.
Proof.
  intros [(E0 & d0 & rej & ops & d1 & EV & EO & R & H & B & X & RC & E1 & E2) _ _ I C] BK RI EN.
  assert (x_step false (env_end E0 ops) (with_dec x d1) (ROther E d) = (E, resume false E (x_set_st (with_dec x d) (st_blk (x_st (with_dec x d)) false)))) as ST.
  { cbn [x_step]. cbv zeta. cbn [x_st with_dec x_set_st st_dec b_blk b_sctx]. rewrite BK. cbn [andb]. apply Z.leb_le in RI. rewrite RI. reflexivity. }
  exists E0, d0, rej, (ops ++ [ROther E d]). split; [auto|]. split; [apply Forall_app; split; [auto|constructor; [exact EN|constructor]]|]. split; [auto|]. split.
  { apply hist_app; auto. intros x' e X'. assert (x' = with_dec x d1) as -> by congruence. cbn [hist_ok]. split.
    - cbn [rop_ok]. split; auto. assert (env_good (env_end E0 ops)) as EE.
      { clear - EV EO. revert E0 EV. induction ops as [|o ops IH]; intros E0 EV; auto. inversion EO; subst. cbn. apply IH; auto. destruct o; auto. }
      assert (forall A, env_good A -> e_req A = ke_server K) as ER. { intros A (_ & Q). revert Q. unfold r, role_of. destruct (ke_server K); tauto. }
      rewrite (ER _ EN), (ER _ EE). reflexivity.
    - rewrite ST. destruct (resume _ _ _); auto. }
  split; [rewrite received_app; cbn [received]; rewrite app_nil_r; auto|].
  split. { rewrite x_run_app, X. f_equal. cbn [x_run]. rewrite ST. destruct (resume _ _ _); cbn [x_evs]; rewrite ?app_nil_r; reflexivity. }
  split; [rewrite received_app; cbn [received]; rewrite app_nil_r; auto|]. eapply evolves_trans; eauto.
Qed.
Definition woken (x : rx) (d : dec) : rx := x_set_st (with_dec x d) (st_blk (x_st (with_dec x d)) false).
Lemma T_woken x d l : T x d l -> b_inv (x_st (woken x d)) /\ bufs_ok (x_inq (woken x d)) /\ b_blk (x_st (woken x d)) = false.
Proof. intros HT. destruct (T_inv _ _ _ HT) as [A B _ _]. split; [apply st_blk_inv; exact A|]. split; [exact B|reflexivity]. Qed.
Lemma resume_ret pre E x : match resume pre E x with XOk x' _ | XGone x' _ => x_ret x' = x_ret x /\ x_id x' = x_id x | _ => True end.
Proof.
  assert (forall f y, match process_blocked pre f E y with XOk x' _ | XGone x' _ => x_ret x' = x_ret y /\ x_id x' = x_id y | _ => True end) as P.
  { induction f as [|f IH]; intros y; cbn [process_blocked]; auto. destruct (x_inq y) as [|[buf room] q] eqn:Q; auto.
    assert (match read_bidi pre E y buf ((match q with [] => true | _ => false end) && x_eof y) with COk x' _ _ _ => x_ret x' = x_ret y /\ x_id x' = x_id y | _ => True end) as RB.
    { unfold read_bidi. destruct (x_shut y); auto. destruct (b_blk (x_st y)); [destruct (_ =? _); auto|]. destruct (b_read _ _ _ _ _); auto. }
    destruct (read_bidi _ _ _ _ _) as [x' np nc ev| |]; auto. destruct (x_inq x') as [|[b' r'] q'] eqn:Q'; auto. cbv zeta.
    set (q2 := if _ =? 0 then q' else _). destruct (b_blk (x_st (x_add x' q2 0 nc))) eqn:BB.
    - cbn [x_ret x_id x_add]. split; [lia|tauto].
    - specialize (IH (x_add x' q2 0 nc)). destruct (process_blocked pre f E (x_add x' q2 0 nc)); cbn [x_evs]; auto; cbn [x_ret x_id x_add] in IH; split; try tauto; lia. }
  unfold resume. specialize (P (S (length (x_inq x))) x). destruct (process_blocked _ _ _ _) as [x' ev| | |]; auto. destruct (_ && _); auto. unfold x_delete, x_add. cbn [x_ret x_id]. split; [lia|tauto].
Qed.
Lemma T_resume x d l E x' ev : T x d l -> b_blk (x_st x) = true -> s_ricnt (b_sctx (x_st x)) <= next_absidx (d_ctx d) -> env_good E -> resume false E (woken x d) = XOk x' ev ->
  T x' (b_dec (x_st x')) (lg_add l [] ev 0 (x_def x' - x_def x)) /\ dec_evolves d (b_dec (x_st x')) /\ d_ctx (b_dec (x_st x')) = d_ctx d /\ settled x' (b_dec (x_st x')).
Proof.
  intros HT BK RI EN RS. destruct (T_woken _ _ _ HT) as (W1 & W2 & W3). pose proof (resume_dchg E _ W1 W2 W3) as D. rewrite RS in D. destruct D as (D1 & D2 & D3).
  destruct (T_resume_run x d l E HT BK RI EN) as (E0 & d0 & rej & ops & EV & EO & R & H & BR & X & RC & DE). fold (woken x d) in X. rewrite RS in X. cbn [x_evs] in X.
  pose proof (resume_ret false E (woken x d)) as RR. rewrite RS in RR. destruct RR as [RR _].
  split; [|split; [exact D1|split; [exact D2|exact D3]]].
  constructor; [| |cbn; rewrite (T_def _ _ _ HT); lia|apply (T_id _ _ _ HT)|apply (T_cap _ _ _ HT)].
  - exists E0, d0, rej, ops, (b_dec (x_st x')). split; [auto|]. split; [auto|]. split; [auto|]. split; [auto|]. split; [auto|]. rewrite with_same. split; [exact X|].
    split; [rewrite RC; cbn; rewrite app_nil_r; reflexivity|]. split; [constructor|]. eapply evolves_trans; [exact DE|exact D1].
  - cbn. rewrite RR. cbn. rewrite (T_ret _ _ _ HT). lia.
Qed.
Lemma T_resume_gone x d l E x' ev : T x d l -> b_blk (x_st x) = true -> s_ricnt (b_sctx (x_st x)) <= next_absidx (d_ctx d) -> env_good E -> resume false E (woken x d) = XGone x' ev ->
  fine (lg_add l [] ev 0 (x_def x' - x_def x)) 0 /\ dec_evolves d (b_dec (x_st x')) /\ d_ctx (b_dec (x_st x')) = d_ctx d.
Proof.
  intros HT BK RI EN RS. destruct (T_woken _ _ _ HT) as (W1 & W2 & W3). pose proof (resume_dchg E _ W1 W2 W3) as D. rewrite RS in D. destruct D as (D1 & D2 & D3).
  destruct (T_resume_run x d l E HT BK RI EN) as (E0 & d0 & rej & ops & EV & EO & R & H & BR & X & RC & DE). fold (woken x d) in X. rewrite RS in X. cbn [x_evs] in X.
  pose proof (resume_ret false E (woken x d)) as RR. rewrite RS in RR. destruct RR as [RR _].
  split; [|split; [exact D1|exact D2]]. pose proof (T_fine _ _ _ HT) as (_ & F2 & F3 & F4).
  split; [eapply run_leads in X; eauto using T_id, T_cap|]. cbn [l_ret l_def l_rcv l_evs lg_add].
  rewrite app_nil_r. pose proof (T_inv _ _ _ HT) as [XS XQ _ XI].
  assert (rbal (woken x d) 0 (resume true E (woken x d))) as RB.
  { destruct (resume_abs E (woken x d) W2 W1 W3 XI) as [RA _]. apply rbal_nrm. rewrite RA. unfold a_resume. pose proof (a_proc_bal E (woken x d) W2 W1) as AB.
    destruct (a_proc E (woken x d)); auto. destruct (_ && _); auto. apply rbal_nrm. apply bal_delete. exact AB. }
  destruct (resume_pre E (woken x d)) as [P|(e & v1 & v2 & P & _)]; [|congruence]. rewrite <- P, RS in RB. destruct RB as (B1 & B2 & B3).
  rewrite delivered_app, zlen_app. change (held (woken x d)) with (held x) in B3. change (x_def (woken x d)) with (x_def x) in *. change (x_ret (woken x d)) with (x_ret x) in *.
  assert (held x' = 0) as HX.
  { revert RS. unfold resume. pose proof (proc_dchg E (S (length (x_inq (woken x d)))) (woken x d) W1 W2 W3) as PC. destruct (process_blocked _ _ _ _); try discriminate; [|contradiction]. destruct (_ && _); [|discriminate]. unfold x_delete. intros [= <- _]. reflexivity. }
  lia.
Qed.
Lemma T_resume_err x d l E e ev : T x d l -> b_blk (x_st x) = true -> s_ricnt (b_sctx (x_st x)) <= next_absidx (d_ctx d) -> env_good E -> resume false E (woken x d) = XErr e ev -> seen_ok (l_evs l ++ ev).
Proof.
  intros HT BK RI EN RS. destruct (T_resume_run x d l E HT BK RI EN) as (E0 & d0 & rej & ops & EV & EO & R & H & BR & X & RC & DE). fold (woken x d) in X. rewrite RS in X. cbn [x_evs] in X.
  eapply run_leads in X; eauto using T_id, T_cap.
Qed.
Lemma resume_no_abort x d l E : T x d l -> resume false E (woken x d) <> XAbort.
Proof.
  intros HT A. destruct (T_woken _ _ _ HT) as (W1 & W2 & W3). pose proof (resume_abs E _ W2 W1 W3 (xi_id _ (T_inv _ _ _ HT))) as [_ RI].
  destruct (resume_pre E (woken x d)) as [P|(e & v1 & v2 & P & _)]; [|congruence]. rewrite <- P, A in RI. exact RI.
Qed.
End Stream.
