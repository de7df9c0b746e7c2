(* Reading never aborts (C49): the parts of nghttp3_conn_read_stream *)
From Verif Require Import Base BaseLemmas Chunk ConvModel ConvSpec ConvProofs RdVarint QpackTabModel QpackDecModel QpackDecProofs QpackHistModel QpackHistProofs HttpModel HttpSpec
  BidiModel BidiHist BidiSpec BidiProofs BidiRun BidiCut BidiAcct BidiDec TraceSpec TraceHttp TraceProofs ControlModel GapModel GapSpec GapHist PqModel PqSpec PqProofs TxModel SchedModel SchedProofs SchedFair
  ConnModel ConnCtl ConnStep ConnWf ConnDecomp ConnRx ConnHist ConnRead ConnPri ConnUni ConnShut ConnSched RecvSpec RecvLog ConnRecv ConnRecvStep ConnRecvHist SafeSpec ControlCut SafeCtl SafeMisc.
Open Scope Z_scope.

Notation put := ConnModel.put.
Section Read.
Context (K : kenv) (rq : Z -> list QpackTabModel.nv * Z) (CAP : 0 <= s_cap (ke_set K)) (DEC : forall n src, ke_dec K n src <> Abort).

Lemma prios_ok l : forall c id s, sinv (k_sch c) -> client_bidi id = true -> (forall p, In p l -> pri_valid p) -> exists c', apply_prios c id s l = Ok c' /\ sinv (k_sch c').
Proof.
  induction l as [|p l IH]; intros c id s S C V; cbn [apply_prios]; [eauto|]. unfold update_priority. rewrite C. cbn [negb].
  destruct (sc_priority_s (k_sch c) id p (require s) S (V p (or_introl eq_refl))) as (s' & SO & _). unfold sched_do. rewrite (so_ok _ _ _ _ SO). cbn [obind]. apply IH; auto.
  - exact (so_inv _ _ _ _ SO).
  - intros q I. apply V. right. exact I.
Qed.
Lemma after_ok c id s x evs : sinv (k_sch c) -> client_bidi id = true -> (forall p, In (BvPriority p) evs -> pri_valid p) -> exists c', after_read c id s x evs = Ok c' /\ sinv (k_sch c').
Proof.
  intros S C V. unfold after_read. cbv zeta. apply prios_ok; auto.
  - destruct (_ && _); exact S.
  - intros p I. apply V. apply in_prios. exact I.
Qed.
Lemma drop_no_abort c id s evs : wf K c -> (find_stream c id <> None) -> drop_stream K c id s evs <> KAbort.
Proof.
  intros W F. unfold drop_stream. cbv zeta. destruct (is_server_bidi K id) eqn:B; [|discriminate]. destruct (Z.leb_spec (k_num c) 0) as [L|]; [|discriminate]. exfalso.
  destruct (find_stream c id) as [t|] eqn:E; [|congruence]. pose proof (wf_num _ _ W) as N. pose proof (nbidi_del K (keys c) id (wf_nd _ _ W) (in_keys _ _ _ E)) as D.
  pose proof (nbidi_nonneg K (filter (fun i => negb (i =? id)) (keys c))). rewrite B in D. cbn [b2z] in D. lia.
Qed.
Lemma k_evs_no l r : r <> KAbort -> k_evs l r <> KAbort. Proof. destruct r; cbn [k_evs]; congruence. Qed.

(* ---- the blocked streams ---- *)
Lemma N_unblock f : forall c lf l, wf K c -> R0 K rq c lf -> sinv (k_sch c) -> (forall i, has (k_blk c) i -> ricnt c i <= next_absidx (d_ctx (k_dec c)) -> In i l) -> (length l < f)%nat ->
  unblock_loop K f c <> KAbort.
Proof.
  induction f as [|f IH]; intros c lf l W R SV HL LF; [lia|]. cbn [unblock_loop].
  destruct (pq_empty (k_blk c)) eqn:PE; [discriminate|].
  assert (pq_len (k_blk c) <> 0%nat) as NZ by (unfold pq_empty in PE; apply Nat.eqb_neq in PE; exact PE).
  destruct (top_ok (ricnt_less c) (fun _ => True) (less_asym rq c) (less_trans rq c) _ (r_hp _ _ _ _ R) NZ) as (id & PT & Hid & _). rewrite PT.
  destruct (proj1 (wf_blk _ _ W id) Hid) as (s & F & BK). rewrite F.
  destruct (Z.ltb_spec (next_absidx (d_ctx (k_dec c))) (ricnt c id)) as [LT|RC]; [discriminate|].
  destruct (pop_ok (ricnt_less c) (fun _ => True) (less_asym rq c) (less_trans rq c) _ (r_hp _ _ _ _ R) NZ) as (q & PP & G). rewrite PP. cbv zeta.
  change (x_set_st (rx_now (kk_blk c q) s) (st_blk (x_st (rx_now (kk_blk c q) s)) false)) with (unblocked c s).
  change (benv_of K (kk_blk c q) (ss_x s (unblocked c s))) with (benv_of K (kk_blk c q) s). change (unblocked c s) with (woken (st_x s) (k_dec c)).
  destruct (wf_pop K c id s q W PE PT F PP) as (CB & _ & W0).
  pose proof (r_t _ _ _ _ R id s CB F) as HT. pose proof (env_now K (rq id) (kk_blk c q) s) as EN.
  assert (s_ricnt (b_sctx (x_st (st_x s))) <= next_absidx (d_ctx (k_dec c))) as RC' by (unfold ricnt in RC; rewrite F in RC; exact RC).
  pose proof (resume_fact false (benv_of K (kk_blk c q) s) (unblocked c s)) as RF. pose proof (resume_gone false (benv_of K (kk_blk c q) s) (unblocked c s)) as RG.
  pose proof (proj2 (wf_x _ _ W _ _ F)) as PV. change (unblocked c s) with (woken (st_x s) (k_dec c)) in RF, RG.
  assert (HP (kk_blk c q) /\ forall j, has q j -> j <> id) as [HPq NQ].
  { destruct G as (G1 & _ & G3 & _).
    split; [exact G1|]. intros j Hj. apply G3 in Hj as [Hj _]. unfold pq_top in PT. destruct (Nat.eqb _ _); [discriminate|]. congruence. }
  pose proof (HL id Hid RC) as IL. pose proof (remove_length_lt Z.eq_dec l id IL) as LL.
  pose proof (resume_no_abort _ _ _ _ _ _ (benv_of K (kk_blk c q) s) HT) as NA.
  destruct (resume false (benv_of K (kk_blk c q) s) (woken (st_x s) (k_dec c))) as [x' ev|x' ev|e ev|] eqn:RS; [| |discriminate|congruence].
  - destruct (T_resume _ _ _ _ _ _ _ _ _ HT BK RC' EN RS) as (T1 & DE & DC & S1).
    destruct RF as [RF _ _ _].
    assert (forall p, In (BvPriority p) ev -> pri_valid p) as VP by (intros p Ip; apply (ann_ok K (kk_blk c q) s ev (x_st (unblocked c s)) _ PV RF p Ip)).
    destruct (after_ok (kk_blk c q) id (ss_x s (woken (st_x s) (k_dec c))) x' ev SV CB VP) as (c1 & A & SV1). rewrite A.
    destruct (ds_after K 0 [] false (kk_blk c q) id (ss_x s (woken (st_x s) (k_dec c))) _ _ _ s F (ann_ok K (kk_blk c q) s ev (x_st (unblocked c s)) _ PV RF) A) as [D _].
    assert (kst K c (AResume id ev (x_def x' - x_def (st_x s))) (mid (kk_blk c q) id (ss_x s (unblocked c s)) x')) as KT by (eapply t_resume; eauto).
    assert (wf K c1) as W1 by (eapply dsP_wf; [eapply kst_wf; [exact W|exact KT]|exact D]).
    apply after_mid in A. assert (forall j, find_stream c1 j = if j =? id then Some (ss_x s x') else find_stream c j) as FJ by (intros j; rewrite A; exact (find_mid2 c q id (ss_x s (woken (st_x s) (k_dec c))) x' s j F)).
    assert (k_dec c1 = b_dec (x_st x')) as KD by (rewrite A; apply mid_dec).
    apply k_evs_no. apply (IH c1 (extR lf (map (KStream id) ev ++ deferred id (x_def x' - x_def (st_x s)))) (remove Z.eq_dec id l)); [exact W1| |exact SV1| |lia].
    + constructor.
      * eapply (RD_on K rq c); [rewrite KD; exact DE|exact (r_dec _ _ _ _ R)].
      * intros i t Ci Fi. rewrite FJ in Fi. rewrite KD. unfold extR. rewrite shown_app, deferred_app, shown_stream, deferred_stream, shown_deferred, deferred_deferred, app_nil_r. destruct (Z.eqb_spec i id) as [->|N].
        { injection Fi as <-. rewrite Z.eqb_refl. exact T1. }
        destruct (Z.eqb_spec id i); [congruence|]. replace (lg_add (lf i) [] [] 0 (0 + 0)) with (lf i) by (apply lg_eq; cbn; rewrite ?app_nil_r; auto; lia).
        eapply T_other; [exact DE|]. exact (r_t _ _ _ _ R i t Ci Fi).
      * rewrite A. apply (HP_mid rq (kk_blk c q) id (ss_x s (woken (st_x s) (k_dec c))) s x' F HPq). intros Hj. exfalso. exact (NQ _ Hj eq_refl).
    + intros i Hi Ri. apply (wf_blk _ _ W1) in Hi as (s1 & F1 & B1). unfold ricnt in Ri. rewrite F1 in Ri. rewrite KD, DC in Ri. rewrite FJ in F1. destruct (Z.eqb_spec i id) as [->|N].
      * injection F1 as <-. specialize (S1 B1). unfold waits in S1. rewrite DC in S1. cbn [st_x ss_x] in Ri. lia.
      * apply in_in_remove; auto. apply HL; [apply (wf_blk _ _ W); eauto|]. unfold ricnt. rewrite F1. exact Ri.
  - destruct (T_resume_gone _ _ _ _ _ _ _ _ _ HT BK RC' EN RS) as (_ & DE & DC).
    destruct RF as [RF _ _ _]. destruct (RG _ _ eq_refl) as [RG1 RG2].
    assert (forall p, In (BvPriority p) ev -> pri_valid p) as VP by (intros p Ip; apply (ann_ok K (kk_blk c q) s ev (x_st (unblocked c s)) _ PV RF p Ip)).
    destruct (after_ok (kk_blk c q) id (ss_x s (woken (st_x s) (k_dec c))) x' ev SV CB VP) as (c1 & A & SV1). rewrite A.
    destruct (ds_after K 0 [] false (kk_blk c q) id (ss_x s (woken (st_x s) (k_dec c))) _ _ _ s F (ann_ok K (kk_blk c q) s ev (x_st (unblocked c s)) _ PV RF) A) as [D F1].
    assert (kst K c (AResume id ev (x_def x' - x_def (st_x s))) (mid (kk_blk c q) id (ss_x s (unblocked c s)) x')) as KT by (eapply t_resume_gone; eauto).
    assert (wf K c1) as W1 by (eapply dsP_wf; [eapply kst_wf; [exact W|exact KT]|exact D]).
    match goal with |- context [drop_stream K c1 id ?t ?e] => pose proof (drop_no_abort c1 id t e W1) as DN; destruct (drop_stream K c1 id t e) as [c2 r2 e2|e2 ev2|] eqn:DR end;
      [|discriminate|exfalso; apply DN; congruence].
    apply drop_rem in DR as [-> _].
    assert (wf K (rem_stream K c1 id)) as W2 by (eapply (wf_rem K c1 id); eauto).
    apply after_mid in A. assert (forall j, find_stream c1 j = if j =? id then Some (ss_x s x') else find_stream c j) as FJ by (intros j; rewrite A; exact (find_mid2 c q id (ss_x s (woken (st_x s) (k_dec c))) x' s j F)).
    assert (k_dec (rem_stream K c1 id) = b_dec (x_st x')) as KD by (transitivity (k_dec c1); [unfold rem_stream; destruct (is_server_bidi K id); reflexivity|rewrite A; apply mid_dec]).
    apply k_evs_no. apply (IH (rem_stream K c1 id) lf (remove Z.eq_dec id l)); [exact W2| |rewrite sch_rem; exact SV1| |lia].
    + constructor.
      * eapply (RD_on K rq c); [rewrite KD; exact DE|exact (r_dec _ _ _ _ R)].
      * intros i t Ci Fi. rewrite find_rem in Fi. rewrite KD. destruct (Z.eqb_spec i id) as [->|N]; [discriminate|]. rewrite FJ in Fi. destruct (Z.eqb_spec i id) as [->|_]; [congruence|].
        eapply T_other; [exact DE|]. exact (r_t _ _ _ _ R i t Ci Fi).
      * assert (HP c1) as H1 by (rewrite A; apply (HP_mid rq (kk_blk c q) id (ss_x s (woken (st_x s) (k_dec c))) s x' F HPq); intros Hj; exfalso; exact (NQ _ Hj eq_refl)).
        eapply (HP_ext c1); [unfold rem_stream; destruct (is_server_bidi K id); reflexivity| |exact H1].
        intros j Hj. unfold ricnt. rewrite find_rem. destruct (Z.eqb_spec j id) as [->|]; auto. exfalso.
        apply (wf_blk _ _ W1) in Hj as (s1 & Fs & Bs). rewrite FJ, Z.eqb_refl in Fs. injection Fs as <-. cbn [st_x ss_x] in Bs. congruence.
    + intros i Hi Ri. apply (wf_blk _ _ W2) in Hi as (s1 & Fs & B1). unfold ricnt in Ri. rewrite Fs in Ri. rewrite KD, DC in Ri. rewrite find_rem, FJ in Fs. destruct (Z.eqb_spec i id) as [->|N]; [discriminate|].
      apply in_in_remove; auto. apply HL; [apply (wf_blk _ _ W); eauto|]. unfold ricnt. rewrite Fs. exact Ri.
Qed.

Definition SC (c : conn) : Prop := sinv (k_sch c) /\ forall x, sched (k_sch c) x = true -> find_stream c x <> None.
Record rready (c : conn) (lf : Z -> lg) : Prop := { rd_wf : wf K c; rd_ri : RI K rq c lf; rd_sc : SC c; rd_id : ID c }.

Lemma N_encoder c lf src : rready c lf -> bytes src -> read_qpack_encoder K c src <> KAbort.
Proof.
  intros [W [R B] [SV _] _] BS. unfold read_qpack_encoder. pose proof (reach_ok K (k_dec c) CAP (proj1 (proj2 (r_dec _ _ _ _ R) 0))) as [EI _].
  pose proof (read_encoder_ok (k_dec c) src EI BS) as RO. destruct (read_encoder (k_dec c) src) as [d [n|e|]] eqn:RE; [|discriminate|destruct RO as (_ & _ & _ & _ & _ & RO); congruence].
  assert (dec_evolves (k_dec c) d) as DE by (eapply de_encoder_stream; [exact BS|exact RE|constructor]).
  assert (R0 K rq (kk_dec c d) lf) as R1.
  { constructor; [eapply (RD_on K rq c); [exact DE|exact (r_dec _ _ _ _ R)]| |exact (r_hp _ _ _ _ R)].
    intros id s CB F. eapply T_other; [exact DE|]. exact (r_t _ _ _ _ R id s CB F). }
  pose proof (N_unblock (S (pq_size (k_blk c))) (kk_dec c d) lf (contents (k_blk c)) (wf_dec _ _ _ W) R1 SV) as NU.
  destruct (unblock_loop _ _ _); try discriminate. exfalso. apply NU; auto.
  - intros i Hi _. apply in_contents. exact Hi.
  - rewrite contents_len. unfold pq_size. lia.
Qed.
Lemma N_request c lf id s src fin : rready c lf -> find_stream c id = Some s -> client_bidi id = true -> bytes src -> read_request_stream K c id s src fin <> KAbort.
Proof.
  intros [W [R B] [SV _] _] F C BS. unfold read_request_stream. cbv zeta. change (rx_now c s) with (with_dec (st_x s) (k_dec c)).
  pose proof (r_t _ _ _ _ R id s C F) as HT. pose proof (recv_no_abort _ _ _ _ _ _ (benv_of K c s) src fin HT BS) as NA.
  pose proof (recv_fact false (benv_of K c s) (with_dec (st_x s) (k_dec c)) src fin) as RF.
  destruct (recv false (benv_of K c s) (with_dec (st_x s) (k_dec c)) src fin) as [x' evs| |e evs|]; [|contradiction|discriminate|congruence].
  destruct RF as [[RF _ _ _] _].
  destruct (after_ok c id s x' evs SV C) as (c1 & -> & _); [|discriminate]. intros p Ip. apply (ann_ok K c s evs (x_st (with_dec (st_x s) (k_dec c))) _ (proj2 (wf_x _ _ W _ _ F)) RF p Ip).
Qed.
(* ---- priority updates ---- *)
Lemma SC_new c id s n c' : SC c -> find_stream c id = None -> n_sched n = false -> lvl (p_urg (n_pri n)) -> k_sch c' = set_node (k_sch c) id n ->
  (forall j, find_stream c' j = find_stream (add_stream K c id s) j) -> SC c'.
Proof.
  intros [A B] F S L E FF. assert (sched (k_sch c) id = false) as U by (destruct (sched (k_sch c) id) eqn:U; auto; elim (B _ U); auto).
  split; [rewrite E; apply sinv_free; auto|]. intros x. rewrite E, FF, find_add by auto. unfold sched, set_node. cbn [sc_n]. destruct (Z.eqb_spec x id) as [->|N]; [congruence|]. rewrite upd_z_other by auto. apply B.
Qed.
Lemma SC_put c id s s' : find_stream c id = Some s -> SC c -> SC (put c id s').
Proof. intros F [A B]. split; [exact A|]. intros x Sx. specialize (B x Sx). rewrite find_put, F. destruct (x =? id); [discriminate|exact B]. Qed.
Lemma SC_pri c id s p r sc : find_stream c id = Some s -> SC c -> sok (k_sch c) id (sc_priority (k_sch c) id p r) sc -> SC (kk_sch c sc).
Proof.
  intros F [A B] SO. split; [exact (so_inv _ _ _ _ SO)|]. intros x. change (find_stream (kk_sch c sc) x) with (find_stream c x). cbn [k_sch kk_sch]. destruct (Z.eq_dec x id) as [->|N]; [congruence|].
  unfold sched. rewrite (so_oth _ _ _ _ SO x N). apply B.
Qed.
Lemma N_updates evs : forall c, SC c -> ID c -> Forall (good_cev (ke_server K)) evs -> apply_updates K c evs <> Abort.
Proof.
  induction evs as [|e evs IH]; intros c S I G; cbn [apply_updates]; [discriminate|]. inversion G as [|? ? G1 G2]; subst. destruct e; try (apply IH; assumption).
  destruct G1 as (SV & CB & PV & RG). unfold on_priority_update. destruct (find_stream c id) as [s|] eqn:F.
  - destruct (st_sp s); cbn [obind]; [apply IH; auto|]. cbv zeta. unfold update_priority. rewrite CB. cbn [negb].
    destruct (sc_priority_s (k_sch (put c id (ss_pu s true))) id p (require (ss_pu s true)) (proj1 S) PV) as (sc & SO & _). unfold sched_do. rewrite (so_ok _ _ _ _ SO). cbn [obind]. apply IH; auto.
    apply (SC_pri (put c id (ss_pu s true)) id (ss_pu s true) p (require (ss_pu s true)) sc); [eapply find_put_same; eauto|eapply SC_put; eauto|exact SO].
  - destruct (k_queued c && _); cbn [obind]; [apply IH; auto|].
    destruct I as (seen & OV). destruct (over_open _ _ id OV RG) as (rv & g & E & RV & OV'). rewrite E. cbn [obind].
    destruct (Z.eqb_spec rv 0) as [->|NZ]; cbn [negb].
    + cbv zeta. set (c0 := kk_maxid (kk_idtr c g) (Z.max (k_maxid c) id)). unfold create_stream. change (find_stream c0 id) with (find_stream c id). rewrite F. cbv zeta. cbn [obind].
      match goal with |- apply_updates K (kk_sch ?d _) evs <> _ => change d with (add_stream K c0 id (ss_pu (new_stream id (rx_init id http_init (k_dec c0))) true)); set (c1 := add_stream K c0 id (ss_pu (new_stream id (rx_init id http_init (k_dec c0))) true)) end.
      apply IH; auto.
      * assert (SC c1) as S1.
        { apply (SC_new c0 id (ss_pu (new_stream id (rx_init id http_init (k_dec c0))) true) node_init); auto; [exact lvl_init|apply sch_add]. }
        assert (find_stream c1 id <> None) as F1 by (unfold c1; rewrite find_add by auto; rewrite Z.eqb_refl; discriminate).
        destruct S1 as [A B]. split.
        { cbn [k_sch kk_sch]. unfold sc_create_pri. apply sinv_free; auto; [unfold sched, c1; rewrite sch_add; unfold sc_create, set_node; cbn [sc_n]; rewrite upd_z_same; reflexivity|].
          cbn [nd_pri n_pri p_urg]. unfold pri_valid in PV. unfold lvl. lia. }
        { intros x. change (find_stream (kk_sch c1 (sc_create_pri (k_sch c1) id p)) x) with (find_stream c1 x). destruct (Z.eq_dec x id) as [->|N]; [intros _; exact F1|].
          cbn [k_sch kk_sch]. unfold sc_create_pri, sched, set_node. cbn [sc_n]. rewrite upd_z_other by auto. apply B. }
      * exists (id :: seen). unfold c1. replace (k_idtr _) with g; [exact OV'|]. cbn [k_idtr kk_sch]. unfold add_stream. destruct (is_server_bidi K id); reflexivity.
    + destruct RV as [[-> _]|[-> _]]; [congruence|]. rewrite Z.eqb_refl. cbn [obind]. apply IH; auto. exists seen. exact OV.
Qed.
(* ---- the peer's unidirectional streams ---- *)
Definition harmless (w src : list Z) : Prop := ke_server K = true -> ~ behind_element_id (w ++ src).
Lemma N_control c w src : wf K c -> SC c -> ID c -> bytes src -> bytes w -> stands (k_ctl c) w [] -> harmless w src -> read_control_stream K c src <> KAbort.
Proof.
  intros W S I B BW ST HM. unfold read_control_stream. set (E := mk_cenv _ _ _).
  pose proof (cut_read E (k_ctl c) w src (wf_ctl _ _ W) BW B ST) as CR. pose proof (read_control_fact E (k_ctl c) src (wf_ctl _ _ W) B) as CF.
  destruct (read_control false E (k_ctl c) src) as [s' evs| | |]; [|contradiction|discriminate|destruct CR as [CR1 CR2]; elim (HM CR1 CR2)].
  pose proof (N_updates evs (kk_ctl c s') S I (proj2 CF)) as N. destruct (apply_updates K (kk_ctl c s') evs); congruence.
Qed.
Lemma N_typed c lf id s src fin : rready c lf -> bytes src -> (forall rv, st_u s <> UNone rv) -> (st_u s = UCtl -> exists w, bytes w /\ stands (k_ctl c) w [] /\ harmless w src) -> read_uni_typed K c id s src fin <> KAbort.
Proof.
  intros R B NU CT. unfold read_uni_typed. destruct (st_u s) eqn:U; [elim (NU rv eq_refl)| | | |discriminate]; (destruct fin; [discriminate|]).
  - destruct (CT eq_refl) as (w & BW & ST & HM). apply (N_control c w src); auto; apply R.
  - eapply N_encoder; eauto.
  - pose proof (DEC (k_ndec c) src). destruct (ke_dec K (k_ndec c) src); congruence.
Qed.
Lemma SC_same c c' : k_sch c' = k_sch c -> (forall j, find_stream c j <> None -> find_stream c' j <> None) -> SC c -> SC c'.
Proof. intros E F [A B]. split; [rewrite E; exact A|]. intros x. rewrite E. auto. Qed.
Lemma identify_no c v : identify c v <> Abort.
Proof. unfold identify. destruct (v =? 0); [destruct (k_copen c); discriminate|]. destruct (v =? 1); [discriminate|]. destruct (v =? 2); [destruct (k_eopen c); discriminate|]. destruct (v =? 3); [destruct (k_dopen c); discriminate|discriminate]. Qed.
Lemma identify_ty c v c1 u : identify c v = Ok (c1, u) -> (forall rv, u <> UNone rv) /\ (u = UCtl -> v = 0 /\ k_copen c = false).
Proof.
  unfold identify. destruct (Z.eqb_spec v 0); [destruct (k_copen c); [discriminate|intros [= <- <-]; split; [discriminate|auto]]|]. destruct (v =? 1); [discriminate|].
  destruct (v =? 2); [destruct (k_eopen c); [discriminate|intros [= <- <-]; split; discriminate]|]. destruct (v =? 3); [destruct (k_dopen c); [discriminate|]|]; intros [= <- <-]; split; discriminate.
Qed.
Lemma N_uni c lf hd id s src fin : rready c lf -> U K c hd -> CI K c hd -> bytes src -> find_stream c id = Some s -> peer_uni K id = true -> (zlen src =? 0) && negb fin = false ->
  (forall b, get_varint (hd id ++ src) = Some (0, b) -> harmless b []) -> read_uni K c id s src fin <> KAbort.
Proof.
  intros R UU CC B F P NE HM. unfold read_uni.
  assert (bytes (hd id)) as BH by apply (u_typ _ _ _ UU id s P F).
  destruct (st_u s) as [rvi| | | |] eqn:E.
  2:{ eapply N_typed; eauto; [rewrite E; discriminate|]. intros _. destruct (u_typ _ _ _ UU id s P F) as [_ T]. destruct (get_varint (hd id)) as [[v r]|] eqn:G; [|destruct T as [_ T]; congruence].
      destruct T as [_ T]. rewrite E in T. assert (v = 0) as -> by (unfold kind_u in T; destruct (Z.eqb_spec v 0); auto; repeat destruct (_ =? _); discriminate).
      pose proof (get_bytes _ _ _ BH G) as Br. exists r. split; [exact Br|]. split; [exact (ci_st _ _ _ CC id r P G)|]. intros SV BE. destruct (get_app _ src _ _ BH G) as (G2 & _). apply (HM _ G2 SV). rewrite app_nil_r. exact BE. }
  2-4: eapply N_typed; eauto; rewrite E; discriminate.
  destruct (U_none _ _ _ _ _ _ UU P F E) as (PR & -> & GN).
  destruct ((zlen src =? 0) && fin) eqn:Z0.
  { destruct (negb (rv_left (rv_after (hd id)) =? 0)); [discriminate|]. unfold delete_stream. apply drop_no_abort; [apply R|congruence]. }
  assert (src <> []) as NN. { intros ->. destruct fin; discriminate. }
  unfold read_type. destruct (rd_varint_spec (hd id) src fin PR B NN) as [RD _]. destruct (get_varint (hd id ++ src)) as [[v rest]|] eqn:G; rewrite RD; [|destruct fin; discriminate].
  destruct (identify c v) as [[c1 u]|e|] eqn:IDF; cbn [obind]; [|discriminate|elim (identify_no _ _ IDF)].
  cbv zeta. destruct (Z.eqb_spec (zlen rest) 0) as [|NR]; [discriminate|].
  assert (bytes (hd id ++ src)) as BA by (apply bytes_app; auto). pose proof (get_bytes _ _ _ BA G) as BR.
  destruct (identify_same _ _ _ _ IDF) as [E1 _].
  assert (read_type c id s (rv_after (hd id)) src fin = Ok (put c1 id (ss_u s u), ss_u s u, Some rest)) as RT by (unfold read_type; rewrite RD, IDF; reflexivity).
  pose proof (read_type_like _ _ _ _ _ _ _ _ _ F RT) as LK.
  assert (find_stream c1 id = Some s) as F1 by (rewrite E1; exact F).
  assert (rready (put c1 id (ss_u s u)) lf) as R1.
  { destruct R as [W RR S I]. constructor.
    - eapply wf_type; eauto.
    - eapply like_RI; eauto.
    - apply (SC_same c); [rewrite E1; reflexivity| |exact S]. intros j Nj. rewrite find_put, F1. destruct (j =? id); [discriminate|]. rewrite E1. exact Nj.
    - unfold ID. change (k_idtr (put c1 id (ss_u s u))) with (k_idtr c1). rewrite E1. exact I. }
  assert (forall rv, u <> UNone rv) as NU by (apply (identify_ty _ _ _ _ IDF)).
  assert (read_uni_typed K (put c1 id (ss_u s u)) id (ss_u s u) rest fin <> KAbort) as NT.
  { eapply N_typed; eauto. cbn [st_u ss_u]. intros ->. assert (v = 0 /\ k_copen c = false) as [-> CO].
    { apply (identify_ty _ _ _ _ IDF). reflexivity. }
    exists []. split; [constructor|]. split; [|intros SV BE; apply (HM rest eq_refl SV); rewrite app_nil_r; exact BE].
    change (k_ctl (put c1 id (ss_u s UCtl))) with (k_ctl c1). rewrite E1. change (k_ctl (kk_open c (k_copen c1) (k_eopen c1) (k_dopen c1))) with (k_ctl c). rewrite (ci_new _ _ _ CC CO). apply stands_init. constructor. }
  destruct (read_uni_typed _ _ _ _ _ _); congruence.
Qed.
Lemma N_existing c lf hd id s src fin : rready c lf -> U K c hd -> CI K c hd -> bytes src -> find_stream c id = Some s -> client_bidi id = true \/ peer_uni K id = true ->
  (peer_uni K id = true -> forall b, get_varint (hd id ++ src) = Some (0, b) -> harmless b []) -> read_existing K c id s src fin <> KAbort.
Proof.
  intros R UU CC B F KD HM. unfold read_existing. destruct ((zlen src =? 0) && negb fin) eqn:NE; [discriminate|]. destruct (stream_uni id) eqn:SU.
  - assert (peer_uni K id = true) as P by (destruct KD as [C|]; auto; apply bidi_uni in C; congruence). eapply N_uni; eauto.
  - assert (client_bidi id = true) as C by (destruct KD as [|P]; auto; apply peer_is_uni in P; congruence). eapply N_request; eauto.
Qed.
Lemma N_read c lf hd id src fin : rready c lf -> LE c lf -> U K c hd -> CI K c hd -> (forall id, find_stream c id = None -> hd id = []) -> bytes src -> ConnModel.id_ok id = true -> local_uni K id = false ->
  (peer_uni K id = true -> forall b, get_varint (hd id ++ src) = Some (0, b) -> harmless b []) -> read_stream K c id src fin <> KAbort.
Proof.
  intros R L UU CC HD B IO LU HM. unfold read_stream. unfold ConnModel.id_ok in IO. apply andb_prop in IO as [I1 I2]. apply Z.leb_le in I1, I2. assert (id_range id) as RG by (split; auto).
  destruct (Z.ltb_spec id 0); [lia|]. destruct (Z.ltb_spec max_varint id); [lia|]. cbn [orb].
  destruct (find_stream c id) as [s|] eqn:F.
  - change (if ke_server K then client_uni id else server_uni id) with (peer_uni K id).
    assert (client_bidi id || peer_uni K id = true) as KD.
    { destruct (wf_id _ _ (rd_wf _ _ R) _ _ F) as [_ [-> |SU]]; auto. rewrite (uni_bidi _ SU). cbn [orb]. unfold peer_uni. unfold local_uni in LU. unfold client_uni, server_uni, stream_uni in *. rewrite id_two in SU. destruct (id_cases id) as [Q|[Q|[Q|Q]]]; rewrite Q in *; destruct (ke_server K); try discriminate; reflexivity. }
    rewrite KD. eapply N_existing; eauto. apply orb_true_iff in KD. exact KD.
  - cbv zeta. destruct (is_server_bidi K id) eqn:SB.
    + destruct (rd_id _ _ R) as (seen & OV). destruct (over_open _ _ id OV RG) as (r & g & E & _ & OV'). rewrite E.
      set (c0 := kk_maxid (kk_idtr c g) (Z.max (k_maxid c) id)). change (k_queued c0 && (k_goaway c0 <=? id)) with (rejected c id). set (s := if rejected c id then _ else _).
      unfold create_stream. change (find_stream c0 id) with (find_stream c id). rewrite F. cbv zeta. match goal with |- context [read_existing K ?d] => change d with (add_stream K c0 id s) end. apply k_evs_no.
      assert (find_stream c0 id = None) as F0 by exact F.
      assert (opened K c id (add_stream K c0 id s) s (if rejected c id then [KStop id H3_REQUEST_REJECTED; KReset id H3_REQUEST_REJECTED] else [])) as OP by (eapply op_request; eauto).
      assert (client_bidi id = true) as CB by (unfold is_server_bidi in SB; apply andb_prop in SB; tauto).
      assert (ke_server K = true) as SV by (unfold is_server_bidi in SB; apply andb_prop in SB; tauto).
      assert (st_x s = x_start K (rq id) id (k_dec c0) (rejected c id)) as SX by (unfold s; rewrite (server_start K rq) by auto; destruct (rejected c id); reflexivity).
      unfold read_existing. destruct ((zlen src =? 0) && negb fin) eqn:NE; [discriminate|]. rewrite (bidi_uni _ CB). apply (N_request _ lf); auto.
      * destruct R as [W RR S I]. constructor.
        { apply (opened_wf K c id _ s _ W RG OP). }
        { assert (wf K c0) as W0.
          { assert (c0 = kk_ndec (kk_maxcl (kk_maxid (kk_idtr c g) (Z.max (k_maxid c) id)) (k_maxcl c)) (k_ndec c)) as -> by (unfold c0; destruct c; reflexivity). eapply kst_wf; [exact W|apply t_misc; [right; eexists _, _; split; [exact RG|exact E]|lia|lia]]. }
          assert (RI K rq c0 lf) as R' by (eapply same_RI; [| | |exact RR]; reflexivity).
          exact (R_new K rq CAP c0 lf id s (rejected c id) W0 R' F0 RG (L id F) SX). }
        { apply (SC_new c0 id s node_init); auto; [exact lvl_init|apply sch_add]. }
        { exists (id :: seen). replace (k_idtr _) with g; [exact OV'|]. unfold add_stream. destruct (is_server_bidi K id); reflexivity. }
      * rewrite find_add, Z.eqb_refl by auto. reflexivity.
    + change (if ke_server K then client_uni id else server_uni id) with (peer_uni K id). destruct (peer_uni K id) eqn:P; [|discriminate].
      destruct ((zlen src =? 0) && fin); [discriminate|]. unfold create_stream. rewrite F. cbv zeta. fold (fresh c id). match goal with |- context [read_existing K ?d] => change d with (add_stream K c id (fresh c id)) end.
      assert (opened K c id (add_stream K c id (fresh c id)) (fresh c id) []) as OP by (apply op_uni; auto).
      assert (client_bidi id = false) as NB by (apply uni_bidi; eapply peer_is_uni; eauto).
      destruct (U_opened K c hd id _ _ _ P OP (HD id) UU) as (U1 & F1 & _).
      apply (N_existing _ lf hd); auto.
      * destruct R as [W RR S I]. constructor.
        { eapply opened_wfU; eauto. }
        { eapply like_RI; eauto. apply like_add; auto. }
        { apply (SC_new c id (fresh c id) node_init); auto; [exact lvl_init|apply sch_add]. }
        { unfold ID. unfold add_stream. rewrite SB. exact I. }
      * apply (CI_same K c _ hd hd); auto. apply add_kc.
Qed.
End Read.
