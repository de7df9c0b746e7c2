(* nghttp3_conn_is_stream_writable along histories of calls *)
From Verif Require Import Base BaseLemmas Chunk ConvModel RdVarint QpackTabModel QpackDecModel HttpModel BidiModel BidiHist ControlModel GapModel PqModel TxModel SchedModel ConnModel ConnCtl ConnStep ConnRx ConnWf ConnDecomp ConnHist ConnSched ConnRead CloseSpec CloseProofs CloseHist GateSpec.
Open Scope Z_scope.

(* ---- filling the output queue ---- *)
Definition rk (s s' : txs) : Prop := t_rdblk s' = t_rdblk s /\ t_nrd s' = t_nrd s.
Lemma rk_refl s : rk s s. Proof. split; reflexivity. Qed.
Lemma rk_trans a b c : rk a b -> rk b c -> rk a c. Proof. intros [] []. split; congruence. Qed.
Lemma outq_add_rk s t s' : outq_add s t = Ok s' -> rk s s'.
Proof. unfold outq_add. destruct (_ <? _); [discriminate|]. destruct (rev _) as [|d f]; [intros [= <-]; split; reflexivity|]. destruct (same_block _ _); intros [= <-]; split; reflexivity. Qed.
Lemma ensure_rk s n : rk s (ensure_chunk s n).
Proof. unfold ensure_chunk. destruct (rev _); [split; reflexivity|]. destruct (_ <=? _); split; reflexivity. Qed.
Lemma chunk_write_rk s l s' a b c : chunk_write s l = Ok (s', a, b, c) -> rk s s'.
Proof. unfold chunk_write. destruct (rev _); [discriminate|]. destruct (_ <? _); [discriminate|]. intros [= <- _ _ _]. split; reflexivity. Qed.
Lemma shared_rk s l s' : shared_add s l = Ok s' -> rk s s'.
Proof.
  unfold shared_add. destruct (chunk_write s l) as [[[[s1 a] b] c]| |] eqn:W; cbn [obind]; try discriminate. intros H. eapply rk_trans; [eapply chunk_write_rk; eauto|eapply outq_add_rk; eauto].
Qed.
Lemma raw_rk s l s' : write_raw s l = Ok s' -> rk s s'.
Proof. unfold write_raw. intros H. eapply rk_trans; [apply ensure_rk|eapply shared_rk; eauto]. Qed.
Lemma ebuf_rk s l s' : write_ebuf s l = Ok s' -> rk s s'.
Proof. unfold write_ebuf. destruct (_ <? _); [apply outq_add_rk|]. destruct (negb _); [apply raw_rk|]. intros [= <-]. apply rk_refl. Qed.
Lemma settings_rk s x s' : write_settings s x = Ok s' -> rk s s'.
Proof.
  unfold write_settings. destruct (must (frame_write_settings_len _)) as [[n len]| |]; cbn [obind]; try discriminate. destruct (must (frame_write_settings _ _)) as [l| |]; cbn [obind]; try discriminate.
  intros H. eapply rk_trans; [apply ensure_rk|eapply shared_rk; eauto].
Qed.
Lemma goaway_rk s x s' : write_goaway s x = Ok s' -> rk s s'.
Proof.
  unfold write_goaway. destruct (must (frame_write_goaway_len _)) as [[n len]| |]; cbn [obind]; try discriminate. destruct (must (frame_write_goaway _ _)) as [l| |]; cbn [obind]; try discriminate.
  intros H. eapply rk_trans; [apply ensure_rk|eapply shared_rk; eauto].
Qed.
Lemma prio_rk s x y s' : write_prio s x y = Ok s' -> rk s s'.
Proof.
  unfold write_prio. destruct (must (frame_write_priority_update_len _ _ _)) as [[n len]| |]; cbn [obind]; try discriminate. destruct (must (frame_write_priority_update _ _ _ _)) as [l| |]; cbn [obind]; try discriminate.
  intros H. eapply rk_trans; [apply ensure_rk|eapply shared_rk; eauto].
Qed.
Lemma headers_rk E s nva s' e : write_headers E s nva = Ok (s', e) -> rk s s'.
Proof.
  unfold write_headers. destruct (te_enc _ _ _) as [[[p r] e0]| |]; cbn [obind]; try discriminate. destruct (must (frame_write_hd_len _ _)) as [len| |]; cbn [obind]; try discriminate.
  destruct (must (frame_write_hd _ _)) as [hd| |]; cbn [obind]; try discriminate. cbv zeta.
  match goal with |- context [chunk_write ?x _] => set (s1 := x) end. assert (R1 : rk s s1) by (unfold s1; eapply rk_trans; [|apply ensure_rk]; split; reflexivity).
  destruct (chunk_write s1 _) as [[[[s2 a] b] c]| |] eqn:W; cbn [obind]; try discriminate. pose proof (rk_trans _ _ _ R1 (chunk_write_rk _ _ _ _ _ _ W)) as R2.
  destruct (_ <? zlen r).
  - destruct (outq_add s2 _) as [s3| |] eqn:O1; cbn [obind]; try discriminate. destruct (outq_add s3 _) as [s4| |] eqn:O2; cbn [obind]; try discriminate. intros [= <- _].
    eapply rk_trans; [exact R2|]. eapply rk_trans; eapply outq_add_rk; eauto.
  - destruct (negb (zlen r =? 0)).
    + destruct (chunk_write s2 r) as [[[[s3 a'] b'] c']| |] eqn:W2; cbn [obind]; try discriminate. destruct (outq_add s3 _) as [s4| |] eqn:O2; cbn [obind]; try discriminate. intros [= <- _].
      eapply rk_trans; [exact R2|]. eapply rk_trans; [eapply chunk_write_rk; eauto|eapply outq_add_rk; eauto].
    + intros [= <- _]. exact R2.
Qed.
Lemma aliens_rk vs : forall s s', add_aliens s vs = Ok s' -> rk s s'.
Proof.
  induction vs as [|v vs IH]; intros s s'; cbn [add_aliens]; [intros [= <-]; apply rk_refl|]. destruct (zlen v =? 0); [apply IH|].
  destruct (outq_add s _) as [s1| |] eqn:O; cbn [obind]; try discriminate. intros H. eapply rk_trans; [eapply outq_add_rk; eauto|eauto].
Qed.
Definition wb (E : txenv) (n : nat) : bool := match te_rd E (Nat.pred n) with RdErr e => e =? ERR_WOULDBLOCK | _ => false end.
Lemma data_rk E s s' eof : write_data E s = Ok (s', eof) -> t_nrd s' = S (t_nrd s) /\ t_rdblk s' = wb E (S (t_nrd s)).
Proof.
  unfold write_data, wb. cbn [Nat.pred]. destruct (t_rdblk s) eqn:B; [discriminate|]. cbv zeta.
  destruct (te_rd E (t_nrd s)) as [e|vecs e0 ne]; [destruct (e =? _); [intros [= <- _]; auto|discriminate]|].
  destruct (vec_len_varint 0 vecs) as [n|]; [|discriminate]. destruct (_ && _); [discriminate|].
  set (s1 := if e0 && negb ne then _ else _). assert (R : rk (set_nrd s (S (t_nrd s))) s1) by (unfold s1; destruct (e0 && negb ne); split; reflexivity).
  assert (RR : forall s2, rk s1 s2 -> t_nrd s2 = S (t_nrd s) /\ t_rdblk s2 = false) by (intros s2 [X Y]; destruct R as [X1 Y1]; cbn in X1, Y1; split; congruence).
  destruct (e0 && (n =? 0)).
  - clearbody s1. destruct (negb ne && write_done s1); [|intros [= <- _]; apply RR, rk_refl]. destruct (outq_add s1 _) as [s2| |] eqn:O; cbn [obind]; try discriminate. intros [= <- _]. apply RR. eapply outq_add_rk; eauto.
  - clearbody s1. destruct (must (frame_write_hd_len _ _)) as [len| |]; cbn [obind]; try discriminate. destruct (must (frame_write_hd _ _)) as [hd| |]; cbn [obind]; try discriminate.
    destruct (shared_add _ hd) as [s2| |] eqn:S2; cbn [obind]; try discriminate. destruct (add_aliens s2 vecs) as [s3| |] eqn:S3; cbn [obind]; try discriminate. intros [= <- _].
    apply RR. eapply rk_trans; [apply ensure_rk|]. eapply rk_trans; [eapply shared_rk; eauto|eapply aliens_rk; eauto].
Qed.
(* the reader was not called, or was and its last answer decides *)
Definition rr (E : txenv) (s s' : txs) : Prop := rk s s' \/ ((t_nrd s < t_nrd s')%nat /\ t_rdblk s' = wb E (t_nrd s')).
Lemma rr_trans E a b c : rr E a b -> rr E b c -> rr E a c.
Proof.
  intros [[A1 A2]|[A1 A2]] [[B1 B2]|[B1 B2]].
  - left. split; congruence.
  - right. split; [lia|exact B2].
  - right. rewrite B2, B1. auto.
  - right. split; [lia|exact B2].
Qed.
Lemma rr_frq E s f s' : rr E (set_frq s f) s' -> rr E s s'. Proof. intros [[A B]|[A B]]; [left|right]; split; auto. Qed.
Lemma rr_rk E s s' : rk s s' -> rr E s s'. Proof. left. assumption. Qed.
Lemma fill_rr E frq : forall s s' es, fill_loop E frq s = Ok (s', es) -> rr E s s'.
Proof.
  induction frq as [|f frq IH]; intros s s' es; cbn [fill_loop]; [intros [= <- _]; apply rr_rk, rk_refl|]. destruct (_ <=? _); [intros [= <- _]; apply rr_rk, rk_refl|].
  assert (ST : forall s1 s' es, rr E s s1 -> fill_loop E frq (set_frq s1 frq) = Ok (s', es) -> rr E s s') by (intros s1 s2 es2 R H; eapply rr_trans; [exact R|]; eapply rr_frq; eauto).
  destruct f.
  - destruct (write_settings _ _) as [s1| |] eqn:W; cbn [obind]; try discriminate. intros HH. refine (ST _ _ _ _ HH). apply rr_rk. eapply settings_rk; eauto.
  - destruct (write_headers _ _ _) as [[s1 e]| |] eqn:W; cbn [obind]; try discriminate. destruct (fill_loop _ _ _) as [[s2 es2]| |] eqn:L; cbn [obind]; try discriminate. intros [= <- _].
    eapply ST; [|exact L]. apply rr_rk. eapply headers_rk; eauto.
  - destruct (write_data _ _) as [[s1 e]| |] eqn:W; cbn [obind]; try discriminate. apply data_rk in W as [W1 W2].
    assert (R : rr E s s1) by (right; split; [lia|congruence]). destruct (t_rdblk s1); [intros [= <- _]; exact R|]. destruct (negb e); [intros [= <- _]; exact R|]. intros HH. exact (ST _ _ _ R HH).
  - destruct (write_goaway _ _) as [s1| |] eqn:W; cbn [obind]; try discriminate. intros HH. refine (ST _ _ _ _ HH). apply rr_rk. eapply goaway_rk; eauto.
  - destruct (write_prio _ _ _) as [s1| |] eqn:W; cbn [obind]; try discriminate. intros HH. refine (ST _ _ _ _ HH). apply rr_rk. eapply prio_rk; eauto.
Qed.
Lemma tx_fill_rr E s s' es : tx_fill E s = Ok (s', es) -> rr E s s'.
Proof. unfold tx_fill. destruct (t_rdblk s); [intros [= <- _]; apply rr_rk, rk_refl|apply fill_rr]. Qed.
Lemma written_rk s n s' : tx_written s n = Ok s' -> rk s s'.
Proof. unfold tx_written, add_outq_offset. cbv zeta. destruct (offset_loop _ _ _) as [[q i] m]. destruct (Nat.ltb i _ || (m =? 0)); [|discriminate]. intros H. injection H as <-. split; reflexivity. Qed.
Lemma acked_rk q : forall s off s' l, ack_loop q s off = Ok (s', l) -> rk s s'.
Proof.
  induction q as [|t q IH]; intros s off s' l H; cbn [ack_loop] in H; [injection H as <- _; split; reflexivity|].
  destruct (negb (Nat.eqb (t_idx s) 0) && _); [|injection H as <- _; split; reflexivity].
  destruct (pop_chunk _ _) as [cs| |]; cbn [obind] in H; try discriminate.
  destruct (ack_loop q _ off) as [[s1 l1]| |] eqn:L; cbn [obind] in H; try discriminate. injection H as <- _. exact (IH _ _ _ _ L).
Qed.
(* ---- the gates of a stream ---- *)
Section Gate.
Context (K : kenv).
(* blocked, write side shut, reader waiting, number of reads *)
Definition gates (c : conn) (id : Z) : bool * bool * txs := match find_stream c id with Some s => (st_fc s, st_swr s, st_t s) | None => (false, false, tx_init) end.
Definition GR (id : Z) (a b : bool * bool * txs) : Prop := fst b = fst a /\ rr (ke_tx K id) (snd a) (snd b).
Lemma GR_refl id a : GR id a a. Proof. split; [reflexivity|apply rr_rk, rk_refl]. Qed.
Lemma GR_trans id a b c : GR id a b -> GR id b c -> GR id a c. Proof. intros [] []. split; [congruence|eapply rr_trans; eauto]. Qed.
Definition wakes (id : Z) (a : kact) : Prop := match a with ABlock i _ | AWake i _ => i = id | _ => False end.
Lemma kst_gates c a c' id : kst K c a c' -> (forall n code, a <> ADel id n code) -> ~ wakes id a -> GR id (gates c id) (gates c' id).
Proof.
  intros H ND NW.
  assert (SAME : forall d, (forall y, find_stream d y = find_stream c y) -> GR id (gates c id) (gates d id)) by (intros d E; unfold gates; rewrite E; apply GR_refl).
  assert (PUT : forall i s s' d, find_stream c i = Some s -> (forall y, find_stream d y = find_stream (put c i s') y) ->
    (i = id -> st_fc s' = st_fc s /\ st_swr s' = st_swr s /\ rr (ke_tx K id) (st_t s) (st_t s')) -> GR id (gates c id) (gates d id)).
  { intros i s s' d F E X. unfold gates. rewrite E, find_put, F. destruct (Z.eqb_spec id i) as [<-|N]; [|apply GR_refl]. rewrite F. destruct (X eq_refl) as (X1 & X2 & X3). split; cbn [fst snd]; [congruence|exact X3]. }
  assert (ADD : forall i s d, find_stream c i = None -> (forall y, find_stream d y = find_stream (add_stream K c i s) y) -> st_fc s = false -> st_swr s = false -> st_t s = tx_init -> GR id (gates c id) (gates d id)).
  { intros i s d F E X1 X2 X3. unfold gates. rewrite E, find_add by auto. destruct (Z.eqb_spec id i) as [->|N]; [|apply GR_refl]. rewrite F, X1, X2, X3. apply GR_refl. }
  assert (MID : forall c0 s s0 x i, (forall y, find_stream c0 y = find_stream c y) -> find_stream c i = Some s0 -> st_fc s = st_fc s0 -> st_swr s = st_swr s0 -> st_t s = st_t s0 -> GR id (gates c id) (gates (mid c0 i s x) id)).
  { intros c0 s s0 x i E F U1 U2 U3. eapply (PUT i s0 (ss_x s x)); [exact F| |intros _; cbn; rewrite U1, U2, U3; split; [reflexivity|split; [reflexivity|apply rr_rk, rk_refl]]].
    intros y. rewrite (find_mid c0 i s s0) by (rewrite E; exact F). rewrite find_put, F, E. reflexivity. }
  assert (TX : forall i s t d, find_stream c i = Some s -> (forall y, find_stream d y = find_stream (put c i (ss_t s t)) y) -> rr (ke_tx K i) (st_t s) t -> GR id (gates c id) (gates d id)).
  { intros i s t d F E X. eapply PUT; [exact F|exact E|]. intros <-. auto. }
  destruct H; try (apply SAME; reflexivity).
  - destruct H1 as [[_ ->]|[[_ ->]|[(_ & _ & u & _ & ->)|(_ & _ & _ & nva & ->)]]]; (eapply ADD; [exact H|reflexivity| | |]); cbv zeta; try destruct (_ && _); reflexivity.
  - eapply (MID c s s); auto.
  - eapply (MID (kk_blk c q) (ss_x s (unblocked c s)) s); auto.
  - eapply (MID (kk_blk c q) (ss_x s (unblocked c s)) s); auto.
  - eapply (PUT id0 s (ss_pu s true)); [exact H|reflexivity|]. intros _. split; [reflexivity|split; [reflexivity|apply rr_rk, rk_refl]].
  - eapply (ADD id0); [exact H|reflexivity| | |]; reflexivity.
  - unfold gates. rewrite find_rem. destruct (Z.eqb_spec id id0) as [->|N]; [|apply GR_refl]. exfalso. eapply ND. reflexivity.
  - eapply (PUT id0 s); [exact H|reflexivity|]. intros _. split; [reflexivity|split; [reflexivity|apply rr_rk, rk_refl]].
  - destruct (identify_same _ _ _ _ H2) as [E _]. eapply (PUT id0 s (ss_u s u)); [exact H| |intros _; split; [reflexivity|split; [reflexivity|apply rr_rk, rk_refl]]].
    intros y. unfold find_stream, put. cbn. rewrite E. reflexivity.
  - eapply TX; [exact H|reflexivity|]. destruct H1 as [l t' W|l t' W|frs|t' es W]; [apply rr_rk; eapply raw_rk; eauto|apply rr_rk; eapply ebuf_rk; eauto|apply rr_rk; split; reflexivity|eapply tx_fill_rr; eauto].
  - eapply TX; [exact H0|reflexivity|]. apply rr_rk; split; reflexivity.
  - (* fill *)
    assert (STEP1 : GR id (gates c id) (gates (put c id0 (ss_t s t)) id)) by (eapply TX; [exact H|reflexivity|eapply tx_fill_rr; eauto]).
    eapply GR_trans; [exact STEP1|]. change (gates (kk_sch c1 sch') id) with (gates c1 id).
    revert H2. apply (add_ebufs_P (fun d => GR id (gates (put c id0 (ss_t s t)) id) (gates d id))); [|apply GR_refl]. intros d q s0 t0 e P _ F0 W. eapply GR_trans; [exact P|].
    unfold gates. rewrite find_put, F0. destruct (Z.eqb_spec id q) as [->|]; [|apply GR_refl]. rewrite F0. split; [reflexivity|]. cbn. apply rr_rk. eapply ebuf_rk; eauto.
  - eapply TX; [exact H|reflexivity|]. apply rr_rk. eapply written_rk; eauto.
  - destruct H0 as [off H0]. eapply TX; [exact H|reflexivity|]. apply rr_rk. eapply acked_rk; eauto.
  - eapply TX; [exact H|reflexivity|]. apply rr_rk. destruct fin; split; reflexivity.
  - eapply (PUT id0 s); [exact H|reflexivity|]. intros ->. exfalso. apply NW. reflexivity.
  - eapply (PUT id0 s); [exact H|reflexivity|]. intros ->. exfalso. apply NW. reflexivity.
  - eapply (PUT id0 s); [exact H|reflexivity|]. intros _. cbv zeta. destruct (b_blk _); (split; [reflexivity|split; [reflexivity|apply rr_rk, rk_refl]]).
  - eapply (PUT id0 s (ss_x s (x_shut_rd (st_x s)))); [exact H|reflexivity|]. intros _. split; [reflexivity|split; [reflexivity|apply rr_rk, rk_refl]].
  - eapply (PUT id0 s (ss_sp s true)); [exact H|reflexivity|]. intros _. split; [reflexivity|split; [reflexivity|apply rr_rk, rk_refl]].
Qed.
Definition gate_op (id : Z) (o : cop) : bool := match o with OBlock i | OUnblock i | OShutWrite i | OResume i => i =? id | _ => false end.
Lemma step_gates c o c' rv evs id : wf K c -> op_ok o -> client_bidi id = true -> kstep K c o = KOk c' rv evs -> close_codes id evs = [] -> gate_op id o = false -> GR id (gates c id) (gates c' id).
Proof.
  intros W O CB S E NC. destruct (step_decomp _ _ _ _ _ _ W O S) as (acts & DD & SE & F & _). rewrite <- SE in E. clear S W SE evs.
  induction DD as [c|c a c1 l c' T DD IH]; [apply GR_refl|]. inversion F as [|? ? A F']; subst. change (seen (a :: l)) with (vis a ++ seen l) in E. rewrite codes_app in E. apply app_eq_nil in E as [E1 E2].
  eapply GR_trans; [|exact (IH E2 F')]. eapply kst_gates; [exact T|exact (codes_vis id a CB E1)|].
  intros X. destruct a; try contradiction; cbn in X, A; subst id0; (destruct fc; rewrite A in NC; cbn in NC; rewrite Z.eqb_refl in NC; discriminate).
Qed.
Lemma block_gates c i f c' rv evs id : block_with c i f = KOk c' rv evs -> is_open c id = true -> gates c' id = match find_stream c id with Some s => if i =? id then (st_fc (f s), st_swr (f s), st_t (f s)) else gates c id | None => gates c id end.
Proof.
  unfold block_with, is_open, gates. destruct (find_stream c i) as [s|] eqn:F.
  - intros H OP. assert (X : find_stream c' id = find_stream (put c i (f s)) id).
    { revert H. unfold k_lift, sched_do. destruct (client_bidi i); [destruct (sc_block _ _); cbn [obind]; try discriminate|]; intros [= <- _ _]; reflexivity. }
    rewrite X, find_put, F. rewrite (Z.eqb_sym id i). destruct (Z.eqb_spec i id) as [->|N]; [rewrite F; reflexivity|]. destruct (find_stream c id); reflexivity.
  - intros [= <- _ _] OP. destruct (Z.eqb_spec i id) as [->|N]; [rewrite F in OP; discriminate|]. destruct (find_stream c id); reflexivity.
Qed.
Lemma wake_gates c i f c' rv evs id : wake_with c i f = KOk c' rv evs -> is_open c id = true -> gates c' id = match find_stream c id with Some s => if i =? id then (st_fc (f s), st_swr (f s), st_t (f s)) else gates c id | None => gates c id end.
Proof.
  unfold wake_with, is_open, gates. destruct (find_stream c i) as [s|] eqn:F.
  - intros H OP. assert (X : find_stream c' id = find_stream (put c i (f s)) id).
    { revert H. unfold k_lift, sched_do. destruct (client_bidi i); [destruct (sc_wake _ _ _); cbn [obind]; try discriminate|]; intros [= <- _ _]; reflexivity. }
    rewrite X, find_put, F. rewrite (Z.eqb_sym id i). destruct (Z.eqb_spec i id) as [->|N]; [rewrite F; reflexivity|]. destruct (find_stream c id); reflexivity.
  - intros [= <- _ _] OP. destruct (Z.eqb_spec i id) as [->|N]; [rewrite F in OP; discriminate|]. destruct (find_stream c id); reflexivity.
Qed.
(* what the calls say about the gates *)
Definition says_gates (id : Z) (l : list kcall) (g : bool * bool * txs) : Prop :=
  paused id l = fst (fst g) /\ write_ended id l = snd (fst g) /\ fold_left (starve1 K id) l (0%nat, false) = (t_nrd (snd g), t_rdblk (snd g)).
Lemma paused_snoc id l x : paused id (l ++ [x]) = match c_op x with OBlock i => if i =? id then true else paused id l | OUnblock i => if i =? id then false else paused id l | _ => paused id l end.
Proof. unfold paused. rewrite fold_left_app. reflexivity. Qed.
Lemma ended_snoc id l x : write_ended id (l ++ [x]) = write_ended id l || match c_op x with OShutWrite i => i =? id | _ => false end.
Proof. unfold write_ended. rewrite existsb_app. cbn [existsb]. rewrite orb_false_r. reflexivity. Qed.
Lemma starve_snoc id l x : fold_left (starve1 K id) (l ++ [x]) (0%nat, false) = starve1 K id (fold_left (starve1 K id) l (0%nat, false)) x.
Proof. rewrite fold_left_app. reflexivity. Qed.
Lemma reads_gates c id : reads c id = t_nrd (snd (gates c id)). Proof. unfold reads, gates. destruct (find_stream c id); reflexivity. Qed.
Lemma hist_gates h c : history K h c -> forall id, client_bidi id = true -> is_open c id = true -> says_gates id (life id h) (gates c id).
Proof.
  revert h c. refine (hist_inv K (fun h c => forall id, client_bidi id = true -> is_open c id = true -> says_gates id (life id h) (gates c id)) _ _); [intros id _ F; discriminate F|].
  intros h c o c' rv evs H W O IH S id CB OP'. set (x := mk_call o rv evs c'). rewrite life_snoc. change (c_post x) with c'. rewrite OP'.
  assert (PRE : says_gates id (life id h) (gates c id)).
  { destruct (is_open c id) eqn:OP; [auto|]. rewrite (life_closed K h c id H) by (unfold is_open in OP; destruct (find_stream c id); [discriminate|reflexivity]).
    assert (gates c id = (false, false, tx_init)) as -> by (unfold gates; unfold is_open in OP; destruct (find_stream c id); [discriminate|reflexivity]). split; [|split]; reflexivity. }
  destruct PRE as (P1 & P2 & P3).
  assert (SAME : gate_op id o = false -> GR id (gates c id) (gates c' id) -> says_gates id (life id h ++ [x]) (gates c' id)).
  { intros NG [G1 G2]. unfold says_gates. rewrite paused_snoc, ended_snoc, starve_snoc, P1, P2, P3. change (ConnHist.c_op x) with o. rewrite G1. split; [|split].
    - destruct o; try reflexivity; cbn in NG; rewrite NG; reflexivity.
    - destruct o; cbn in NG; rewrite ?NG, ?orb_false_r; reflexivity.
    - unfold starve1. change (ConnHist.c_op x) with o. change (c_post x) with c'. rewrite reads_gates. cbn [fst snd]. destruct G2 as [[R1 R2]|[R1 R2]].
      + rewrite R2, R1, Nat.ltb_irrefl. f_equal. destruct o; try reflexivity. cbn in NG. rewrite NG. reflexivity.
      + apply Nat.ltb_lt in R1. rewrite R1, R2. reflexivity. }
  destruct (gate_op id o) eqn:GO.
  - assert (OP : is_open c id = true).
    { unfold is_open in *. destruct (find_stream c id) eqn:F; [reflexivity|]. exfalso. destruct o; try discriminate GO; cbn in GO; apply Z.eqb_eq in GO as ->; cbn [kstep] in S; unfold block_with, wake_with in S; rewrite F in S; injection S as <- _ _; rewrite F in OP'; discriminate. }
    unfold says_gates. rewrite paused_snoc, ended_snoc, starve_snoc, P1, P2, P3. change (ConnHist.c_op x) with o. unfold starve1. change (ConnHist.c_op x) with o. change (c_post x) with c'. rewrite reads_gates. cbn [fst snd].
    assert (exists s, find_stream c id = Some s) as [s F] by (unfold is_open in OP; destruct (find_stream c id) as [s|]; [eauto|discriminate]).
    assert (GC : gates c id = (st_fc s, st_swr s, st_t s)) by (unfold gates; rewrite F; reflexivity).
    destruct o; try discriminate GO; cbn in GO; cbn [kstep] in S; (first [pose proof (block_gates _ _ _ _ _ _ id S OP) as G|pose proof (wake_gates _ _ _ _ _ _ id S OP) as G]);
      rewrite F, GO in G; rewrite G, GC, GO; cbn [fst snd st_fc st_swr st_t ss_fc ss_swr ss_t tx_resume set_rdblk t_nrd t_rdblk]; rewrite ?orb_false_r, ?orb_true_r, Nat.ltb_irrefl; repeat split.
  - apply SAME; [reflexivity|].
    destruct o; try (eapply step_gates; [exact W|exact O|exact CB|exact S| |exact GO]; eapply codes_other; [exact W|exact O|exact S|intros; discriminate|intros; discriminate]).
    + destruct (close_codes id evs) eqn:CC; [eapply step_gates; eauto|]. exfalso. destruct (read_D K _ _ _ _ _ _ _ id CB S) as [[[[X _]|(code & a & b & _ & X & _)] _]|X]; try congruence.
      unfold fl, is_open in *. destruct (find_stream c' id); discriminate.
    + destruct (close_codes id evs) eqn:CC; [eapply step_gates; eauto|]. exfalso. assert (close_codes id evs = []) by (eapply (close_only K); eauto). congruence.
Qed.
Lemma writable_iff h c id : history K h c -> client_bidi id = true ->
  (is_stream_writable c id = true <-> is_open c id = true /\ paused id (life id h) = false /\ write_ended id (life id h) = false /\ starved K id (life id h) = false /\ asked id (life id h) = None).
Proof.
  intros H CB. unfold starved. assert (EQ : is_open c id = true -> is_stream_writable c id = negb (paused id (life id h) || snd (fold_left (starve1 K id) (life id h) (0%nat, false)) || write_ended id (life id h) || match asked id (life id h) with Some _ => true | None => false end)).
  { intros OP. destruct (hist_gates h c H id CB OP) as (-> & -> & ->). unfold is_stream_writable, gates. unfold is_open in OP. destruct (find_stream c id) as [s|] eqn:F; [|discriminate].
    rewrite <- (hist_asked K h c H id s CB F). unfold st_fl. cbn [fst snd]. destruct (x_closed (st_x s)); reflexivity. }
  split.
  - intros WR. assert (OP : is_open c id = true) by (unfold is_stream_writable in WR; unfold is_open; destruct (find_stream c id); [reflexivity|discriminate]).
    rewrite (EQ OP) in WR. apply negb_true_iff in WR. rewrite !orb_false_iff in WR. destruct WR as (((A & B) & C) & D). destruct (asked id (life id h)); [discriminate|]. auto.
  - intros (OP & A & B & C & D). rewrite (EQ OP), A, B, C, D. reflexivity.
Qed.
End Gate.
