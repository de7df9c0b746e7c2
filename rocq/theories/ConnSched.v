(* The scheduler within the connection: which streams are in its queues, over histories of API calls *)
From Verif Require Import Base BaseLemmas Chunk ConvModel RdVarint QpackTabModel QpackDecModel HttpModel BidiModel BidiHist ControlModel GapModel PqModel PqProofs PqWeak TxModel SchedModel SchedProofs SchedFair ConnModel ConnCtl ConnStep ConnRx ConnWf ConnDecomp ConnHist.
Open Scope Z_scope.

(* the sending side *)
Lemma written_req s t n : tx_written (st_t s) n = Ok t -> require (ss_t s t) = true -> require s = true.
Proof.
  unfold tx_written, add_outq_offset, require, write_done. intros H. cbn [st_t ss_t st_fc st_swr].
  set (u := set_sizes (st_t s) (t_unsent (st_t s) - n) (t_off (st_t s))) in *.
  destruct (offset_loop (skipn (t_idx u) (t_outq u)) (t_idx u) n) as [[q i] m] eqn:O. destruct (_ || _); [|discriminate]. injection H as <-.
  subst u. cbn [set_outq set_sizes t_frq t_rdblk t_outq t_idx t_unsent] in *.
  intros R. apply orb_true_iff in R as [R|R]; [|rewrite R; apply orb_true_r]. apply andb_true_iff in R as [R R2]. apply andb_true_iff in R as [R R1]. rewrite R1, R2, !andb_true_r.
  destruct (Nat.eqb (length (t_outq (st_t s))) 0 || Nat.leb (length (t_outq (st_t s))) (t_idx (st_t s))) eqn:D; [|reflexivity]. exfalso.
  assert (skipn (t_idx (st_t s)) (t_outq (st_t s)) = []) as SK.
  { apply skipn_all2. apply orb_true_iff in D as [D|D]; [apply Nat.eqb_eq in D; lia|apply Nat.leb_le in D; lia]. }
  rewrite SK in O. cbn in O. injection O as <- <- <-. rewrite app_nil_r in R. apply negb_true_iff, orb_false_iff in R as [R3 R4].
  apply Nat.eqb_neq in R3. apply Nat.leb_gt in R4. rewrite firstn_length in R3, R4.
  apply orb_true_iff in D as [D|D]; [apply Nat.eqb_eq in D; lia|apply Nat.leb_le in D; lia].
Qed.
Lemma ack_loop_same q : forall s off s' l, q = t_outq s -> ack_loop q s off = Ok (s', l) -> t_frq s' = t_frq s /\ t_rdblk s' = t_rdblk s /\ t_end s' = t_end s /\ write_done s' = write_done s.
Proof.
  induction q as [|t q IH]; intros s off s' l Q H; cbn [ack_loop] in H; [injection H as <- _; repeat split|].
  destruct (negb (Nat.eqb (t_idx s) 0) && _) eqn:B; [|injection H as <- _; repeat split].
  destruct (pop_chunk _ _) as [cs| |]; cbn [obind] in H; try discriminate.
  destruct (ack_loop q _ off) as [[s1 l1]| |] eqn:L; cbn [obind] in H; try discriminate. injection H as <- _.
  apply IH in L as (A & B' & C & D); [|reflexivity]. repeat split; auto. rewrite D. unfold write_done. cbn. rewrite <- Q. cbn [length].
  apply andb_true_iff in B as [B _]. apply negb_true_iff, Nat.eqb_neq in B. cbn [Nat.eqb orb].
  destruct (Nat.leb_spec (S (length q)) (t_idx s)); destruct (Nat.eqb_spec (length q) 0), (Nat.leb_spec (length q) (t_idx s - 1)); cbn; auto; lia.
Qed.
Lemma acked_req s t off l : update_ack (st_t s) off = Ok (t, l) -> require (ss_t s t) = require s.
Proof. intros H. apply ack_loop_same in H as (A & B & _ & C); [|reflexivity]. unfold require. cbn [st_t ss_t st_fc st_swr]. rewrite A, B, C. reflexivity. Qed.
Lemma submit_req s frs fin : require s = true -> require (ss_t s (tx_submit (st_t s) frs fin)) = true.
Proof.
  unfold require. cbn [st_t ss_t st_fc st_swr]. assert (write_done (tx_submit (st_t s) frs fin) = write_done (st_t s)) as -> by (destruct fin; reflexivity).
  assert (t_rdblk (tx_submit (st_t s) frs fin) = t_rdblk (st_t s)) as -> by (destruct fin; reflexivity). assert (t_frq (tx_submit (st_t s) frs fin) = t_frq (st_t s) ++ frs) as -> by (destruct fin; reflexivity).
  intros R. apply orb_true_iff in R as [R|R]; [rewrite R; reflexivity|]. apply andb_true_iff in R as [R1 R2]. rewrite R2, andb_true_r. apply orb_true_iff. right.
  apply negb_true_iff, Nat.eqb_neq in R1. apply negb_true_iff, Nat.eqb_neq. rewrite app_length. lia.
Qed.
Lemma wake_req s (fc : bool) : require s = true -> require (if fc then ss_fc s false else ss_t s (tx_resume (st_t s))) = true.
Proof.
  unfold require. destruct fc; cbn [st_t ss_t ss_fc st_fc st_swr]; intros R; apply orb_true_iff in R as [R|R].
  - apply andb_true_iff in R as [R R1]. apply andb_true_iff in R as [R R2]. rewrite R, R1. reflexivity.
  - rewrite R. apply orb_true_r.
  - assert (write_done (tx_resume (st_t s)) = write_done (st_t s)) as -> by reflexivity. rewrite R. reflexivity.
  - apply andb_true_iff in R as [R _]. change (t_frq (tx_resume (st_t s))) with (t_frq (st_t s)). change (t_rdblk (tx_resume (st_t s))) with false. rewrite R. apply orb_true_r.
Qed.

(* the scheduler's queues hold exactly the streams with something to send.  Ex: a stream being closed in this call *)
Definition SI (Ex : Z -> Prop) (c : conn) : Prop :=
  sinv (k_sch c) /\
  (forall id, sched (k_sch c) id = true -> exists s, find_stream c id = Some s /\ client_bidi id = true /\ x_closed (st_x s) = false /\ require s = true) /\
  (forall id s, find_stream c id = Some s -> client_bidi id = true -> st_fc s = false -> st_swr s = false -> x_closed (st_x s) = false -> require s = true -> sched (k_sch c) id = true \/ Ex id).
(* streams whose close is pending *)
Definition CLc (Cl : Z -> Prop) (c : conn) : Prop := forall id s, find_stream c id = Some s -> x_closed (st_x s) = true -> Cl id.
Definition tidyA (Cl Ex : Z -> Prop) (a : kact) : Prop :=
  match a with
  | ASubmit id _ _ _ => client_bidi id = true /\ ~ Cl id
  | AWake id _ | AWritten id _ | APriority id _ | AUpdate id _ true | AServer id _ => ~ Cl id
  | AClose id _ => Cl id /\ Ex id
  | _ => True
  end.
Lemma SI_init Ex K : SI Ex (conn_init K).
Proof. split; [apply sinv_init|]. split; [intros id H; discriminate|intros id s H; discriminate]. Qed.
Lemma SI_upd Ex c c' id s' : SI Ex c -> sinv (k_sch c') -> (forall y, y <> id -> sched (k_sch c') y = sched (k_sch c) y) -> (forall y, y <> id -> find_stream c' y = find_stream c y) ->
  find_stream c' id = Some s' -> (sched (k_sch c') id = true -> client_bidi id = true /\ x_closed (st_x s') = false /\ require s' = true) ->
  (client_bidi id = true -> st_fc s' = false -> st_swr s' = false -> x_closed (st_x s') = false -> require s' = true -> sched (k_sch c') id = true \/ Ex id) -> SI Ex c'.
Proof.
  intros (A & B & C) I N F G H1 H2. split; [exact I|]. split.
  - intros y Y. destruct (Z.eq_dec y id) as [->|NE]; [exists s'; split; [exact G|]; apply H1; exact Y|]. rewrite N in Y by auto. rewrite F by auto. apply B; exact Y.
  - intros y s Y. destruct (Z.eq_dec y id) as [->|NE]; [rewrite G in Y; injection Y as <-; exact H2|]. rewrite F in Y by auto. rewrite N by auto. apply C; exact Y.
Qed.
Lemma SI_same Ex c c' : SI Ex c -> k_sch c' = k_sch c -> (forall y, find_stream c' y = find_stream c y) -> SI Ex c'.
Proof. intros (A & B & C) S F. split; [rewrite S; auto|]. split; [intros id; rewrite S, F; apply B|intros id s; rewrite S, F; apply C]. Qed.
Lemma SI_put Ex c id s s' c' : SI Ex c -> find_stream c id = Some s -> k_sch c' = k_sch c -> (forall y, y <> id -> find_stream c' y = find_stream c y) -> find_stream c' id = Some s' ->
  (client_bidi id = true -> x_closed (st_x s') = x_closed (st_x s) /\ require s' = require s /\ st_fc s' = st_fc s /\ st_swr s' = st_swr s) -> SI Ex c'.
Proof.
  intros I F S N G H. pose proof I as (A & B & C). eapply (SI_upd Ex c c' id s'); auto; try (rewrite S; auto; fail).
  - intros Y. rewrite S in Y. destruct (B _ Y) as (t & F1 & CB & X & R). rewrite F in F1. injection F1 as <-. destruct (H CB) as (H1 & H2 & _). rewrite H1, H2. auto.
  - intros CB. destruct (H CB) as (H1 & H2 & H3 & H4). rewrite H1, H2, H3, H4, S. intros. eapply C; eauto.
Qed.
Lemma fresh_tx K c id s : fresh_stream K c id s -> st_t s = tx_init /\ x_closed (st_x s) = false.
Proof. intros [[_ ->]|[[_ ->]|[(_ & _ & u & _ & ->)|(_ & _ & _ & nva & ->)]]]; cbn; try (split; reflexivity). destruct (_ && _); split; reflexivity. Qed.
Lemma sch_mid c id s x : k_sch (mid c id s x) = k_sch c.
Proof. unfold mid. destruct (_ && _); reflexivity. Qed.
Lemma sch_add K c id s : k_sch (add_stream K c id s) = sc_create (k_sch c) id.
Proof. unfold add_stream. destruct (is_server_bidi K id); reflexivity. Qed.
Lemma sch_rem K c id : k_sch (rem_stream K c id) = k_sch c.
Proof. unfold rem_stream. destruct (is_server_bidi K id); reflexivity. Qed.
Lemma find_rem K c id j : find_stream (rem_stream K c id) j = if j =? id then None else find_stream c j.
Proof. unfold rem_stream. destruct (is_server_bidi K id); apply find_del_s. Qed.
Lemma SI_new K Ex c id s n c' : SI Ex c -> find_stream c id = None -> st_t s = tx_init -> n_sched n = false -> lvl (p_urg (n_pri n)) -> k_sch c' = set_node (k_sch c) id n ->
  (forall j, find_stream c' j = find_stream (add_stream K c id s) j) -> SI Ex c'.
Proof.
  intros I F T S L E FF. pose proof I as (A & B & C).
  assert (sched (k_sch c) id = false) as U by (destruct (sched (k_sch c) id) eqn:U; auto; destruct (B _ U) as (? & G & _); congruence).
  eapply (SI_upd Ex c c' id s); auto.
  - rewrite E. apply sinv_free; auto.
  - intros y N. rewrite E. unfold sched, set_node. cbn. rewrite upd_z_other; auto.
  - intros y N. rewrite FF, find_add by auto. apply Z.eqb_neq in N. rewrite N. reflexivity.
  - rewrite FF, find_add, Z.eqb_refl by auto. reflexivity.
  - intros Y. exfalso. rewrite E in Y. unfold sched, set_node in Y. cbn in Y. rewrite upd_z_same in Y. congruence.
  - intros _ _ _ _ R. exfalso. unfold require in R. rewrite T in R. cbn in R. discriminate.
Qed.
Lemma sched_oth s x o s' : sok s x o s' -> forall y, y <> x -> sched s' y = sched s y.
Proof. intros S y N. unfold sched. rewrite (so_oth _ _ _ _ S) by auto. reflexivity. Qed.
Lemma find_mid_other c id s x j : j <> id -> find_stream (mid c id s x) j = find_stream c j.
Proof. intros N. apply Z.eqb_neq in N. unfold mid. destruct (_ && _); cbn; unfold find_stream; cbn; rewrite find_set_s, N; reflexivity. Qed.
Lemma SI_mid Ex c q id s s0 x c0 : SI Ex c -> c0 = c \/ c0 = kk_blk c q -> find_stream c id = Some s0 -> st_t s = st_t s0 -> st_fc s = st_fc s0 -> st_swr s = st_swr s0 -> x_closed x = x_closed (st_x s0) -> SI Ex (mid c0 id s x).
Proof.
  intros I C0 F T A B X. assert (k_sch c0 = k_sch c /\ forall j, find_stream c0 j = find_stream c j) as [S0 F0] by (destruct C0 as [->| ->]; split; reflexivity).
  eapply (SI_put Ex c id s0 (ss_x s x)); auto.
  - rewrite sch_mid. exact S0.
  - intros y N. rewrite find_mid_other by auto. apply F0.
  - rewrite (find_mid c0 id s s0 x), Z.eqb_refl by (rewrite F0; exact F). reflexivity.
  - intros _. unfold require. cbn [ss_x st_x st_t st_fc st_swr]. rewrite T, A, B. auto.
Qed.
Lemma CL_upd Cl c c' id s' : CLc Cl c -> (forall y, y <> id -> find_stream c' y = find_stream c y) -> find_stream c' id = Some s' -> (x_closed (st_x s') = true -> Cl id) -> CLc Cl c'.
Proof. intros H N F C y s Y X. destruct (Z.eq_dec y id) as [->|NE]; [rewrite F in Y; injection Y as <-; auto|]. rewrite N in Y by auto. eapply H; eauto. Qed.
Lemma CL_same Cl c c' : CLc Cl c -> (forall y, find_stream c' y = find_stream c y) -> CLc Cl c'.
Proof. intros H N y s Y. rewrite N in Y. eapply H; eauto. Qed.
Lemma ebufs_find es : forall c c1, add_ebufs c es = Ok c1 -> forall j, k_tenc c <> Some j -> find_stream c1 j = find_stream c j.
Proof.
  intros c c1 H j N. revert H. apply (add_ebufs_P (fun d => k_tenc d = k_tenc c /\ find_stream d j = find_stream c j)); [|auto].
  intros d q s t e [A B] Q F W. split; [exact A|]. rewrite find_put_other; auto. intros ->. congruence.
Qed.
(* what writing header blocks to the encoder stream leaves of any stream *)
Lemma ebufs_keep es c c1 : add_ebufs c es = Ok c1 -> forall j s, find_stream c1 j = Some s -> exists s0 t, find_stream c j = Some s0 /\ s = ss_t s0 t /\ (k_tenc c <> Some j -> s = s0).
Proof.
  intros H. revert H. apply (add_ebufs_P (fun d => k_tenc d = k_tenc c /\ forall j s, find_stream d j = Some s -> exists s0 t, find_stream c j = Some s0 /\ s = ss_t s0 t /\ (k_tenc c <> Some j -> s = s0))).
  - intros d q s t e [A B] Q F W. split; [exact A|]. intros j s' G. rewrite find_put, F in G. destruct (Z.eqb_spec j q) as [->|N]; [|auto].
    injection G as <-. destruct (B _ _ F) as (s0 & t0 & F0 & -> & _). exists s0, t. split; [exact F0|]. split; [reflexivity|]. rewrite <- A, Q. congruence.
  - split; [reflexivity|]. intros j s G. exists s, (st_t s). split; [exact G|]. split; [destruct s; reflexivity|auto].
Qed.
Lemma lvl_init : lvl (p_urg (n_pri node_init)).
Proof. unfold lvl, node_init. cbn [n_pri p_urg]. unfold DEFAULT_URGENCY. lia. Qed.
Theorem kst_SI K Cl Ex c a c' : wf K c -> SI Ex c -> CLc Cl c -> tidyA Cl Ex a -> kst K c a c' -> SI Ex c' /\ CLc Cl c'.
Proof.
  intros W I L T H. pose proof I as (A & B & C).
  assert (PUT : forall id s s' (d : conn), find_stream c id = Some s -> k_sch d = k_sch c -> (forall y, find_stream d y = find_stream (put c id s') y) ->
    x_closed (st_x s') = x_closed (st_x s) -> (client_bidi id = true -> require s' = require s /\ st_fc s' = st_fc s /\ st_swr s' = st_swr s) -> SI Ex d /\ CLc Cl d).
  { intros id s s' d F S E X R. assert (find_stream d id = Some s') as G by (rewrite E; eapply find_put_same; eauto).
    assert (forall y, y <> id -> find_stream d y = find_stream c y) as N by (intros; rewrite E, find_put_other; auto). split.
    - eapply (SI_put Ex c id s s'); eauto.
    - eapply (CL_upd Cl c d id s'); [exact L|exact N|exact G|]. rewrite X. intros; eapply L; eauto. }
  assert (UPD : forall id s s' o sch' (d : conn), find_stream c id = Some s -> sok (k_sch c) id o sch' -> k_sch d = sch' -> (forall y, find_stream d y = find_stream (put c id s') y) ->
    x_closed (st_x s') = x_closed (st_x s) -> (sched sch' id = true -> client_bidi id = true /\ x_closed (st_x s') = false /\ require s' = true) ->
    (client_bidi id = true -> st_fc s' = false -> st_swr s' = false -> x_closed (st_x s') = false -> require s' = true -> sched sch' id = true \/ Ex id) -> SI Ex d /\ CLc Cl d).
  { intros id s s' o sch' d F S E FF X H1 H2. assert (find_stream d id = Some s') as G by (rewrite FF; eapply find_put_same; eauto).
    assert (forall y, y <> id -> find_stream d y = find_stream c y) as N by (intros; rewrite FF, find_put_other; auto). split.
    - eapply (SI_upd Ex c d id s'); auto; rewrite E; [apply (so_inv _ _ _ _ S)|apply (sched_oth _ _ _ _ S)|exact H1|exact H2].
    - eapply (CL_upd Cl c d id s'); [exact L|exact N|exact G|]. rewrite X. intros; eapply L; eauto. }
  assert (SCH : forall id s, find_stream c id = Some s -> sched (k_sch c) id = true -> client_bidi id = true /\ x_closed (st_x s) = false /\ require s = true).
  { intros id s F Y. destruct (B _ Y) as (t & F1 & R). rewrite F in F1. injection F1 as <-. exact R. }
  assert (OPEN : forall id s, find_stream c id = Some s -> ~ Cl id -> x_closed (st_x s) = false) by (intros id s F N; destruct (x_closed (st_x s)) eqn:X; auto; exfalso; apply N; eapply L; eauto).
  destruct H; cbn [tidyA] in T.
  - (* new *) destruct (fresh_tx _ _ _ _ H1) as [TX X]. split.
    + eapply (SI_new K Ex c id s node_init); auto; [apply lvl_init|rewrite sch_add; reflexivity].
    + eapply (CL_upd Cl c _ id s); auto; [intros y N; rewrite find_add by auto; apply Z.eqb_neq in N; rewrite N; reflexivity|rewrite find_add, Z.eqb_refl by auto; reflexivity|congruence].
  - (* recv *) pose proof (recv_fact false (benv_of K c s) (rx_now c s) src fin) as RF. rewrite H2 in RF. destruct RF as [[_ _ RC _] _]. cbn in RC. split.
    + eapply (SI_mid Ex c (k_blk c) id s s); eauto.
    + eapply (CL_upd Cl c _ id (ss_x s x)); [exact L|intros; apply find_mid_other; auto|rewrite (find_mid c id s s), Z.eqb_refl by auto; reflexivity|]. cbn. rewrite RC. intros; eapply L; eauto.
  - pose proof (resume_fact false (benv_of K (kk_blk c q) s) (unblocked c s)) as RF. rewrite H4 in RF. destruct RF as [_ _ RC _]. cbn in RC. split.
    + eapply (SI_mid Ex c q id (ss_x s (unblocked c s)) s); eauto.
    + eapply (CL_upd Cl c _ id (ss_x s x)); [exact L|intros; rewrite find_mid_other by auto; reflexivity|rewrite (find_mid (kk_blk c q) id _ s), Z.eqb_refl by auto; reflexivity|]. cbn. rewrite RC. intros; eapply L; eauto.
  - pose proof (resume_fact false (benv_of K (kk_blk c q) s) (unblocked c s)) as RF. rewrite H4 in RF. destruct RF as [_ _ RC _]. cbn in RC. split.
    + eapply (SI_mid Ex c q id (ss_x s (unblocked c s)) s); eauto.
    + eapply (CL_upd Cl c _ id (ss_x s x)); [exact L|intros; rewrite find_mid_other by auto; reflexivity|rewrite (find_mid (kk_blk c q) id _ s), Z.eqb_refl by auto; reflexivity|]. cbn. rewrite RC. intros; eapply L; eauto.
  - (* priority *) destruct (sc_priority_s (k_sch c) id p (require s) A H4) as (s1 & S & _ & SS). pose proof (sok_det _ _ _ _ _ S H5) as <-.
    eapply (UPD id s s _ s1); [exact H|exact S|reflexivity|intros y; rewrite put_same by auto; reflexivity|reflexivity| |].
    + intros Y. split; [auto|]. split; [eapply OPEN; eauto|]. destruct SS as [SS|[_ SS]]; [congruence|]. apply (SCH _ _ H). congruence.
    + intros _ F1 F2 F3 R. destruct SS as [SS|[_ SS]]; [left; congruence|]. rewrite SS. eapply C; eauto.
  - (* update *) destruct (sc_priority_s (k_sch c) id p (require s) A H2) as (s1 & S & _ & SS). pose proof (sok_det _ _ _ _ _ S H4) as <-.
    eapply (UPD id s (ss_pu s true) _ s1); [exact H|exact S|reflexivity|intros y; reflexivity|reflexivity| |].
    + intros Y. split; [auto|]. split; [eapply (OPEN id s); eauto|]. change (require (ss_pu s true)) with (require s). destruct SS as [SS|[_ SS]]; [congruence|]. apply (SCH _ _ H). congruence.
    + change (require (ss_pu s true)) with (require s). intros _ F1 F2 F3 R. destruct SS as [SS|[_ SS]]; [left; congruence|]. rewrite SS. eapply C; eauto.
  - (* update of an unknown stream *) set (s := ss_pu (new_stream id (rx_init id http_init (k_dec c))) true). cbv zeta. fold s.
    assert (SI Ex (add_stream K c id s)) as I1 by (eapply (SI_new K Ex c id s node_init); auto; [apply lvl_init|rewrite sch_add; reflexivity]).
    assert (find_stream (add_stream K c id s) id = Some s) as F1 by (rewrite find_add, Z.eqb_refl by auto; reflexivity).
    assert (sched (k_sch (add_stream K c id s)) id = false) as U by (rewrite sch_add; unfold sched, sc_create, set_node; cbn; rewrite upd_z_same; reflexivity). split.
    + eapply (SI_upd Ex (add_stream K c id s) _ id s); [exact I1| | |reflexivity|exact F1| |].
      * apply sinv_free; [apply I1|exact U|reflexivity|]. cbn. destruct H2 as [? _]. unfold lvl. lia.
      * intros y N. unfold sched, sc_create_pri, set_node. cbn. rewrite upd_z_other; auto.
      * unfold sched, sc_create_pri, set_node. cbn. rewrite upd_z_same. discriminate.
      * intros _ _ _ _ R. exfalso. discriminate R.
    + eapply (CL_upd Cl c _ id s); [exact L| |exact F1|discriminate]. intros y N. change (find_stream (add_stream K c id s) y = find_stream c y). rewrite find_add by auto. apply Z.eqb_neq in N. rewrite N. reflexivity.
  - auto.
  - auto.
  - split; [eapply (SI_same Ex c); eauto|eapply (CL_same Cl c); eauto].
  - (* deleted *) assert (sched (k_sch c) id = false) as U.
    { destruct (sched (k_sch c) id) eqn:Y; auto. destruct (SCH _ _ H Y) as (CB & X & _). destruct (H2 CB) as [Q|Q]; [unfold sched in Y; congruence|congruence]. }
    split.
    + split; [rewrite sch_rem; auto|]. split.
      * intros j. rewrite sch_rem, find_rem. destruct (Z.eqb_spec j id) as [->|N]; [congruence|apply B].
      * intros j t. rewrite sch_rem, find_rem. destruct (Z.eqb_spec j id) as [->|N]; [discriminate|apply C].
    + intros j t. rewrite find_rem. destruct (j =? id); [discriminate|apply L].
  - (* typing *) eapply (PUT id s (ss_u s (UNone rv'))); [exact H|reflexivity|reflexivity|reflexivity|auto].
  - destruct (identify_same _ _ _ _ H2) as [E _]. assert (k_str c1 = k_str c /\ k_sch c1 = k_sch c) as [E1 E2] by (rewrite E; split; reflexivity).
    eapply (PUT id s (ss_u s u)); [exact H|exact E2| |reflexivity|auto]. intros y. unfold find_stream, put. cbn. rewrite E1. reflexivity.
  - split; [eapply (SI_same Ex c); eauto|eapply (CL_same Cl c); eauto].
  - split; [eapply (SI_same Ex c); eauto|eapply (CL_same Cl c); eauto].
  - split; [eapply (SI_same Ex c); eauto|eapply (CL_same Cl c); eauto].
  - (* output of a unidirectional stream *) eapply (PUT id s (ss_t s t)); [exact H|reflexivity|reflexivity|reflexivity|]. intros CB. apply bidi_uni in CB. congruence.
  - eapply (PUT id s (ss_t s (tx_submit (st_t s) [FGoaway g] false))); [exact H0|reflexivity|reflexivity|reflexivity|].
    intros CB. destruct (wf_tx _ _ W id (or_introl H)) as [LU _]. exfalso. eapply local_not_bidi; eauto.
  - (* fill *) pose proof (get_next_ok (k_sch c) A) as G. rewrite H0 in G. destruct G as [Y _]. destruct (SCH _ _ H Y) as (CB & X & R). rewrite CB in H4.
    destruct (sc_offered_s (k_sch c) id (require s1) A) as (s2 & S & _ & SS). pose proof (sok_det _ _ _ _ _ S H4) as <-. rewrite Y, andb_true_r in SS.
    assert (forall j, k_tenc (put c id (ss_t s t)) = Some j -> j <> id /\ client_bidi j = false) as NB.
    { intros j Q. destruct (wf_tx _ _ W j (or_intror (or_introl Q))) as [LU _]. split; [intros ->; eapply local_not_bidi; eauto|]. destruct (client_bidi j) eqn:Z; auto. exfalso; eapply local_not_bidi; eauto. }
    assert (s1 = ss_t s t) as ->.
    { assert (find_stream c1 id = find_stream (put c id (ss_t s t)) id) as Q by (eapply ebufs_find; eauto; intros Q; apply NB in Q as [Q _]; congruence).
      rewrite H3, (find_put_same c id s) in Q by auto. congruence. }
    split.
    + split; [apply (so_inv _ _ _ _ S)|]. split.
      * intros j Z. change (k_sch (kk_sch c1 s2)) with s2 in Z. destruct (Z.eq_dec j id) as [->|N]; [exists (ss_t s t); rewrite SS in Z; auto|].
        rewrite (sched_oth _ _ _ _ S) in Z by auto. destruct (B _ Z) as (t1 & F1 & P). exists t1. split; [|exact P].
        change (find_stream c1 j = Some t1). erewrite ebufs_find; [|exact H2|]; [rewrite find_put_other; auto|]. intros Q. apply NB in Q as [_ Q]. destruct P. congruence.
      * intros j t1 F1 CJ P1 P2 P3 P4. change (k_sch (kk_sch c1 s2)) with s2. change (find_stream c1 j = Some t1) in F1.
        destruct (Z.eq_dec j id) as [->|N]; [left; rewrite H3 in F1; injection F1 as <-; congruence|].
        rewrite (sched_oth _ _ _ _ S) by auto. erewrite ebufs_find in F1; [|exact H2|]; [rewrite find_put_other in F1 by auto; eapply C; eauto|]. intros Q. apply NB in Q as [_ Q]. congruence.
    + intros j t1 F1 Z. change (find_stream c1 j = Some t1) in F1. destruct (ebufs_keep _ _ _ H2 _ _ F1) as (s0 & tt & F0 & -> & _). cbn in Z.
      rewrite find_put, H in F0. destruct (Z.eqb_spec j id) as [->|N]; [injection F0 as <-; cbn in Z; eapply L; eauto|eapply L; eauto].
  - (* written *) destruct (client_bidi id) eqn:CB.
    + destruct (sc_written_s (k_sch c) id n (require (ss_t s t)) A) as (s2 & S & _ & SS). pose proof (sok_det _ _ _ _ _ S H1) as <-.
      eapply (UPD id s (ss_t s t) _ s2); [exact H|exact S|reflexivity|reflexivity|reflexivity| |].
      * intros Y. split; [exact CB|]. split; [eapply (OPEN id s); eauto|]. destruct SS as [SS|SS]; [|congruence]. rewrite SS in Y. apply andb_true_iff in Y as [Y _]. exact Y.
      * intros _ F1 F2 F3 R. destruct SS as [SS|SS]; [|left; congruence]. rewrite SS, R. cbn [andb]. eapply C; eauto. eapply written_req; eauto.
    + injection H1 as <-. eapply (PUT id s (ss_t s t)); [exact H|reflexivity|reflexivity|reflexivity|congruence].
  - (* acked *) destruct H0 as [off Q]. eapply (PUT id s (ss_t s t)); [exact H|reflexivity|reflexivity|reflexivity|]. intros _. rewrite (acked_req _ _ _ _ Q). auto.
  - (* submit *) destruct T as [CB NC]. set (s' := ss_t s _) in *. destruct (sc_submit_s (k_sch c) id (require s') A) as (s2 & S & _ & SS). pose proof (sok_det _ _ _ _ _ S H0) as <-.
    eapply (UPD id s s' _ s2); [exact H|exact S|reflexivity|reflexivity|reflexivity| |].
    + intros Y. split; [exact CB|]. split; [eapply (OPEN id s); eauto|]. rewrite SS in Y. apply orb_true_iff in Y as [Y|Y]; [exact Y|]. apply submit_req. apply (SCH _ _ H Y).
    + intros _ _ _ _ R. left. rewrite SS, R. reflexivity.
  - (* block *) set (s' := if fc then ss_fc s true else ss_swr s true) in *. assert (x_closed (st_x s') = x_closed (st_x s)) as X by (unfold s'; destruct fc; reflexivity).
    destruct (client_bidi id) eqn:CB.
    + destruct (sc_block_s (k_sch c) id A) as (s2 & S & _ & SS). pose proof (sok_det _ _ _ _ _ S H0) as <-.
      eapply (UPD id s s' _ s2); [exact H|exact S|reflexivity|reflexivity|exact X|congruence|]. intros _ F1 F2. exfalso. unfold s' in F1, F2. destruct fc; discriminate.
    + injection H0 as <-. eapply (PUT id s s'); [exact H|reflexivity|reflexivity|exact X|congruence].
  - (* wake *) pose proof (wake_req s fc) as WR. set (s' := if fc then ss_fc s false else ss_t s (tx_resume (st_t s))) in *. assert (x_closed (st_x s') = x_closed (st_x s)) as X by (unfold s'; destruct fc; reflexivity).
    destruct (client_bidi id) eqn:CB.
    + destruct (sc_wake_s (k_sch c) id (require s') A) as (s2 & S & _ & SS). pose proof (sok_det _ _ _ _ _ S H0) as <-.
      eapply (UPD id s s' _ s2); [exact H|exact S|reflexivity|reflexivity|exact X| |].
      * intros Y. split; [exact CB|]. split; [rewrite X; eapply (OPEN id s); eauto|]. rewrite SS in Y. apply orb_true_iff in Y as [Y|Y]; [exact Y|]. apply WR. apply (SCH _ _ H Y).
      * intros _ _ _ _ R. left. rewrite SS, R. reflexivity.
    + injection H0 as <-. eapply (PUT id s s'); [exact H|reflexivity|reflexivity|exact X|congruence].
  - (* close *) destruct T as [T1 T2]. destruct (sc_close_s (k_sch c) id A) as (s2 & S & _ & SS). pose proof (sok_det _ _ _ _ _ S H1) as <-.
    set (s' := let s0 := ss_code s code in if b_blk (x_st (st_x s0)) then ss_x s0 (x_close (st_x s0)) else s0). fold s'. assert (find_stream (kk_sch (put c id s') s2) id = Some s') as F1 by (eapply (find_put_same c id s); eauto).
    assert (forall y, y <> id -> find_stream (kk_sch (put c id s') s2) y = find_stream c y) as N by (intros; apply (find_put_other c id s'); auto). split.
    + eapply (SI_upd Ex c _ id s'); [exact I|apply (so_inv _ _ _ _ S)|apply (sched_oth _ _ _ _ S)|exact N|exact F1|change (k_sch (kk_sch (put c id s') s2)) with s2; congruence|auto].
    + eapply (CL_upd Cl c _ id s'); [exact L|exact N|exact F1|auto].
  - (* shut *) eapply (PUT id s (ss_x s (x_shut_rd (st_x s)))); [exact H|reflexivity|reflexivity|reflexivity|auto].
  - (* server priority *) assert (pri_valid p) as PV.
    { apply urg_ok_iff in H2. unfold lvl in H2. split; [lia|]. apply orb_true_iff in H3 as [H3|H3]; apply Z.eqb_eq in H3; auto. }
    destruct (sc_priority_s (k_sch c) id p (require s) A PV) as (s1 & S & _ & SS). pose proof (sok_det _ _ _ _ _ S H4) as <-.
    eapply (UPD id s (ss_sp s true) _ s1); [exact H|exact S|reflexivity|reflexivity|reflexivity| |]; change (require (ss_sp s true)) with (require s).
    + intros Y. split; [auto|]. split; [eapply (OPEN id s); eauto|]. destruct SS as [SS|[_ SS]]; [congruence|]. apply (SCH _ _ H). congruence.
    + intros _ F1 F2 F3 R. destruct SS as [SS|[_ SS]]; [left; congruence|]. rewrite SS. eapply C; eauto.
  - auto.
  - auto.
Qed.

(* close_stream was called for the stream, which is kept because its header section is still to be decoded *)
Definition closing (id : Z) (h : list kcall) : Prop := exists code, In (OClose id code) (ops_of (life id h)).
(* the call concerns what the stream sends or how urgent it is *)
Definition stirs (id : Z) (x : kcall) : Prop :=
  match ConnHist.c_op x with
  | OUnblock i | OResume i | OAddWrite i _ | OServerPriority i _ | OInfo i _ | OResponse i _ _ | OTrailers i _ | ORequest i _ _ => i = id
  | _ => False
  end \/ (exists p, In (KControl (CvPriority id p)) (c_evs x)) \/ (exists p, In (KStream id (BvPriority p)) (c_evs x)).
(* submissions are for request streams, and streams whose close is pending are left alone *)
Definition tidy_call (h : list kcall) (x : kcall) : Prop :=
  (forall id, match ConnHist.c_op x with OInfo i _ | OResponse i _ _ | OTrailers i _ => i = id | _ => False end -> client_bidi id = true) /\
  (forall id, stirs id x -> ~ closing id h).
Definition tidy (h : list kcall) : Prop := forall a x b, h = a ++ x :: b -> tidy_call a x.
Lemma tidy_app a b : tidy (a ++ b) -> tidy a.
Proof. intros T p x q ->. apply (T p x (q ++ b)). rewrite <- app_assoc. reflexivity. Qed.
Lemma tidy_last h x : tidy (h ++ [x]) -> tidy_call h x.
Proof. intros T. apply (T h x []). reflexivity. Qed.

Lemma request_bidi K c id nva dr c' rv evs : kstep K c (ORequest id nva dr) = KOk c' rv evs -> client_bidi id = true.
Proof. cbn [kstep]. unfold submit_request. destruct (client_bidi id); auto. rewrite andb_false_r. cbn [negb]. rewrite orb_true_r. discriminate. Qed.
Lemma in_seen a l e : In a l -> In e (vis a) -> In e (seen l).
Proof. intros A E. unfold seen. apply in_concat. exists (vis a). split; [apply in_map; auto|auto]. Qed.
Lemma close_shape K c id code c' rv evs : kstep K c (OClose id code) = KOk c' rv evs -> find_stream c' id = None \/ exists s, find_stream c' id = Some s /\ x_closed (st_x s) = true.
Proof.
  cbn [kstep]. unfold close_stream. destruct (find_stream c id) as [s|] eqn:F; [|intros [= <- _ _]; auto].
  destruct (_ && _); [discriminate|]. unfold sched_do. destruct (sc_close _ _) as [s2| |]; try discriminate.
  destruct (b_blk _).
  - intros [= <- _ _]. right. exists (ss_x (ss_code s code) (x_close (st_x (ss_code s code)))). split; [|reflexivity].
    assert (find_stream (kk_sch (put c id (ss_code s code)) s2) id = Some (ss_code s code)) as G by (apply (find_put_same c id s); auto).
    apply (find_put_same (kk_sch (put c id (ss_code s code)) s2) id _ _ G).
  - unfold delete_stream, drop_stream. intros H. left.
    assert (c' = rem_stream K (kk_sch (put c id (ss_code s code)) s2) id) as ->.
    { unfold rem_stream. revert H. destruct (is_server_bidi K id); [destruct (_ <=? 0); [discriminate|]|]; intros [= <- _ _]; reflexivity. }
    rewrite find_rem, Z.eqb_refl. reflexivity.
Qed.
Lemma ksts_SI K Cl Ex c l c' : ksts K c l c' -> wf K c -> SI Ex c -> CLc Cl c -> Forall (tidyA Cl Ex) l -> SI Ex c' /\ CLc Cl c'.
Proof.
  intros H. induction H as [c|c a c1 l c' T D IH]; intros W I L F; auto. inversion F; subst. destruct (kst_SI K Cl Ex c a c1 W I L H1 T) as [I1 L1]. apply IH; auto. eapply kst_wf; eauto.
Qed.
Lemma step_tidy K h c o c' rv evs acts : kstep K c o = KOk c' rv evs -> tidy_call h (mk_call o rv evs c') -> decomp K c o c' evs acts ->
  Forall (tidyA (fun id => closing id h \/ exists code, o = OClose id code) (fun id => exists code, o = OClose id code)) acts.
Proof.
  intros S [T1 T2] (D & E & F & P). apply Forall_forall. intros a Ha. rewrite Forall_forall in F. pose proof (F a Ha) as A.
  destruct a; cbn [tidyA]; auto; cbn [allowed allowed0] in A.
  - destruct A as (i & src & fin & ->). intros [C|[code C]]; [|discriminate]. revert C. apply T2. right. right. exists p. apply P. exact Ha.
  - destruct known; auto. destruct A as (i & src & fin & ->). intros [C|[code C]]; [|discriminate]. revert C. apply T2. right. left. exists p. cbn. rewrite <- E.
    eapply in_seen; [exact Ha|]. left. reflexivity.
  - subst o. intros [C|[code C]]; [|discriminate]. revert C. apply T2. left. reflexivity.
  - assert (client_bidi id = true /\ stirs id (mk_call o rv evs c') /\ forall code, o <> OClose id code) as (CB & ST & NC).
    { destruct A as [->|[->|(_ & [->| ->])]]; (split; [|split; [left; reflexivity|discriminate]]).
      - eapply request_bidi; eauto.
      - apply T1. reflexivity.
      - apply T1. reflexivity.
      - apply T1. reflexivity. }
    split; [exact CB|]. intros [C|[code C]]; [|eapply NC; eauto]. revert C. apply T2. exact ST.
  - destruct fc; subst o; (intros [C|[code C]]; [|discriminate]); revert C; apply T2; left; reflexivity.
  - subst o. eauto.
  - subst o. intros [C|[code C]]; [|discriminate]. revert C. apply T2. left. reflexivity.
Qed.
Theorem hist_SI K h c : history K h c -> tidy h -> SI (fun _ => False) c /\ CLc (fun id => closing id h) c.
Proof.
  intros H. revert h c H. apply (hist_inv K (fun h c => tidy h -> SI (fun _ => False) c /\ CLc (fun id => closing id h) c)).
  - intros _. split; [apply SI_init|intros id s F; discriminate].
  - intros h c o c' rv evs H W O IH S T. destruct (IH (tidy_app _ _ T)) as [I L]. destruct (step_decomp _ _ _ _ _ _ W O S) as (acts & D).
    pose proof (step_tidy K h c o c' rv evs acts S (tidy_last _ _ T) D) as TA. destruct D as (D & _).
    destruct (ksts_SI K (fun id => closing id h \/ exists code, o = OClose id code) (fun id => exists code, o = OClose id code) _ _ _ D W) as [I' L']; [|intros id s F X; left; eapply L; eauto|exact TA|].
    { destruct I as (A & B & C). split; [auto|]. split; [auto|]. intros id s F1 F2 F3 F4 F5 F6. destruct (C id s F1 F2 F3 F4 F5 F6) as [Y|[]]. auto. }
    split.
    + destruct I' as (A & B & C). split; [auto|]. split; [auto|]. intros id s F1 F2 F3 F4 F5 F6. destruct (C id s F1 F2 F3 F4 F5 F6) as [Y|[code ->]]; [auto|]. exfalso.
      destruct (close_shape _ _ _ _ _ _ _ S) as [Q|(s2 & Q & X)]; [congruence|]. rewrite F1 in Q. injection Q as <-. congruence.
    + intros id s F X. unfold closing. rewrite life_snoc. cbn. unfold is_open. rewrite F. rewrite ops_snoc. cbn.
      destruct (L' id s F X) as [(code & Q)|(code & ->)]; exists code; apply in_app_iff; [left; exact Q|right; left; reflexivity].
Qed.

(* histories without close are tidy if responses are submitted on request streams only *)
Lemma life_in id h x : In x (life id h) -> In x h.
Proof.
  revert x. induction h as [|y h IH] using rev_ind; [intros x []|]. intros x I. rewrite life_snoc in I.
  rewrite in_app_iff. destruct (is_open (c_post y) id); [|destruct I].
  apply in_app_or in I as [I|I]; auto.
Qed.
Definition plainb (x : kcall) : bool :=
  match ConnHist.c_op x with OClose _ _ => false | OInfo i _ | OResponse i _ _ | OTrailers i _ => client_bidi i | _ => true end.
Lemma tidy_plain h : forallb plainb h = true -> tidy h.
Proof.
  intros H a x b ->. rewrite forallb_forall in H. split.
  - intros id M. specialize (H x ltac:(apply in_or_app; right; left; reflexivity)). unfold plainb in H. destruct (ConnHist.c_op x); try contradiction; subst; exact H.
  - intros id _ [code C]. unfold ops_of in C. apply in_map_iff in C as (y & E & I). apply life_in in I.
    specialize (H y ltac:(apply in_or_app; auto)). unfold plainb in H. rewrite E in H. discriminate.
Qed.
