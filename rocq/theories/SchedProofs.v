(* The scheduler keeps every scheduled stream in the queue of its urgency level *)
From Verif Require Import Base BaseLemmas HttpModel PqModel PqProofs PqWeak SchedModel.
Open Scope Z_scope.

Definition urg (s : sch) (x : Z) : Z := p_urg (n_pri (sc_n s x)).
Definition sched (s : sch) (x : Z) : bool := n_sched (sc_n s x).
Definition lvl (u : Z) : Prop := 0 <= u < 8.
Lemma urg_ok_iff u : urg_ok u = true <-> lvl u.
Proof. unfold urg_ok, lvl, URGENCY_LEVELS. change (Z.of_nat 8) with 8. rewrite andb_true_iff. lia. Qed.
Definition sinv (s : sch) : Prop :=
  (forall x, lvl (urg s x)) /\ (forall u, lvl u -> exact (sc_q s u)) /\
  (forall u x, lvl u -> (has (sc_q s u) x <-> sched s x = true /\ urg s x = u)).
Lemma upd_z_same {A} (f : Z -> A) x v : upd_z f x v x = v. Proof. unfold upd_z. rewrite Z.eqb_refl. reflexivity. Qed.
Lemma upd_z_other {A} (f : Z -> A) x v y : y <> x -> upd_z f x v y = f y.
Proof. intros. unfold upd_z. destruct (Z.eqb_spec y x); congruence. Qed.
Lemma sinv_init : sinv sch_init.
Proof.
  split; [intros x; change (lvl 3); unfold lvl; lia|]. split; [intros u _ i Hi; cbn in Hi; lia|]. intros u x _. cbn. split; [intros (i & Hi & _); cbn in Hi; lia|intros [H _]; discriminate].
Qed.
(* changing a field of a node the queues do not depend on *)
Lemma sinv_node s x n : sinv s -> n_sched n = sched s x -> p_urg (n_pri n) = urg s x -> sinv (set_node s x n).
Proof.
  intros (A & B & C) H1 H2. unfold sinv, urg, sched in *. cbn [sc_n sc_q set_node]. split; [|split]; auto.
  - intros y. unfold upd_z. destruct (Z.eqb_spec y x); [subst; rewrite H2; auto|auto].
  - intros u y Hu. rewrite (C u y Hu). unfold upd_z. destruct (Z.eqb_spec y x); [subst; rewrite H1, H2; tauto|tauto].
Qed.
(* an unscheduled node *)
Lemma sinv_free s x n : sinv s -> sched s x = false -> n_sched n = false -> lvl (p_urg (n_pri n)) -> sinv (set_node s x n).
Proof.
  intros (A & B & C) H1 H2 H3. unfold sinv, urg, sched in *. cbn [sc_n sc_q set_node]. split; [|split]; auto.
  - intros y. unfold upd_z. destruct (Z.eqb_spec y x); [subst; auto|auto].
  - intros u y Hu. rewrite (C u y Hu). unfold upd_z. destruct (Z.eqb_spec y x); [subst; rewrite H1, H2; split; intros [? _]; congruence|tauto].
Qed.
Lemma take_out_ok s x : sinv s -> sched s x = true -> exists s', take_out s (urg s x) x = Ok s' /\ sinv s' /\
  sc_n s' x = nd_sched (sc_n s x) false /\ (forall y, y <> x -> sc_n s' y = sc_n s y) /\
  (forall u, lvl u -> u <> urg s x -> sc_q s' u = sc_q s u) /\
  pq_remove (cycle_less s) (sc_q s (urg s x)) x = Ok (sc_q s' (urg s x)).
Proof.
  intros I E. pose proof I as (A & B & C). unfold take_out.
  destruct (remove_weak (cycle_less s) (sc_q s (urg s x)) x) as (p & -> & R1 & R2 & R3); [apply B; auto|apply C; auto|].
  eexists; split; [reflexivity|]. split; [|split; [|split; [|split]]].
  + unfold sinv, urg, sched. cbn [sc_n sc_q set_node set_pq]. split; [|split].
    * intros y. unfold upd_z. destruct (Z.eqb_spec y x); [subst; apply A|apply A].
    * intros u Hu. unfold upd_z. destruct (Z.eqb_spec u (p_urg (n_pri (sc_n s x)))); auto.
    * intros u y Hu. unfold upd_z at 1. destruct (Z.eqb_spec u (p_urg (n_pri (sc_n s x)))) as [->|N].
      -- rewrite R3, (C _ y Hu). unfold upd_z. destruct (Z.eqb_spec y x) as [->|Ny]; cbn; [split; [tauto|intros [? _]; discriminate]|].
         unfold sched, urg. tauto.
      -- rewrite (C u y Hu). unfold upd_z. destruct (Z.eqb_spec y x) as [->|Ny]; cbn; [|unfold sched, urg; tauto].
         unfold urg. split; [intros [_ ?]; congruence|intros [? _]; discriminate].
  + cbn. rewrite upd_z_same. reflexivity.
  + intros y Hy. cbn. apply upd_z_other; auto.
  + intros u Hu N. cbn; apply upd_z_other; auto.
  + cbn. rewrite upd_z_same. reflexivity.
Qed.
Lemma unschedule_ok s x : sinv s -> exists s', unschedule s x = Ok s' /\ sinv s' /\ sched s' x = false /\
  sc_n s' x = nd_sched (sc_n s x) false /\ (forall y, y <> x -> sc_n s' y = sc_n s y) /\
  (forall u, lvl u -> u <> urg s x -> sc_q s' u = sc_q s u).
Proof.
  intros I. pose proof I as (A & B & C). unfold unschedule. fold (urg s x). rewrite (proj2 (urg_ok_iff _) (A x)). cbn [negb].
  fold (sched s x). destruct (sched s x) eqn:E; cbn [negb].
  - destruct (take_out_ok s x I E) as (s' & T1 & T2 & T3 & T4 & T5 & _). exists s'. split; [exact T1|]. split; [exact T2|].
    split; [unfold sched; rewrite T3; reflexivity|]. auto.
  - exists s. split; [reflexivity|]. split; [exact I|]. split; [exact E|]. split; [|auto].
    unfold sched in E. destruct (sc_n s x) as [a b c d]. cbn in E. subst c. reflexivity.
Qed.
Lemma push_inv s x : sinv s -> sched s x = false -> sinv (push s (urg s x) x).
Proof.
  intros (A & B & C) E. unfold push. set (s1 := set_node s x _). 
  assert (~ has (sc_q s1 (urg s x)) x) as N by (change (sc_q s1) with (sc_q s); rewrite (C _ x (A x)); intros [H _]; congruence).
  destruct (push_weak (cycle_less s1) (sc_q s1 (urg s x)) x) as (P1 & P2 & P3); [apply B; auto|exact N|].
  unfold sinv. split; [|split].
  - intros y. unfold urg. cbn. unfold upd_z. destruct (Z.eqb_spec y x) as [->|]; cbn; apply A.
  - intros u Hu. cbn. unfold upd_z. destruct (Z.eqb_spec u (urg s x)); auto.
  - intros u y Hu. unfold set_pq at 1; cbn [sc_q]. unfold upd_z at 1. destruct (Z.eqb_spec u (urg s x)) as [->|Nu].
    + rewrite P3. change (sc_q s1) with (sc_q s). rewrite (C _ y Hu). unfold sched, urg; cbn. unfold upd_z. destruct (Z.eqb_spec y x) as [->|Ny]; cbn; tauto.
    + change (sc_q s1) with (sc_q s). rewrite (C _ y Hu). unfold sched, urg; cbn. unfold upd_z. destruct (Z.eqb_spec y x) as [->|Ny]; cbn; [|tauto].
      unfold urg in Nu. split; [intros [_ ?]; congruence|intros [_ ?]; congruence].
Qed.
Lemma first_cycle_ok s u : exists c, first_cycle s u = Ok c.
Proof.
  unfold first_cycle, pq_empty. destruct (Nat.eqb_spec (pq_len (sc_q s u)) 0); [eauto|]. destruct (top_weak (sc_q s u)) as (t & -> & _); eauto.
Qed.
(* everything but the queue of this level *)
Lemma schedule_ok s x : sinv s -> exists s', schedule s x = Ok s' /\ sinv s' /\ sched s' x = true /\ n_nw (sc_n s' x) = 0 /\
  n_pri (sc_n s' x) = n_pri (sc_n s x) /\ (forall y, y <> x -> sc_n s' y = sc_n s y) /\ (forall u, lvl u -> u <> urg s x -> sc_q s' u = sc_q s u).
Proof.
  intros I. pose proof I as (A & B & C). unfold schedule. fold (urg s x). rewrite (proj2 (urg_ok_iff _) (A x)). cbn [negb].
  unfold tnode_schedule. fold (urg s x) (sched s x).
  assert (forall s2 : sch, sinv s2 -> sched s2 x = true -> sinv (set_node s2 x (nd_nw (sc_n s2 x) 0)) /\ sched (set_node s2 x (nd_nw (sc_n s2 x) 0)) x = true /\ n_nw (sc_n (set_node s2 x (nd_nw (sc_n s2 x) 0)) x) = 0) as Fin.
  { intros s2 I2 S2. split; [apply sinv_node; auto|]. unfold sched in *; cbn; rewrite upd_z_same; cbn; auto. }
  destruct (sched s x) eqn:E; cbn [negb].
  - destruct (Z.ltb_spec 0 (n_nw (sc_n s x))) as [Hn|Hn].
    + destruct (_ || _).
      * eexists; split; [reflexivity|]. destruct (Fin s I E) as (F1 & F2 & F3). split; [exact F1|split; [exact F2|split; [exact F3|]]]. cbn; rewrite upd_z_same.
        split; [reflexivity|split; [intros; apply upd_z_other; auto|auto]].
      * destruct (take_out_ok s x I E) as (s1 & T1 & T2 & T3 & T4 & T5 & _). rewrite T1.
        set (s2 := set_node s1 x _). assert (sinv s2) as I2 by (apply sinv_node; auto).
        assert (urg s2 x = urg s x) as Q2 by (unfold urg, s2; cbn; rewrite upd_z_same, T3; reflexivity).
        assert (sched s2 x = false) as S2 by (unfold sched, s2; cbn; rewrite upd_z_same, T3; reflexivity).
        pose proof (push_inv s2 x I2 S2) as I3. rewrite Q2 in I3.
        assert (sched (push s2 (urg s x) x) x = true) as S5 by (unfold sched, push; cbn; rewrite upd_z_same; reflexivity).
        exists (set_node (push s2 (urg s x) x) x (nd_nw (sc_n (push s2 (urg s x) x) x) 0)). split; [reflexivity|].
        destruct (Fin _ I3 S5) as (F1 & F2 & F3). split; [exact F1|split; [exact F2|split; [exact F3|]]].
        split; [unfold push, s2; cbn; rewrite !upd_z_same, T3; reflexivity|]. split.
        -- intros y Hy. unfold push, s2; cbn. rewrite !upd_z_other by auto. auto.
        -- intros u Hu Nu. unfold push, s2; cbn. rewrite !upd_z_other by auto. auto.
    + eexists; split; [reflexivity|]. destruct (Fin s I E) as (F1 & F2 & F3). split; [exact F1|split; [exact F2|split; [exact F3|]]]. cbn; rewrite upd_z_same.
      split; [reflexivity|split; [intros; apply upd_z_other; auto|auto]].
  - destruct (first_cycle_ok s (urg s x)) as (c & ->).
    set (s2 := set_node s x _). assert (sinv s2) as I2 by (apply sinv_node; auto).
    assert (urg s2 x = urg s x) as Q2 by (unfold urg, s2; cbn; rewrite upd_z_same; reflexivity).
    assert (sched s2 x = false) as S2 by (unfold sched, s2; cbn; rewrite upd_z_same; exact E).
    pose proof (push_inv s2 x I2 S2) as I3. rewrite Q2 in I3.
    assert (sched (push s2 (urg s x) x) x = true) as S5 by (unfold sched, push; cbn; rewrite upd_z_same; reflexivity).
    exists (set_node (push s2 (urg s x) x) x (nd_nw (sc_n (push s2 (urg s x) x) x) 0)). split; [reflexivity|].
    destruct (Fin _ I3 S5) as (F1 & F2 & F3). split; [exact F1|split; [exact F2|split; [exact F3|]]].
    split; [unfold push, s2; cbn; rewrite !upd_z_same; reflexivity|]. split.
    + intros y Hy. unfold push, s2; cbn. rewrite !upd_z_other by auto. reflexivity.
    + intros u Hu Nu. unfold push, s2; cbn. rewrite !upd_z_other by auto. reflexivity.
Qed.
(* the choice *)
Lemma next_tx_ok s f : sinv s -> forall u, 0 <= u -> u + Z.of_nat f <= 8 ->
  match next_tx f s u with
  | Ok (Some x) => sched s x = true /\ u <= urg s x < u + Z.of_nat f /\ forall y, sched s y = true -> u <= urg s y -> urg s x <= urg s y
  | Ok None => forall y, sched s y = true -> ~ u <= urg s y < u + Z.of_nat f
  | _ => False
  end.
Proof.
  intros (A & B & C). induction f as [|f IH]; intros u H1 H2; cbn [next_tx]; [intros y _; lia|].
  unfold pq_empty. destruct (Nat.eqb_spec (pq_len (sc_q s u)) 0) as [L|L].
  - specialize (IH (u + 1) ltac:(lia) ltac:(lia)).
    assert (forall y, sched s y = true -> urg s y <> u) as N.
    { intros y Hy Q. assert (has (sc_q s u) y) as Hh by (apply C; [unfold lvl; lia|auto]). apply len_has in Hh. congruence. }
    destruct (next_tx f s (u + 1)) as [[x|]| |]; auto.
    + destruct IH as (I1 & I2 & I3). split; [auto|split; [lia|]]. intros y Hy Hu. apply I3; auto. specialize (N y Hy). lia.
    + intros y Hy Hu. apply (IH y Hy). specialize (N y Hy). lia.
  - destruct (top_weak (sc_q s u) L) as (t & -> & Ht). apply C in Ht as [T1 T2]; [|unfold lvl; lia].
    split; [auto|split; [lia|]]. intros y _ Hy. lia.
Qed.
Theorem get_next_ok s : sinv s ->
  match get_next_tx s with
  | Ok (Some x) => sched s x = true /\ forall y, sched s y = true -> urg s x <= urg s y
  | Ok None => forall y, sched s y = false
  | _ => False
  end.
Proof.
  intros I. pose proof (next_tx_ok s 8 I 0 ltac:(lia) ltac:(cbn; lia)) as H. change (next_tx 8 s 0) with (get_next_tx s) in H. destruct I as (A & _).
  change (0 + Z.of_nat 8) with 8 in H.
  destruct (get_next_tx s) as [[x|]| |]; auto.
  - destruct H as (H1 & H2 & H3). split; [auto|]. intros y Hy. apply H3; auto. apply A.
  - intros y. destruct (sched s y) eqn:E; auto. exfalso. apply (H y E). apply A.
Qed.
