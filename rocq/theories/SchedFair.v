(* Histories of the scheduler: the window invariant holds throughout, and incremental streams share the link *)
From Verif Require Import Base BaseLemmas HttpModel PqModel PqProofs PqWeak SchedModel SchedProofs SchedWindow.
Open Scope Z_scope.

(* What happens to the scheduler, call by call.  Each carries what nghttp3_stream_require_schedule answers.
   SOffer: nghttp3_conn_writev_stream offers the bytes of stream x, v of them unsent; SWritten: add_write_offset. *)
Inductive sop :=
| SNew (x : Z) (p : pri)
| SSubmit (x : Z) (require : bool)
| SWake (x : Z) (require : bool)
| SOffer (x v : Z) (require : bool)
| SWritten (x n : Z) (require : bool)
| SBlock (x : Z)
| SPriority (x : Z) (p : pri) (require : bool)
| SClose (x : Z).
(* the scheduler, and for each stream how much of what it was last offered may still be reported as written *)
Record fst_t := mk_f { f_s : sch; f_b : Z -> Z }.
Definition f_init : fst_t := mk_f sch_init (fun _ => 0).
Definition with_s (f : fst_t) (o : outcome sch) : outcome fst_t :=
  match o with Ok s => Ok (mk_f s (f_b f)) | Err e => Err e | Abort => Abort end.
Definition set_b (f : fst_t) (x v : Z) : fst_t := mk_f (f_s f) (upd_z (f_b f) x v).
Definition pri_valid (p : pri) : Prop := 0 <= p_urg p < 8 /\ (p_inc p = 0 \/ p_inc p = 1).
(* a submission for a stream that is scheduled and has unaccounted bytes counts as 800 of them *)
Definition sub_cost (f : fst_t) (x : Z) : Z := if n_sched (sc_n (f_s f) x) && (0 <? n_nw (sc_n (f_s f) x)) then 800 else 0.
Definition fstep (f : fst_t) (o : sop) : outcome fst_t :=
  match o with
  | SNew x p => Ok (mk_f (sc_create_pri (f_s f) x p) (upd_z (f_b f) x 0))
  | SSubmit x r => with_s (set_b f x (f_b f x - sub_cost f x)) (sc_submit (f_s f) x r)
  | SWake x r => with_s f (sc_wake (f_s f) x r)
  | SOffer x v r => with_s (set_b f x v) (sc_offered (f_s f) x r)
  | SWritten x n r => with_s (set_b f x (f_b f x - n)) (sc_written (f_s f) x n r)
  | SBlock x => with_s f (sc_block (f_s f) x)
  | SPriority x p r => with_s f (sc_priority (f_s f) x p r)
  | SClose x => with_s f (sc_close (f_s f) x)
  end.
Definition lawful (V : Z) (f : fst_t) (o : sop) : Prop :=
  match o with
  | SNew x p => n_sched (sc_n (f_s f) x) = false /\ pri_valid p
  | SSubmit x _ => sub_cost f x <= f_b f x
  | SOffer x v _ => get_next_tx (f_s f) = Ok (Some x) /\ 0 <= v <= V
  | SWritten x n _ => 0 <= n <= f_b f x
  | SPriority x p _ => pri_valid p
  | SWake _ _ | SBlock _ | SClose _ => True
  end.

Definition cyc (s : sch) (x : Z) : Z := n_cycle (sc_n s x).
Definition inc (s : sch) (x : Z) : bool := negb (p_inc (n_pri (sc_n s x)) =? 0).
Definition nw (s : sch) (x : Z) : Z := n_nw (sc_n s x).
Lemma cl_clt s x y : cycle_less s x y = clt (cyc s) x y. Proof. reflexivity. Qed.

Record winvg (V : Z) (ex : Z -> Prop) (f : fst_t) : Prop := {
  w_s : sinv (f_s f);
  w_r : ranged (cyc (f_s f));
  w_i : forall x, p_inc (n_pri (sc_n (f_s f) x)) = 0 \/ p_inc (n_pri (sc_n (f_s f) x)) = 1;
  w_n : forall x, 0 <= nw (f_s f) x;
  w_b : forall x, 0 <= f_b f x;
  w_c : forall x, nw (f_s f) x + f_b f x <= V + 799;
  w_l : forall x, sched (f_s f) x = true -> ~ ex x -> nw (f_s f) x < 800;
  w_q : forall u, lvl u -> qok (V + 1600) (cyc (f_s f)) (inc (f_s f)) (fun x => nw (f_s f) x + f_b f x) (sc_q (f_s f) u) }.
Definition winv (V : Z) (f : fst_t) : Prop := winvg V (fun _ => False) f.

Lemma winv_init V : 0 <= V -> winv V f_init.
Proof.
  intros HV. constructor; cbn [f_s f_b f_init].
  - apply sinv_init.
  - intros x. cbn. lia.
  - intros x. left. reflexivity.
  - intros x. cbn. lia.
  - intros x. lia.
  - intros x. cbn. lia.
  - intros x H. discriminate H.
  - intros u Hu. exists 0. split; [lia|]. split; [intros j Hj; cbn in Hj; lia|]. split; [intros x (i & Hi & _); cbn in Hi; lia|].
    split; [intros x (i & Hi & _); cbn in Hi; lia|]. intros C. cbn in C. congruence.
Qed.

(* the new position of a member that is charged dl *)
Lemma qok_bump B cy inc' d p x p1 cy' d' dl : ranged cy -> ranged cy' -> B <= 800 * MAX_CYCLE_GAP -> (forall y, 0 <= d y) -> (forall y, 0 <= d' y) ->
  exact p -> qok B cy inc' d p -> has p x -> inc' x = true -> pq_remove (clt cy) p x = Ok p1 -> 0 <= dl ->
  (forall y, y <> x -> cy' y = cy y /\ d' y <= d y) -> cy' x = u64 (cy x + dl) -> 800 * dl + d' x <= d x -> qok B cy' inc' d' (pq_push (clt cy') p1 x).
Proof.
  intros R R' HB Hd Hd' E (b & Hb & H1 & H2 & H3 & H4) Hx Ix HR Hdl Oth Cx Dx.
  destruct (remove_ok (clt cy) (inwin cy b) (ord_asym cy b R Hb) (ord_trans cy b R Hb) p x (qok_inv B cy inc' d HB Hd p b E H1 H2) Hx) as (p2 & HR2 & (A & E2 & G1) & G2 & G3 & _).
  rewrite HR in HR2. injection HR2 as <-.
  assert (forall y, has p1 y -> y <> x /\ has p y) as M by (intros y Hy; apply G3 in Hy; tauto).
  assert (off cy' b x = off cy b x + dl) as Ox.
  { pose proof (H2 x Hx) as L. pose proof (Hd' x). unfold off in *. rewrite Cx. pose proof (R x) as Rx. revert L Dx Rx. generalize (cy x). intros a L Dx Ra. rewrite gap_val in HB. pose proof (u64_range (a - b)). assert (dl < 2 ^ 64) by lia.
    rewrite (u64_case a b) in * by (auto; lia). rewrite (u64_case_add a dl) by lia.
    destruct (Z.ltb_spec (a + dl) (2 ^ 64)); win; destruct (Z.leb_spec b a); try lia;
    match goal with |- context [b <=? ?v] => destruct (Z.leb_spec b v) end; lia. }
  assert (heap (clt cy') p1) as Hp1.
  { eapply heap_ext; [|exact G1]. intros y z Hy Hz. apply clt_ext; symmetry; apply Oth; apply M; auto. }
  assert (forall y, has p1 y -> 800 * off cy' b y + d' y <= B) as K.
  { intros y Hy. destruct (M y Hy) as [N Hp]. destruct (Oth y N) as [O1 O2]. specialize (H2 y Hp). unfold off in *. rewrite O1. lia. }
  assert (800 * off cy' b x + d' x <= B) as Kx by (rewrite Ox; specialize (H2 x Hx); lia).
  destruct (push_ok (clt cy') (inwin cy' b) (ord_asym cy' b R' Hb) (ord_trans cy' b R' Hb) p1 x (qok_inv B cy' inc' d' HB Hd' p1 b E2 Hp1 K)) as ((A2 & E3 & F1) & F2 & F3 & _).
  { intros C. apply M in C. tauto. }
  { unfold inwin. pose proof (Hd' x). lia. }
  apply (rebase B cy' inc' d' R' HB Hd' _ b); auto.
  - intros y Hy. apply F3 in Hy as [->|Hy]; auto.
  - intros y Hy Iy. apply F3 in Hy as [->|Hy]; [congruence|]. destruct (M y Hy) as [N Hp]. destruct (Oth y N) as [O1 O2]. unfold off. rewrite O1. apply H3; auto.
Qed.

Definition capV (V : Z) : Prop := 0 <= V /\ V + 1600 <= 800 * MAX_CYCLE_GAP.
Lemma winvg_adj V (ex ex' : Z -> Prop) f x n v : winvg V ex f -> n_pri n = n_pri (sc_n (f_s f) x) -> n_cycle n = cyc (f_s f) x -> n_sched n = sched (f_s f) x ->
  0 <= n_nw n -> 0 <= v -> n_nw n + v <= nw (f_s f) x + f_b f x -> (forall y, y <> x -> ex y -> ex' y) -> (n_sched n = true -> ex' x \/ n_nw n < 800) ->
  winvg V ex' (mk_f (set_node (f_s f) x n) (upd_z (f_b f) x v)).
Proof.
  intros [W1 W2 W3 W4 W5 W6 W7 W8] E1 E2 E3 H1 H2 H3 Hex HL.
  assert (forall y, cyc (set_node (f_s f) x n) y = cyc (f_s f) y) as Qc by (intros y; unfold cyc; cbn; unfold upd_z; destruct (Z.eqb_spec y x) as [->|]; auto).
  assert (forall y, inc (set_node (f_s f) x n) y = inc (f_s f) y) as Qi by (intros y; unfold inc; cbn; unfold upd_z; destruct (Z.eqb_spec y x) as [->|]; [rewrite E1; auto|auto]).
  constructor; cbn [f_s f_b].
  - apply sinv_node; auto. unfold urg. rewrite E1. reflexivity.
  - intros y. rewrite Qc. apply W2.
  - intros y. cbn. unfold upd_z. destruct (Z.eqb_spec y x) as [->|]; [rewrite E1|]; auto.
  - intros y. unfold nw; cbn. unfold upd_z. destruct (Z.eqb_spec y x) as [->|]; auto; apply W4.
  - intros y. unfold upd_z. destruct (Z.eqb_spec y x) as [->|]; auto.
  - intros y. specialize (W6 y). unfold nw in *; cbn. unfold upd_z. destruct (Z.eqb_spec y x) as [->|]; [lia|auto].
  - intros y. unfold sched, nw; cbn. unfold upd_z. destruct (Z.eqb_spec y x) as [->|N]; [intros S X; destruct (HL S); [tauto|auto]|].
    intros S X. apply W7; [auto|]. intros Y. apply X. apply Hex; auto.
  - intros u Hu. cbn. eapply qok_ext; [apply W8; auto|]. intros y Hy. split; [apply Qc|]. split; [apply Qi|]. cbv beta.
    unfold nw in *; cbn. unfold upd_z. destruct (Z.eqb_spec y x) as [->|]; [lia|lia].
Qed.
Lemma not_has s u x : sinv s -> lvl u -> sched s x = false -> ~ has (sc_q s u) x.
Proof. intros (A & B & C) Hu S H. apply C in H as [H _]; auto. congruence. Qed.
Lemma winvg_free V (ex ex' : Z -> Prop) f x n v : winvg V ex f -> sched (f_s f) x = false -> n_sched n = false -> pri_valid (n_pri n) -> 0 <= n_cycle n < 2 ^ 64 ->
  0 <= n_nw n -> 0 <= v -> n_nw n + v <= V + 799 -> (forall y, y <> x -> ex y -> ex' y) -> winvg V ex' (mk_f (set_node (f_s f) x n) (upd_z (f_b f) x v)).
Proof.
  intros [W1 W2 W3 W4 W5 W6 W7 W8] S0 S1 [P1 P2] C H1 H2 H3 Hex.
  constructor; cbn [f_s f_b].
  - apply sinv_free; auto.
  - intros y. unfold cyc; cbn; unfold upd_z. destruct (Z.eqb_spec y x) as [->|]; [auto|apply W2].
  - intros y. cbn. unfold upd_z. destruct (Z.eqb_spec y x) as [->|]; auto.
  - intros y. unfold nw; cbn. unfold upd_z. destruct (Z.eqb_spec y x) as [->|]; auto; apply W4.
  - intros y. unfold upd_z. destruct (Z.eqb_spec y x) as [->|]; auto.
  - intros y. specialize (W6 y). unfold nw in *; cbn. unfold upd_z. destruct (Z.eqb_spec y x) as [->|]; [lia|auto].
  - intros y. unfold sched, nw; cbn. unfold upd_z. destruct (Z.eqb_spec y x) as [->|N]; [intros S; congruence|].
    intros S X. apply W7; [auto|]. intros Y. apply X. apply Hex; auto.
  - intros u Hu. cbn. eapply qok_ext; [apply W8; auto|]. intros y Hy.
    assert (y <> x) as N by (intros ->; eapply not_has; eauto).
    unfold cyc, inc, nw; cbn. unfold upd_z. destruct (Z.eqb_spec y x); [congruence|]. split; [auto|split; [auto|lia]].
Qed.
Lemma cap_hb V : capV V -> V + 1600 <= 800 * MAX_CYCLE_GAP. Proof. intros [_ H]; exact H. Qed.
Lemma w_d V ex f : winvg V ex f -> forall x, 0 <= nw (f_s f) x + f_b f x.
Proof. intros W x. pose proof (w_n _ _ _ W x). pose proof (w_b _ _ _ W x). lia. Qed.
Lemma winv_unschedule V (ex ex' : Z -> Prop) f x : capV V -> winvg V ex f -> (forall y, y <> x -> ex y -> ex' y) -> exists s', unschedule (f_s f) x = Ok s' /\ winvg V ex' (mk_f s' (f_b f)) /\
  sched s' x = false /\ sc_n s' x = nd_sched (sc_n (f_s f) x) false /\ (forall y, y <> x -> sc_n s' y = sc_n (f_s f) y).
Proof.
  intros HV W Hex. pose proof W as [W1 W2 W3 W4 W5 W6 W7 W8]. unfold unschedule. pose proof W1 as (A & B & C). fold (urg (f_s f) x).
  rewrite (proj2 (urg_ok_iff _) (A x)). cbn [negb]. fold (sched (f_s f) x). destruct (sched (f_s f) x) eqn:S; cbn [negb].
  2:{ exists (f_s f). split; [reflexivity|]. split.
      - constructor; auto. intros y Sy N. apply W7; auto. intros X. destruct (Z.eq_dec y x) as [->|Ny]; [cbn [f_s] in Sy; congruence|]. apply N, Hex; auto.
      - split; [auto|]. split; [|auto]. unfold sched in S. destruct (sc_n (f_s f) x) as [a b c d]; cbn in *; subst; reflexivity. }
  destruct (take_out_ok (f_s f) x W1 S) as (s' & T1 & T2 & T3 & T4 & T5 & T6). exists s'. split; [exact T1|].
  assert (forall y, cyc s' y = cyc (f_s f) y /\ inc s' y = inc (f_s f) y /\ nw s' y = nw (f_s f) y) as K.
  { intros y. unfold cyc, inc, nw. destruct (Z.eq_dec y x) as [->|N]; [rewrite T3; auto|rewrite T4; auto]. }
  split.
  - constructor; cbn [f_s f_b].
    + exact T2.
    + intros y. destruct (K y) as (-> & _). apply W2.
    + intros y. destruct (Z.eq_dec y x) as [->|N]; [rewrite T3; apply W3|rewrite T4; auto].
    + intros y. destruct (K y) as (_ & _ & ->). auto.
    + auto.
    + intros y. destruct (K y) as (_ & _ & ->). auto.
    + intros y Sy X. destruct (Z.eq_dec y x) as [->|N]; [unfold sched in Sy; rewrite T3 in Sy; discriminate Sy|].
      destruct (K y) as (_ & _ & ->). apply W7; [unfold sched in *; rewrite T4 in Sy; auto|intros Y; apply X, Hex; auto].
    + intros u Hu. apply (qok_ext _ (cyc (f_s f)) (inc (f_s f)) (fun x => nw (f_s f) x + f_b f x)).
      2:{ intros y _. destruct (K y) as (E1 & E2 & E3). split; [auto|split; [auto|]]. cbv beta. rewrite E3. lia. }
      destruct (Z.eq_dec u (urg (f_s f) x)) as [->|N]; [|rewrite T5 by auto; auto].
      eapply (qok_remove _ _ _ _ W2 (cap_hb V HV) (w_d V ex f W)); [apply B; auto|apply W8; auto| |exact T6]. apply C; auto.
  - split; [unfold sched; rewrite T3; reflexivity|]. auto.
Qed.
Lemma penalty_hi n : 0 <= n -> 800 * penalty n <= 800 + n.
Proof. intros. unfold penalty, MIN_WRITELEN. pose proof (Z.mul_div_le n 800 ltac:(lia)). lia. Qed.
Lemma penalty_big n : 800 <= n -> 800 * penalty n <= n.
Proof. intros. unfold penalty, MIN_WRITELEN. pose proof (Z.mul_div_le n 800 ltac:(lia)). pose proof (Z.div_le_mono 800 n 800 ltac:(lia) ltac:(lia)). change (800 / 800) with 1 in *. lia. Qed.
Lemma penalty_pos n : 1 <= penalty n. Proof. unfold penalty. lia. Qed.
Lemma penalty_lo n : 0 <= n -> n <= 1600 * penalty n.
Proof. intros. unfold penalty, MIN_WRITELEN. pose proof (Z.mod_pos_bound n 800 ltac:(lia)). pose proof (Z.div_mod n 800 ltac:(lia)). lia. Qed.

Lemma winv_sched_free V (ex ex' : Z -> Prop) f x : capV V -> winvg V ex f -> sched (f_s f) x = false -> (forall y, y <> x -> ex y -> ex' y) ->
  exists s', schedule (f_s f) x = Ok s' /\ winvg V ex' (mk_f s' (f_b f)) /\ sched s' x = true /\ nw s' x = 0 /\
    n_pri (sc_n s' x) = n_pri (sc_n (f_s f) x) /\ (forall y, y <> x -> sc_n s' y = sc_n (f_s f) y).
Proof.
  intros HV W S Hex. destruct (schedule_ok (f_s f) x (w_s _ _ _ W)) as (s' & Q1 & Q2 & Q3 & Q4 & Q5 & Q6 & Q7). exists s'. split; [exact Q1|].
  split; [|auto]. pose proof W as [W1 W2 W3 W4 W5 W6 W7 W8]. pose proof W1 as (A & B & C).
  unfold schedule, tnode_schedule in Q1. fold (urg (f_s f) x) in Q1. rewrite (proj2 (urg_ok_iff _) (A x)) in Q1. cbn [negb] in Q1. fold (sched (f_s f) x) in Q1. rewrite S in Q1. cbn [negb] in Q1.
  fold (inc (f_s f) x) (nw (f_s f) x) in Q1. destruct (first_cycle (f_s f) (urg (f_s f) x)) as [c| |] eqn:FC; try discriminate.
  set (dl := if (nw (f_s f) x =? 0) || negb (inc (f_s f) x) then 0 else penalty (nw (f_s f) x)) in *.
  assert (cyc s' x = u64 (c + dl)) as Cx by (injection Q1 as <-; unfold cyc, push; cbn; rewrite !upd_z_same; reflexivity).
  assert (forall y, y <> x -> cyc s' y = cyc (f_s f) y /\ inc s' y = inc (f_s f) y /\ nw s' y = nw (f_s f) y) as K by (intros y N; unfold cyc, inc, nw; rewrite Q6; auto).
  assert (inc s' x = inc (f_s f) x) as Ix by (unfold inc; rewrite Q5; reflexivity).
  assert (ranged (cyc s')) as R'. { intros y. destruct (Z.eq_dec y x) as [->|N]; [rewrite Cx; apply u64_range|destruct (K y N) as (-> & _); apply W2]. }
  assert (forall y, 0 <= nw s' y) as N'. { intros y. destruct (Z.eq_dec y x) as [->|N]; [unfold nw; rewrite Q4; lia|destruct (K y N) as (_ & _ & ->); auto]. }
  constructor; cbn [f_s f_b]; auto.
  - intros y. destruct (Z.eq_dec y x) as [->|N]; [rewrite Q5; auto|rewrite Q6; auto].
  - intros y. destruct (Z.eq_dec y x) as [->|N]; [|destruct (K y N) as (_ & _ & ->); auto]. unfold nw. rewrite Q4. specialize (W6 x). specialize (W4 x). lia.
  - intros y Sy X. destruct (Z.eq_dec y x) as [->|N]; [unfold nw; rewrite Q4; lia|]. destruct (K y N) as (_ & _ & ->). apply W7; [unfold sched in *; rewrite Q6 in Sy; auto|intros Y; apply X, Hex; auto].
  - intros u Hu. destruct (Z.eq_dec u (urg (f_s f) x)) as [->|Nu].
    2:{ rewrite Q7 by auto. eapply qok_ext; [apply W8; auto|]. intros y Hy. assert (y <> x) as N by (intros ->; eapply not_has; eauto).
        destruct (K y N) as (-> & -> & ->). split; [auto|split; [auto|lia]]. }
    set (p := sc_q (f_s f) (urg (f_s f) x)) in *.
    assert (~ has p x) as Nx by (apply not_has; auto).
    assert (exists cy3, sc_q s' (urg (f_s f) x) = pq_push (clt cy3) p x /\ forall y, cy3 y = cyc s' y) as (cy3 & -> & E3).
    { injection Q1 as <-. unfold push; cbn [sc_q set_node set_pq]. rewrite upd_z_same. match goal with |- context [pq_push (cycle_less ?z) _ _] => exists (cyc z) end. split; [reflexivity|].
      intros y. unfold cyc; cbn. unfold upd_z. destruct (Z.eqb_spec y x) as [->|N]; [rewrite ?Z.eqb_refl; reflexivity|]. reflexivity. }
    assert (exact p) as Ep by (apply B; auto).
    assert (qok (V + 1600) cy3 (inc s') (fun y => nw s' y + f_b f y) p) as Qp.
    { eapply qok_ext; [apply W8; auto|]. intros y Hy. assert (y <> x) as N by congruence. destruct (K y N) as (E1 & -> & ->). rewrite E3, E1. split; [auto|split; [auto|lia]]. }
    eapply qok_ext; [|intros y _; split; [symmetry; apply E3|split; [reflexivity|apply Z.le_refl]]].
    apply (qok_push _ cy3 (inc s') (fun y => nw s' y + f_b f y)) with (c := c) (dl := dl); auto.
    + intros y. rewrite E3. apply R'.
    + apply cap_hb; auto.
    + intros y. specialize (N' y). specialize (W5 y). lia.
    + unfold first_cycle, pq_empty in FC. fold p in FC. destruct (Nat.eqb_spec (pq_len p) 0) as [|L]; [exact I|].
      destruct (top_weak p L) as (t & T & Ht). rewrite T in FC. injection FC as <-. exists t. split; [auto|]. rewrite E3. assert (t <> x) as N by congruence. destruct (K t N) as (-> & _). reflexivity.
    + unfold dl. destruct (_ || _); [lia|]. pose proof (penalty_pos (nw (f_s f) x)). lia.
    + rewrite E3. exact Cx.
    + rewrite Ix. intros I0. unfold dl. rewrite I0, orb_true_r. reflexivity.
    + unfold nw at 1. rewrite Q4. specialize (W6 x). specialize (W4 x). unfold dl. destruct (_ || _); [lia|]. pose proof (penalty_hi (nw (f_s f) x) W4). lia.
Qed.
(* a member that is charged; [v]: what may still be reported as written *)
Lemma winv_sched_in V (ex ex' : Z -> Prop) f x v : capV V -> winvg V ex f -> sched (f_s f) x = true -> (forall y, y <> x -> ex y -> ex' y) ->
  0 <= v <= f_b f x -> (0 < nw (f_s f) x -> 800 * penalty (nw (f_s f) x) + v <= nw (f_s f) x + f_b f x) ->
  exists s', schedule (f_s f) x = Ok s' /\ winvg V ex' (mk_f s' (upd_z (f_b f) x v)) /\ sched s' x = true /\ nw s' x = 0 /\
    n_pri (sc_n s' x) = n_pri (sc_n (f_s f) x) /\ (forall y, y <> x -> sc_n s' y = sc_n (f_s f) y) /\
    cyc s' x = (if (0 <? nw (f_s f) x) && inc (f_s f) x && negb (Nat.eqb (pq_size (sc_q (f_s f) (urg (f_s f) x))) 1) then u64 (cyc (f_s f) x + penalty (nw (f_s f) x)) else cyc (f_s f) x).
Proof.
  intros HV W S Hex Hv Hp. destruct (schedule_ok (f_s f) x (w_s _ _ _ W)) as (s' & Q1 & Q2 & Q3 & Q4 & Q5 & Q6 & Q7). exists s'. split; [exact Q1|].
  pose proof W as [W1 W2 W3 W4 W5 W6 W7 W8]. pose proof W1 as (A & B & C).
  unfold schedule, tnode_schedule in Q1. fold (urg (f_s f) x) in Q1. rewrite (proj2 (urg_ok_iff _) (A x)) in Q1. cbn [negb] in Q1. fold (sched (f_s f) x) in Q1. rewrite S in Q1. cbn [negb] in Q1.
  fold (inc (f_s f) x) (nw (f_s f) x) in Q1.
  assert (forall n, n_pri n = n_pri (sc_n (f_s f) x) -> n_cycle n = cyc (f_s f) x -> n_sched n = true -> n_nw n = 0 -> winvg V ex' (mk_f (set_node (f_s f) x n) (upd_z (f_b f) x v))) as Same.
  { intros n E1 E2 E3 E4. apply (winvg_adj V ex); auto; try congruence; try lia. specialize (W4 x). lia. }
  destruct (Z.ltb_spec 0 (nw (f_s f) x)) as [Hn|Hn]; cbn [andb].
  2:{ injection Q1 as <-. split; [apply Same; auto|]. split; [auto|split; [auto|split; [auto|split; [auto|]]]]. unfold cyc; cbn; rewrite upd_z_same; reflexivity. }
  rewrite <- negb_andb, negb_involutive in Q1 || idtac.
  destruct (negb (inc (f_s f) x) || Nat.eqb (pq_size (sc_q (f_s f) (urg (f_s f) x))) 1) eqn:Dec.
  { injection Q1 as <-. split; [apply Same; auto|]. split; [auto|split; [auto|split; [auto|split; [auto|]]]]. unfold cyc; cbn; rewrite upd_z_same. destruct (inc (f_s f) x), (Nat.eqb _ 1); cbn in *; try discriminate; reflexivity. }
  apply orb_false_iff in Dec as [I1 I2]. apply negb_false_iff in I1. rewrite I1, I2. cbn [andb negb].
  destruct (take_out_ok (f_s f) x W1 S) as (s1 & T1 & T2 & T3 & T4 & T5 & T6). rewrite T1 in Q1.
  set (dl := penalty (nw (f_s f) x)) in *.
  assert (cyc s' x = u64 (cyc (f_s f) x + dl)) as Cx by (injection Q1 as <-; unfold cyc, push; cbn; rewrite !upd_z_same; reflexivity).
  assert (forall y, y <> x -> cyc s' y = cyc (f_s f) y /\ inc s' y = inc (f_s f) y /\ nw s' y = nw (f_s f) y) as K by (intros y N; unfold cyc, inc, nw; rewrite Q6; auto).
  assert (inc s' x = inc (f_s f) x) as Ix by (unfold inc; rewrite Q5; reflexivity).
  assert (ranged (cyc s')) as R'. { intros y. destruct (Z.eq_dec y x) as [->|N]; [rewrite Cx; apply u64_range|destruct (K y N) as (-> & _); apply W2]. }
  assert (forall y, 0 <= nw s' y) as N'. { intros y. destruct (Z.eq_dec y x) as [->|N]; [unfold nw; rewrite Q4; lia|destruct (K y N) as (_ & _ & ->); auto]. }
  assert (forall y, 0 <= upd_z (f_b f) x v y) as B'. { intros y. unfold upd_z. destruct (Z.eqb_spec y x); [lia|auto]. }
  split; [|auto]. constructor; cbn [f_s f_b]; auto.
  - intros y. destruct (Z.eq_dec y x) as [->|N]; [rewrite Q5; auto|rewrite Q6; auto].
  - intros y. destruct (Z.eq_dec y x) as [->|N]; [|destruct (K y N) as (_ & _ & ->); rewrite upd_z_other; auto]. unfold nw. rewrite Q4, upd_z_same. specialize (W6 x). specialize (W4 x). lia.
  - intros y Sy X. destruct (Z.eq_dec y x) as [->|N]; [unfold nw; rewrite Q4; lia|]. destruct (K y N) as (_ & _ & ->). apply W7; [unfold sched in *; rewrite Q6 in Sy; auto|intros Y; apply X, Hex; auto].
  - intros u Hu. destruct (Z.eq_dec u (urg (f_s f) x)) as [->|Nu].
    2:{ rewrite Q7 by auto. eapply qok_ext; [apply W8; auto|]. intros y Hy. assert (y <> x) as N by (intros ->; apply C in Hy as [_ Hy]; auto).
        destruct (K y N) as (-> & -> & ->). rewrite upd_z_other by auto. split; [auto|split; [auto|lia]]. }
    set (p := sc_q (f_s f) (urg (f_s f) x)) in *.
    assert (has p x) as Hx by (apply C; auto).
    assert (exists cy3, sc_q s' (urg (f_s f) x) = pq_push (clt cy3) (sc_q s1 (urg (f_s f) x)) x /\ forall y, cy3 y = cyc s' y) as (cy3 & -> & E3).
    { injection Q1 as <-. unfold push; cbn [sc_q set_node set_pq]. rewrite upd_z_same. match goal with |- context [pq_push (cycle_less ?z) _ _] => exists (cyc z) end. split; [reflexivity|].
      intros y. unfold cyc; cbn. unfold upd_z. destruct (Z.eqb_spec y x) as [->|N]; [rewrite ?Z.eqb_refl; reflexivity|]. reflexivity. }
    eapply qok_ext with (cyc := cy3) (inc := inc (f_s f)) (d := fun y => nw s' y + upd_z (f_b f) x v y).
    2:{ intros y _. split; [symmetry; apply E3|]. split; [|apply Z.le_refl]. destruct (Z.eq_dec y x) as [->|N]; [auto|apply K; auto]. }
    apply (qok_bump _ (cyc (f_s f)) (inc (f_s f)) (fun y => nw (f_s f) y + f_b f y) p x _ cy3 _ dl); auto.
    + intros y. rewrite E3. apply R'.
    + apply cap_hb; auto.
    + apply (w_d V ex f W).
    + intros y. specialize (N' y). specialize (B' y). cbv beta. lia.
    + apply B; auto.
    + apply W8; auto.
    + unfold dl. pose proof (penalty_pos (nw (f_s f) x)). lia.
    + intros y N. rewrite E3. destruct (K y N) as (-> & _ & ->). rewrite upd_z_other by auto. split; [auto|lia].
    + rewrite E3. exact Cx.
    + cbv beta. assert (nw s' x = 0) as Z0 by exact Q4. rewrite Z0, upd_z_same. specialize (Hp Hn). lia.
Qed.
Lemma winvg_weaken V (ex ex' : Z -> Prop) f : winvg V ex f -> (forall x, ex x -> ex' x) -> winvg V ex' f.
Proof. intros [W1 W2 W3 W4 W5 W6 W7 W8] H. constructor; auto. Qed.
Lemma fx (f : fst_t) : mk_f (f_s f) (f_b f) = f. Proof. destruct f; reflexivity. Qed.
Lemma winv_b_ext V ex s b b' : (forall x, b x = b' x) -> winvg V ex (mk_f s b) -> winvg V ex (mk_f s b').
Proof.
  intros E [W1 W2 W3 W4 W5 W6 W7 W8]. constructor; cbn [f_s f_b] in *; auto; try (intros x; rewrite <- E; auto).
  intros u Hu. eapply qok_ext; [apply W8; auto|]. intros x _. cbv beta. rewrite E. split; [auto|split; [auto|lia]].
Qed.
Lemma node_eta n : mk_node (n_pri n) (n_cycle n) (n_sched n) (n_nw n) = n. Proof. destruct n; reflexivity. Qed.
Lemma winv_b V ex f x v : winvg V ex f -> 0 <= v <= f_b f x -> winvg V ex (set_b f x v).
Proof.
  intros [W1 W2 W3 W4 W5 W6 W7 W8] Hv. unfold set_b. constructor; cbn [f_s f_b]; auto.
  - intros y. unfold upd_z. destruct (Z.eqb_spec y x); [lia|auto].
  - intros y. specialize (W6 y). unfold upd_z. destruct (Z.eqb_spec y x) as [->|]; [lia|auto].
  - intros u Hu. eapply qok_ext; [apply W8; auto|]. intros y _. split; [auto|split; [auto|]]. cbv beta. unfold upd_z. destruct (Z.eqb_spec y x) as [->|]; lia.
Qed.
(* the stream chosen may be given a new allowance *)
Lemma winv_offer V f x v : capV V -> winv V f -> get_next_tx (f_s f) = Ok (Some x) -> 0 <= v <= V -> winv V (set_b f x v).
Proof.
  intros HV W HG Hv. pose proof W as [W1 W2 W3 W4 W5 W6 W7 W8]. pose proof W1 as (A & B & C). 
  assert (sched (f_s f) x = true) as S. { pose proof (get_next_ok _ W1) as G. rewrite HG in G. apply G. }
  assert (pq_top (sc_q (f_s f) (urg (f_s f) x)) = Ok x) as Top.
  { clear - HG A B C. unfold get_next_tx in HG. assert (forall f0 u, 0 <= u -> u + Z.of_nat f0 <= 8 -> next_tx f0 (f_s f) u = Ok (Some x) -> pq_top (sc_q (f_s f) (urg (f_s f) x)) = Ok x) as K.
    { induction f0 as [|f0 IH]; intros u H1 H2 H; cbn [next_tx] in H; [discriminate|]. unfold pq_empty in H. destruct (Nat.eqb_spec (pq_len (sc_q (f_s f) u)) 0) as [L|L]; [apply (IH (u + 1)); auto; lia|].
      destruct (top_weak (sc_q (f_s f) u) L) as (t & T & Ht). rewrite T in H. injection H as <-. apply C in Ht as [_ Hu]; [|unfold lvl; lia]. rewrite Hu. exact T. }
    apply (K URGENCY_LEVELS 0); [lia|cbn; lia|exact HG]. }
  unfold set_b. constructor; cbn [f_s f_b]; auto.
  - intros y. unfold upd_z. destruct (Z.eqb_spec y x); [lia|auto].
  - intros y. specialize (W6 y). unfold upd_z. destruct (Z.eqb_spec y x) as [->|]; [|auto]. specialize (W7 x S ltac:(tauto)). lia.
  - intros u Hu. assert (qok (V + 1600) (cyc (f_s f)) (inc (f_s f)) (fun y => nw (f_s f) y + f_b f y) (sc_q (f_s f) u)) as Q by auto.
    destruct (Z.eq_dec u (urg (f_s f) x)) as [->|Nu].
    + assert (has (sc_q (f_s f) (urg (f_s f) x)) x) as Hx by (apply C; auto).
      destruct (qok_top _ _ _ _ W2 (cap_hb V HV) (w_d _ _ f W) _ (B _ Hu) Q) as (t & b & T1 & T2 & Hb & T3 & T4); [exact (len_has _ _ Hx)|].
      rewrite Top in T1. injection T1 as <-. destruct Q as (b0 & _ & H1 & _).
      exists b. split; [auto|]. split; [auto|]. split; [|split].
      * intros y Hy. unfold upd_z. destruct (Z.eqb_spec y x) as [->|N]; [rewrite T3; specialize (W7 x S ltac:(tauto)); lia|]. apply T4; auto.
      * intros y Hy. apply T4; auto.
      * intros _. exists x. auto.
    + eapply qok_ext; [exact Q|]. intros y Hy. split; [auto|split; [auto|]]. cbv beta. rewrite upd_z_other; [lia|]. intros ->. apply C in Hy as [_ Hy]; auto.
Qed.

Theorem fstep_ok V f o : capV V -> winv V f -> lawful V f o -> exists f', fstep f o = Ok f' /\ winv V f'.
Proof.
  intros HV W L. pose proof W as [W1 W2 W3 W4 W5 W6 W7 W8]. destruct o as [x p|x r|x r|x v r|x n r|x|x p r|x]; cbn [fstep lawful] in *.
  - destruct L as [L1 L2]. eexists; split; [reflexivity|]. apply (winvg_free V (fun _ => False)); auto; cbn; try lia; destruct HV; try lia; auto.
  - unfold sc_submit. assert (0 <= sub_cost f x) as SC by (unfold sub_cost; destruct (_ && _); lia).
    assert (0 <= f_b f x - sub_cost f x <= f_b f x) as Hv by lia.
    destruct r; [|eexists; split; [reflexivity|]; cbn [f_b]; apply winv_b; auto].
    destruct (sched (f_s f) x) eqn:S.
    + destruct (winv_sched_in V (fun _ => False) (fun _ => False) f x (f_b f x - sub_cost f x) HV W S ltac:(tauto) Hv) as (s' & Q1 & Q2 & _).
      { intros Hn. unfold sub_cost. fold (sched (f_s f) x) (nw (f_s f) x). rewrite S. destruct (Z.ltb_spec 0 (nw (f_s f) x)); cbn [andb]; [|lia]. pose proof (penalty_hi _ (W4 x)). lia. }
      cbn [f_s]. rewrite Q1. eexists; split; [reflexivity|]. exact Q2.
    + assert (sub_cost f x = 0) as E0 by (unfold sub_cost; fold (sched (f_s f) x); rewrite S; reflexivity).
      destruct (winv_sched_free V (fun _ => False) (fun _ => False) (set_b f x (f_b f x - sub_cost f x)) x HV ltac:(apply winv_b; auto) S ltac:(tauto)) as (s' & Q1 & Q2 & _).
      cbn [f_s set_b] in Q1. rewrite Q1. eexists; split; [reflexivity|]. exact Q2.
  - unfold sc_wake, ensure_scheduled. destruct r; [|eexists; split; [reflexivity|]; rewrite fx; auto]. fold (sched (f_s f) x). destruct (sched (f_s f) x) eqn:S; [eexists; split; [reflexivity|]; rewrite fx; auto|].
    destruct (winv_sched_free V (fun _ => False) (fun _ => False) f x HV W S ltac:(tauto)) as (s' & Q1 & Q2 & _). rewrite Q1. eexists; split; [reflexivity|]. exact Q2.
  - destruct L as [L1 L2]. pose proof (winv_offer V f x v HV W L1 L2) as W'. unfold sc_offered. destruct r; [eexists; split; [reflexivity|]; exact W'|].
    destruct (winv_unschedule V (fun _ => False) (fun _ => False) _ x HV W' ltac:(tauto)) as (s' & Q1 & Q2 & _). cbn [f_s set_b] in Q1. rewrite Q1. eexists; split; [reflexivity|]. exact Q2.
  - unfold sc_written. set (s1 := set_node _ _ _). 
    assert (winvg V (fun y => y = x) (mk_f s1 (upd_z (f_b f) x (f_b f x - n)))) as W'.
    { apply (winvg_adj V (fun _ => False)); cbn [n_pri n_cycle n_sched n_nw nd_nw]; auto; try (fold (nw (f_s f) x)); specialize (W4 x); unfold nw in *; try lia; try tauto. }
    destruct r; cbn [negb].
    2:{ destruct (winv_unschedule V (fun y => y = x) (fun _ => False) _ x HV W' ltac:(cbn; tauto)) as (s' & Q1 & Q2 & _). cbn [f_s] in Q1. rewrite Q1. eexists; split; [reflexivity|]. exact Q2. }
    assert (n_nw (sc_n s1 x) = nw (f_s f) x + n) as En by (unfold s1; cbn; rewrite upd_z_same; reflexivity).
    destruct (Z.ltb_spec (n_nw (sc_n s1 x)) MIN_WRITELEN) as [Lt|Ge].
    + eexists; split; [reflexivity|]. cbn [f_b set_b]. destruct W' as [X1 X2 X3 X4 X5 X6 X7 X8]. constructor; auto.
      intros y Sy _. destruct (Z.eq_dec y x) as [->|N]; [exact Lt|apply X7; auto].
    + destruct (sched s1 x) eqn:S.
      * destruct (winv_sched_in V (fun y => y = x) (fun _ => False) _ x (f_b f x - n) HV W' S ltac:(cbn; tauto)) as (s' & Q1 & Q2 & _).
        { cbn [f_b]. rewrite upd_z_same. lia. }
        { intros _. cbn [f_b f_s]. rewrite upd_z_same. fold (nw s1 x) in En, Ge. rewrite En in *. unfold MIN_WRITELEN in Ge. pose proof (penalty_big (nw (f_s f) x + n) Ge). lia. }
        cbn [f_s] in Q1. rewrite Q1. eexists; split; [reflexivity|]. cbn [f_b] in *. eapply winv_b_ext; [|exact Q2]. intros y. cbn. unfold upd_z. destruct (Z.eqb y x); reflexivity.
      * destruct (winv_sched_free V (fun y => y = x) (fun _ => False) _ x HV W' S ltac:(cbn; tauto)) as (s' & Q1 & Q2 & _).
        cbn [f_s] in Q1. rewrite Q1. eexists; split; [reflexivity|]. exact Q2.
  - unfold sc_block. set (s1 := set_node _ _ _).
    assert (winvg V (fun _ => False) (mk_f s1 (f_b f))) as W'.
    { eapply winv_b_ext; [|apply (winvg_adj V (fun _ => False) (fun _ => False) f x (nd_nw (sc_n (f_s f) x) 0) (f_b f x))]; cbn [n_pri n_cycle n_sched n_nw nd_nw]; auto; try lia.
      - intros y. unfold upd_z. destruct (Z.eqb_spec y x) as [->|]; reflexivity. }
    destruct (winv_unschedule V (fun _ => False) (fun _ => False) _ x HV W' ltac:(tauto)) as (s' & Q1 & Q2 & _). cbn [f_s] in Q1. rewrite Q1. eexists; split; [reflexivity|]. exact Q2.
  - unfold sc_priority. destruct (pri_eq _ p); [eexists; split; [reflexivity|]; rewrite fx; exact W|].
    destruct (winv_unschedule V (fun _ => False) (fun _ => False) f x HV W ltac:(tauto)) as (s1 & Q1 & Q2 & Q3 & Q4 & Q5). rewrite Q1.
    set (s2 := set_node _ _ _). destruct L as [L1 L2].
    assert (winvg V (fun _ => False) (mk_f s2 (f_b f))) as W'.
    { eapply winv_b_ext; [|apply (winvg_free V (fun _ => False) (fun _ => False) (mk_f s1 (f_b f)) x (nd_pri (sc_n s1 x) p) (f_b f x))]; cbn [f_s f_b n_pri n_cycle n_sched n_nw nd_pri]; auto.
      - intros y. unfold upd_z. destruct (Z.eqb_spec y x) as [->|]; reflexivity.
      - split; auto.
      - apply (w_r _ _ _ Q2).
      - apply (w_n _ _ _ Q2).
      - apply (w_c _ _ _ Q2). }
    destruct r; [|eexists; split; [reflexivity|]; exact W'].
    destruct (winv_sched_free V (fun _ => False) (fun _ => False) _ x HV W') as (s' & R1 & R2 & _); [unfold sched; cbn; rewrite upd_z_same; exact Q3|tauto|]. cbn [f_s] in R1. rewrite R1. eexists; split; [reflexivity|]. exact R2.
  - destruct (winv_unschedule V (fun _ => False) (fun _ => False) f x HV W ltac:(tauto)) as (s' & Q1 & Q2 & _). unfold sc_close. rewrite Q1. eexists; split; [reflexivity|]. exact Q2.
Qed.
