(* Runs of the scheduler: sharing among incremental streams, order among the others *)
From Verif Require Import Base BaseLemmas HttpModel PqModel PqProofs PqWeak SchedModel SchedProofs SchedWindow SchedFair.
Open Scope Z_scope.

(* [run_in V P f ops f']: ops is lawful from f and leads to f', and P holds in every state on the way *)
Inductive run_in (V : Z) (P : fst_t -> Prop) : fst_t -> list sop -> fst_t -> Prop :=
| ri_nil f : P f -> run_in V P f [] f
| ri_cons f o f1 ops f' : P f -> lawful V f o -> fstep f o = Ok f1 -> run_in V P f1 ops f' -> run_in V P f (o :: ops) f'.
(* reached from the start *)
Definition reached (V : Z) (f : fst_t) : Prop := exists ops, run_in V (fun _ => True) f_init ops f.
(* bytes of stream x written, and submissions made for it *)
Fixpoint served (x : Z) (ops : list sop) : Z :=
  match ops with [] => 0 | SWritten y n _ :: r => (if y =? x then n else 0) + served x r | _ :: r => served x r end.
Fixpoint submits (x : Z) (ops : list sop) : Z :=
  match ops with [] => 0 | SSubmit y _ :: r => (if y =? x then 1 else 0) + submits x r | _ :: r => submits x r end.
(* x is waiting to send, incrementally, with urgency u *)
Definition waiting (u x : Z) (f : fst_t) : Prop := sched (f_s f) x = true /\ inc (f_s f) x = true /\ urg (f_s f) x = u.

Lemma run_winv V P f ops f' : capV V -> winv V f -> run_in V P f ops f' -> winv V f'.
Proof.
  intros HV W H. induction H as [f Hp|f o f1 ops f' Hp HL HS HR IH]; auto. destruct (fstep_ok V f o HV W HL) as (f2 & Q1 & Q2).
  rewrite HS in Q1. injection Q1 as <-. auto.
Qed.
Theorem reached_winv V f : capV V -> reached V f -> winv V f.
Proof. intros HV (ops & H). eapply run_winv; eauto. apply winv_init. apply HV. Qed.

Definition wr (o : sop) (x : Z) : Z := match o with SWritten y n _ => if y =? x then n else 0 | _ => 0 end.
Definition sb (o : sop) (x : Z) : Z := match o with SSubmit y _ => if y =? x then 1 else 0 | _ => 0 end.
Lemma served_cons x o r : served x (o :: r) = wr o x + served x r. Proof. destruct o; reflexivity. Qed.
Lemma submits_cons x o r : submits x (o :: r) = sb o x + submits x r. Proof. destruct o; reflexivity. Qed.
Lemma size_two p i j : exact p -> has p i -> has p j -> i <> j -> Nat.eqb (pq_size p) 1 = false.
Proof.
  intros E (a & Ha & Qa) (b & Hb & Qb) N. apply Nat.eqb_neq. unfold pq_size. intros L. assert (a = b) by lia. congruence.
Qed.
Lemma u64_idem c : 0 <= c < 2 ^ 64 -> c = u64 (c + 0). Proof. intros. rewrite Z.add_0_r, u64_small; auto. Qed.
(* what one step does to a waiting stream *)
Lemma step_view V f o f' u x y : capV V -> winv V f -> lawful V f o -> fstep f o = Ok f' -> waiting u x f -> waiting u x f' -> waiting u y f -> y <> x ->
  exists a t, cyc (f_s f') x = u64 (cyc (f_s f) x + a) /\ nw (f_s f') x = nw (f_s f) x + wr o x - t /\ 0 <= a /\ 0 <= t /\ 800 * a <= t + 800 * sb o x /\ t <= 1600 * a.
Proof.
  intros HV W L Hs (S1 & I1 & U1) (S2 & I2 & U2) (S3 & I3 & U3) Nyx. pose proof W as [W1 W2 W3 W4 W5 W6 W7 W8]. pose proof W1 as (A & B & C).
  assert (0 <= sb o x) as Sb by (destruct o; cbn; try lia; destruct (_ =? _); lia).
  assert (sc_n (f_s f') x = sc_n (f_s f) x -> wr o x = 0 -> exists a t, cyc (f_s f') x = u64 (cyc (f_s f) x + a) /\ nw (f_s f') x = nw (f_s f) x + wr o x - t /\ 0 <= a /\ 0 <= t /\ 800 * a <= t + 800 * sb o x /\ t <= 1600 * a) as Triv.
  { intros E Z0. exists 0, 0. unfold cyc, nw. rewrite E, Z0. split; [apply u64_idem, W2|]. lia. }
  assert (Nat.eqb (pq_size (sc_q (f_s f) (urg (f_s f) x))) 1 = false) as Two.
  { apply (size_two _ x y); [apply B, A|apply C; auto|apply C; auto; split; [auto|congruence]|auto]. }
  destruct o as [z p|z r|z r|z v r|z n r|z|z p r|z]; cbn [fstep lawful] in *.
  - injection Hs as <-. destruct (Z.eq_dec z x) as [->|N]; [destruct L as [L _]; fold (sched (f_s f) x) in L; congruence|]. apply Triv; [cbn; rewrite upd_z_other by auto; reflexivity|reflexivity].
  - unfold sc_submit in Hs. destruct r; [|injection Hs as <-; apply Triv; reflexivity]. 
    destruct (Z.eq_dec z x) as [->|N].
    + assert (0 <= sub_cost f x) as SC by (unfold sub_cost; destruct (_ && _); lia).
      destruct (winv_sched_in V (fun _ => False) (fun _ => False) f x (f_b f x - sub_cost f x) HV W S1 ltac:(tauto)) as (s' & Q1 & Q2 & Q3 & Q4 & Q5 & Q6 & Q7); [lia| |].
      { intros Hn. unfold sub_cost. fold (sched (f_s f) x) (nw (f_s f) x). rewrite S1. destruct (Z.ltb_spec 0 (nw (f_s f) x)); cbn [andb]; [|lia]. pose proof (penalty_hi _ (W4 x)). lia. }
      rewrite Q1 in Hs. injection Hs as <-. cbn [f_s]. rewrite Q7, I1, Two, Q4. cbn [andb negb wr sb] in *. rewrite Z.eqb_refl in *. specialize (W4 x).
      destruct (Z.ltb_spec 0 (nw (f_s f) x)) as [Hn|Hn]; cbn [andb].
      * exists (penalty (nw (f_s f) x)), (nw (f_s f) x). pose proof (penalty_pos (nw (f_s f) x)). pose proof (penalty_hi _ W4). pose proof (penalty_lo _ W4). split; [auto|]. lia.
      * exists 0, 0. split; [apply u64_idem, W2|]. lia.
    + destruct (schedule_ok (f_s f) z W1) as (s' & Q1 & _ & _ & _ & _ & Q6 & _). rewrite Q1 in Hs. injection Hs as <-. apply Triv; [cbn; auto|reflexivity].
  - unfold sc_wake, ensure_scheduled in Hs. destruct r; [|injection Hs as <-; apply Triv; reflexivity]. destruct (n_sched (sc_n (f_s f) z)) eqn:E; [injection Hs as <-; apply Triv; reflexivity|].
    destruct (Z.eq_dec z x) as [->|N]; [unfold sched in S1; congruence|].
    destruct (schedule_ok (f_s f) z W1) as (s' & Q1 & _ & _ & _ & _ & Q6 & _). rewrite Q1 in Hs. injection Hs as <-. apply Triv; [cbn; auto|reflexivity].
  - unfold sc_offered in Hs. destruct r; [injection Hs as <-; apply Triv; reflexivity|].
    destruct (unschedule_ok (f_s f) z W1) as (s' & Q1 & _ & Q3 & _ & Q5 & _). rewrite Q1 in Hs. injection Hs as <-. destruct (Z.eq_dec z x) as [->|N]; [cbn [f_s] in *; congruence|]. apply Triv; [cbn; auto|reflexivity].
  - unfold sc_written in Hs. set (s1 := set_node _ _ _) in Hs.
    assert (winvg V (fun y => y = z) (mk_f s1 (upd_z (f_b f) z (f_b f z - n)))) as W'.
    { apply (winvg_adj V (fun _ => False)); cbn [n_pri n_cycle n_sched n_nw nd_nw]; auto; try (fold (nw (f_s f) z)); specialize (W4 z); unfold nw in *; try lia; try tauto. }
    pose proof (w_s _ _ _ W') as I1'. cbn [f_s] in I1'.
    destruct r; cbn [negb] in Hs.
    2:{ destruct (unschedule_ok s1 z I1') as (s' & Q1 & _ & Q3 & _ & Q5 & _). rewrite Q1 in Hs. injection Hs as <-. destruct (Z.eq_dec z x) as [->|N]; [cbn [f_s] in *; congruence|]. 
        apply Triv; [cbn; rewrite Q5 by auto; unfold s1; cbn; rewrite upd_z_other by auto; reflexivity|cbn; destruct (Z.eqb_spec z x); congruence]. }
    assert (n_nw (sc_n s1 z) = nw (f_s f) z + n) as En by (unfold s1; cbn; rewrite upd_z_same; reflexivity).
    destruct (Z.eq_dec z x) as [->|N].
    2:{ apply Triv; [|cbn; destruct (Z.eqb_spec z x); congruence]. 
        assert (sc_n s1 x = sc_n (f_s f) x) as E1 by (unfold s1; cbn; rewrite upd_z_other by auto; reflexivity).
        destruct (_ <? _); [injection Hs as <-; cbn; exact E1|]. destruct (schedule_ok s1 z I1') as (s' & Q1 & _ & _ & _ & _ & Q6 & _). rewrite Q1 in Hs. injection Hs as <-. cbn. rewrite Q6 by auto. exact E1. }
    cbn [wr sb] in *. rewrite Z.eqb_refl in *.
    assert (cyc s1 x = cyc (f_s f) x /\ inc s1 x = inc (f_s f) x /\ sched s1 x = true /\ urg s1 x = urg (f_s f) x) as (E1 & E2 & E3 & E4).
    { unfold cyc, inc, sched, urg, s1; cbn; rewrite upd_z_same; cbn. auto. }
    destruct (Z.ltb_spec (n_nw (sc_n s1 x)) MIN_WRITELEN) as [Lt|Ge].
    + injection Hs as <-. cbn [f_s]. fold (nw s1 x) in En. rewrite E1, En. exists 0, 0. split; [apply u64_idem, W2|]. lia.
    + unfold MIN_WRITELEN in Ge. rewrite En in Ge.
      destruct (winv_sched_in V (fun y => y = x) (fun _ => False) _ x (f_b f x - n) HV W' E3 ltac:(cbn; tauto)) as (s' & Q1 & Q2 & Q3 & Q4 & Q5 & Q6 & Q7).
      { cbn [f_b]. rewrite upd_z_same. lia. }
      { intros _. cbn [f_b f_s]. rewrite upd_z_same. fold (nw s1 x) in En. rewrite En. pose proof (penalty_big (nw (f_s f) x + n) Ge). lia. }
      cbn [f_s] in *. rewrite Q1 in Hs. injection Hs as <-. cbn [f_s]. fold (nw s1 x) in En. rewrite Q7, E1, E2, I1, E4, Q4. change (sc_q s1) with (sc_q (f_s f)). rewrite Two, En. cbn [andb negb].
      destruct (Z.ltb_spec 0 (nw (f_s f) x + n)); [|lia]. cbn [andb]. exists (penalty (nw (f_s f) x + n)), (nw (f_s f) x + n).
      pose proof (penalty_pos (nw (f_s f) x + n)). pose proof (penalty_big _ Ge). pose proof (penalty_lo (nw (f_s f) x + n) ltac:(lia)). split; [auto|]. lia.
  - unfold sc_block in Hs. set (s1 := set_node _ _ _) in Hs. assert (sinv s1) as I1' by (apply sinv_node; auto).
    destruct (unschedule_ok s1 z I1') as (s' & Q1 & _ & Q3 & _ & Q5 & _). rewrite Q1 in Hs. injection Hs as <-. destruct (Z.eq_dec z x) as [->|N]; [cbn [f_s] in *; congruence|].
    apply Triv; [cbn; rewrite Q5 by auto; unfold s1; cbn; rewrite upd_z_other by auto; reflexivity|reflexivity].
  - unfold sc_priority in Hs. destruct (pri_eq (n_pri (sc_n (f_s f) z)) p) eqn:PE; [injection Hs as <-; apply Triv; reflexivity|].
    destruct (unschedule_ok (f_s f) z W1) as (s1 & Q1 & Qi & Q3 & Q4 & Q5 & _). rewrite Q1 in Hs. set (s2 := set_node _ _ _) in Hs.
    assert (sinv s2) as Ii by (apply sinv_free; auto; apply L).
    destruct (Z.eq_dec z x) as [->|N].
    + exfalso. assert (n_pri (sc_n (f_s f') x) = p) as Ep.
      { assert (n_pri (sc_n s2 x) = p) as E2 by (unfold s2; cbn; rewrite upd_z_same; reflexivity). destruct r; [|injection Hs as <-; exact E2].
        destruct (schedule_ok s2 x Ii) as (s' & R1 & _ & _ & _ & R5 & _). rewrite R1 in Hs. injection Hs as <-. cbn. congruence. }
      unfold pri_eq in PE. unfold urg in U1, U2. unfold inc in I1, I2. rewrite Ep in *. rewrite U1, U2, Z.eqb_refl in PE. destruct L as [_ L]. specialize (W3 x). cbn [andb] in PE.
      destruct W3 as [X|X]; rewrite X in *; destruct L as [Y|Y]; rewrite Y in *; discriminate.
    + apply Triv; [|reflexivity]. assert (sc_n s2 x = sc_n (f_s f) x) as E2 by (unfold s2; cbn; rewrite upd_z_other by auto; apply Q5; auto).
      destruct r; [|injection Hs as <-; exact E2]. destruct (schedule_ok s2 z Ii) as (s' & R1 & _ & _ & _ & _ & R6 & _). rewrite R1 in Hs. injection Hs as <-. cbn. rewrite R6 by auto. exact E2.
  - unfold sc_close in Hs. destruct (unschedule_ok (f_s f) z W1) as (s' & Q1 & _ & Q3 & _ & Q5 & _). rewrite Q1 in Hs. injection Hs as <-. destruct (Z.eq_dec z x) as [->|N]; [cbn [f_s] in *; congruence|]. apply Triv; [cbn; auto|reflexivity].
Qed.
Lemma lead_range c i j : ranged c -> - 2 ^ 64 < lead c i j < 2 ^ 64.
Proof. intros R. unfold lead. pose proof (u64_range (c i - c j)). rewrite gap_val in *. destruct (Z.leb_spec (u64 (c i - c j)) 16777216); lia. Qed.
Lemma lead_mod c i j : exists k, lead c i j = c i - c j + k * 2 ^ 64.
Proof.
  unfold lead. assert (exists k, u64 (c i - c j) = c i - c j + k * 2 ^ 64) as (k & E).
  { unfold u64. exists (- ((c i - c j) / 2 ^ 64)). pose proof (Z.div_mod (c i - c j) (2 ^ 64) ltac:(discriminate)). lia. }
  rewrite E. destruct (_ <=? _); [exists k|exists (k - 1)]; lia.
Qed.
Lemma u64_mod_ex x : exists k, u64 x = x + k * 2 ^ 64.
Proof. exists (- (x / 2 ^ 64)). unfold u64. pose proof (Z.div_mod x (2 ^ 64) ltac:(discriminate)). lia. Qed.
Lemma lead_step c c' i j ai aj M : M <= 2 ^ 62 -> -M <= lead c i j <= M -> -M <= lead c' i j <= M -> 0 <= ai <= 2 ^ 60 -> 0 <= aj <= 2 ^ 60 ->
  c' i = u64 (c i + ai) -> c' j = u64 (c j + aj) -> lead c' i j = lead c i j + ai - aj.
Proof.
  intros HM H1 H2 Ha Hb E1 E2. destruct (lead_mod c i j) as (k1 & K1). destruct (lead_mod c' i j) as (k2 & K2).
  destruct (u64_mod_ex (c i + ai)) as (k3 & K3). destruct (u64_mod_ex (c j + aj)) as (k4 & K4).
  rewrite E1, E2, K3, K4 in K2. revert H1 H2 K1 K2. generalize (lead c i j) (lead c' i j) (c i) (c j). intros l l' a b H1 H2 K1 K2. lia.
Qed.
Lemma waiting_has V u x f : winv V f -> waiting u x f -> lvl u -> has (sc_q (f_s f) u) x.
Proof. intros W (A & B & C) L. destruct (w_s _ _ _ W) as (_ & _ & H). apply H; auto. Qed.
Lemma waiting_lvl V u x f : winv V f -> waiting u x f -> lvl u.
Proof. intros W (A & B & <-). apply (w_s _ _ _ W). Qed.
Lemma lead_bound V u i j f : capV V -> winv V f -> waiting u i f -> waiting u j f -> - (V + 1600) <= 800 * lead (cyc (f_s f)) i j <= V + 1600.
Proof.
  intros HV W Hi Hj. pose proof (waiting_lvl V u i f W Hi) as L.
  destruct (qok_lead _ _ _ _ (w_r _ _ _ W) (cap_hb V HV) (w_d _ _ f W) _ i j (w_q _ _ _ W u L)) as (H & _); eauto using waiting_has.
Qed.
Lemma run_sum V u i j f ops f' : capV V -> winv V f -> i <> j -> run_in V (fun f => waiting u i f /\ waiting u j f) f ops f' ->
  waiting u i f /\ waiting u j f /\ waiting u i f' /\ waiting u j f' /\ winv V f' /\
  exists ai ti aj tj, lead (cyc (f_s f')) i j = lead (cyc (f_s f)) i j + ai - aj /\
    nw (f_s f') i = nw (f_s f) i + served i ops - ti /\ nw (f_s f') j = nw (f_s f) j + served j ops - tj /\
    ti <= 1600 * ai /\ 800 * aj <= tj + 800 * submits j ops.
Proof.
  intros HV W N H. revert W. induction H as [f [P1 P2]|f o f1 ops f' [P1 P2] HL HS HR IH]; intros W.
  - split; [auto|]. split; [auto|]. split; [auto|]. split; [auto|]. split; [auto|]. exists 0, 0, 0, 0. cbn. split; [lia|]. split; [lia|]. split; [lia|]. lia.
  - destruct (fstep_ok V f o HV W HL) as (f2 & Q1 & W2). rewrite HS in Q1. injection Q1 as <-. destruct (IH W2) as (R1 & R2 & R3 & R4 & R5 & ai & ti & aj & tj & E1 & E2 & E3 & E4 & E5).
    split; [auto|]. split; [auto|]. split; [auto|]. split; [auto|]. split; [auto|].
    destruct (step_view V f o f1 u i j HV W HL HS P1 R1 P2 ltac:(congruence)) as (a & t & A1 & A2 & A3 & A4 & A5 & A6).
    destruct (step_view V f o f1 u j i HV W HL HS P2 R2 P1 N) as (a' & t' & B1 & B2 & B3 & B4 & B5 & B6).
    exists (ai + a), (ti + t), (aj + a'), (tj + t'). rewrite !served_cons, !submits_cons.
    assert (forall x, 0 <= wr o x <= f_b f x) as Wr. { intros x. pose proof (w_b _ _ _ W x). destruct o; cbn in *; try lia. destruct (Z.eqb_spec x0 x) as [->|]; lia. }
    assert (forall x, 0 <= sb o x <= 1) as Sb. { intros x. destruct o; cbn; try lia. destruct (_ =? _); lia. }
    assert (forall x, 0 <= nw (f_s f1) x) as N1 by apply (w_n _ _ _ W2).
    destruct HV as [V0 V1]. rewrite gap_val in V1.
    assert (a <= 2 ^ 60) as Ba. { pose proof (w_c _ _ _ W i). pose proof (Wr i). pose proof (Sb i). pose proof (N1 i). lia. }
    assert (a' <= 2 ^ 60) as Ba'. { pose proof (w_c _ _ _ W j). pose proof (Wr j). pose proof (Sb j). pose proof (N1 j). lia. }
    assert (capV V) as HV by (split; [auto|rewrite gap_val; auto]).
    pose proof (lead_bound V u i j f HV W P1 P2). pose proof (lead_bound V u i j f1 HV W2 R1 R2).
    assert (lead (cyc (f_s f1)) i j = lead (cyc (f_s f)) i j + a - a') as Ld by (apply lead_step with (M := 2 ^ 62); auto; lia).
    split; [lia|]. split; [lia|]. split; [lia|]. split; [lia|]. lia.
Qed.
(* sharing *)
Theorem fair_share V u i j f ops f' : capV V -> reached V f -> i <> j -> run_in V (fun f => waiting u i f /\ waiting u j f) f ops f' ->
  served i ops <= 2 * served j ops + 1600 * submits j ops + 4 * V + 8800.
Proof.
  intros HV Hr N H. pose proof (reached_winv V f HV Hr) as W. destruct (run_sum V u i j f ops f' HV W N H) as (P1 & P2 & P3 & P4 & W' & ai & ti & aj & tj & E1 & E2 & E3 & E4 & E5).
  pose proof (lead_bound V u i j f HV W P1 P2). pose proof (lead_bound V u i j f' HV W' P3 P4).
  pose proof (w_l _ _ _ W i (proj1 P1) ltac:(tauto)). pose proof (w_l _ _ _ W j (proj1 P2) ltac:(tauto)).
  pose proof (w_l _ _ _ W' i (proj1 P3) ltac:(tauto)). pose proof (w_n _ _ _ W i). pose proof (w_n _ _ _ W' j). lia.
Qed.
(* the choice *)
Theorem choice V f : capV V -> reached V f ->
  match get_next_tx (f_s f) with
  | Ok (Some x) => sched (f_s f) x = true /\
      (forall y, sched (f_s f) y = true -> urg (f_s f) x <= urg (f_s f) y) /\
      (forall y, sched (f_s f) y = true -> urg (f_s f) y = urg (f_s f) x -> inc (f_s f) y = false -> x <= y)
  | Ok None => forall y, sched (f_s f) y = false
  | _ => False
  end.
Proof.
  intros HV Hr. pose proof (reached_winv V f HV Hr) as W. pose proof W as [W1 W2 W3 W4 W5 W6 W7 W8]. pose proof (get_next_ok _ W1) as G. pose proof W1 as (A & B & C).
  destruct (get_next_tx (f_s f)) as [[x|]| |] eqn:HG; auto. destruct G as [G1 G2]. split; [auto|]. split; [auto|].
  intros y Sy Uy Iy. 
  assert (pq_top (sc_q (f_s f) (urg (f_s f) x)) = Ok x) as Top.
  { clear - HG A B C. unfold get_next_tx in HG. assert (forall f0 u, 0 <= u -> u + Z.of_nat f0 <= 8 -> next_tx f0 (f_s f) u = Ok (Some x) -> pq_top (sc_q (f_s f) (urg (f_s f) x)) = Ok x) as K.
    { induction f0 as [|f0 IH]; intros u H1 H2 H; cbn [next_tx] in H; [discriminate|]. unfold pq_empty in H. destruct (Nat.eqb_spec (pq_len (sc_q (f_s f) u)) 0) as [L|L]; [apply (IH (u + 1)); auto; lia|].
      destruct (top_weak (sc_q (f_s f) u) L) as (t & T & Ht). rewrite T in H. injection H as <-. apply C in Ht as [_ Hu]; [|unfold lvl; lia]. rewrite Hu. exact T. }
    apply (K URGENCY_LEVELS 0); [lia|cbn; lia|exact HG]. }
  assert (has (sc_q (f_s f) (urg (f_s f) x)) x) as Hx by (apply C; auto).
  destruct (qok_top _ _ _ _ W2 (cap_hb V HV) (w_d _ _ f W) _ (B _ (A x)) (W8 _ (A x))) as (t & b & T1 & T2 & Hb & T3 & T4); [exact (len_has _ _ Hx)|].
  rewrite Top in T1. injection T1 as <-. destruct (T4 y) as (_ & T5 & T6); [apply C; auto|]. apply T6, T5, Iy.
Qed.
