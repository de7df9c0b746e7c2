(* The priority queue is a heap with exact handles *)
From Coq Require Import Permutation.
From Verif Require Import Base BaseLemmas PqModel.
Open Scope nat_scope.

Definition par (i : nat) : nat := (i - 1) / 2.
Lemma par_lt i : 0 < i -> par i < i.
Proof. intros. unfold par. apply Nat.div_lt_upper_bound; lia. Qed.
Lemma par_child i j : 0 < j -> (par j = i <-> j = 2 * i + 1 \/ j = 2 * i + 2).
Proof.
  intros. unfold par. pose proof (Nat.div_mod (j - 1) 2 ltac:(lia)). pose proof (Nat.mod_upper_bound (j - 1) 2 ltac:(lia)). lia.
Qed.
Lemma par_def i : (i - 1) / 2 = par i. Proof. reflexivity. Qed.
Global Opaque par.

Section PROOF.
Variable less : Z -> Z -> bool.
Variable P : Z -> Prop.
Definition le (x y : Z) : Prop := less y x = false.
(* a strict weak order on the elements in play *)
Hypothesis asym : forall x y, P x -> P y -> less x y = true -> less y x = false.
Hypothesis trans : forall x y z, P x -> P y -> P z -> le x y -> le y z -> le x z.
Lemma le_refl x : P x -> le x x.
Proof. intros H. unfold le. destruct (less x x) eqn:L; auto. rewrite (asym x x H H L) in L. discriminate. Qed.

Definition all (p : pq) : Prop := forall i, i < pq_len p -> P (pq_q p i).
Definition exact (p : pq) : Prop := forall i, i < pq_len p -> pq_idx p (pq_q p i) = i.
Definition heap (p : pq) : Prop := forall j, 0 < j < pq_len p -> le (pq_q p (par j)) (pq_q p j).
Definition up_inv (p : pq) (i : nat) : Prop :=
  (forall j, 0 < j < pq_len p -> j <> i -> le (pq_q p (par j)) (pq_q p j)) /\
  (forall c, 0 < c < pq_len p -> par c = i -> 0 < i -> le (pq_q p (par i)) (pq_q p c)).
Definition down_inv (p : pq) (i : nat) : Prop :=
  (forall j, 0 < j < pq_len p -> par j <> i -> le (pq_q p (par j)) (pq_q p j)) /\
  (forall c, 0 < c < pq_len p -> par c = i -> 0 < i -> le (pq_q p (par i)) (pq_q p c)).

Definition same (p p' : pq) : Prop :=
  pq_len p' = pq_len p /\ (forall x, (exists i, i < pq_len p' /\ pq_q p' i = x) <-> exists i, i < pq_len p /\ pq_q p i = x) /\
  (forall x, (forall i, i < pq_len p -> pq_q p i <> x) -> pq_idx p' x = pq_idx p x).
Lemma same_refl p : same p p. Proof. split; [|split]; tauto. Qed.
Lemma same_trans a b c : same a b -> same b c -> same a c.
Proof.
  intros (A1 & A2 & A3) (B1 & B2 & B3). split; [congruence|]. split; [intros x; rewrite B2; auto|].
  intros x H. rewrite B3, A3; auto. intros i Hi E. assert (K : exists i, i < pq_len b /\ pq_q b i = x) by eauto. apply A2 in K as (k & K1 & K2). eapply H; eauto.
Qed.
Lemma swap_q p i j k : pq_q (pq_swap p i j) k = if Nat.eqb k j then pq_q p i else if Nat.eqb k i then pq_q p j else pq_q p k.
Proof. reflexivity. Qed.
Lemma swap_same p i j : i < pq_len p -> j < pq_len p -> same p (pq_swap p i j).
Proof.
  intros Hi Hj. split; [reflexivity|]. split.
  - intros x. cbn [pq_len pq_swap]. change (mk_pq _ _ _) with (pq_swap p i j). split; intros (k & K1 & K2).
    + rewrite swap_q in K2. destruct (Nat.eqb_spec k j); [eauto|]. destruct (Nat.eqb_spec k i); eauto.
    + destruct (Nat.eq_dec k j) as [->|N]; [exists i; split; auto; rewrite swap_q; destruct (Nat.eqb_spec i j); [subst; auto|rewrite Nat.eqb_refl; auto]|].
      destruct (Nat.eq_dec k i) as [->|N2]; [exists j; split; auto; rewrite swap_q, Nat.eqb_refl; auto|].
      exists k. split; auto. rewrite swap_q. destruct (Nat.eqb_spec k j); [lia|]. destruct (Nat.eqb_spec k i); [lia|]. auto.
  - intros x H. cbn. unfold upd_z. destruct (Z.eqb_spec x (pq_q p i)); [exfalso; eapply (H i); eauto|]. destruct (Z.eqb_spec x (pq_q p j)); [exfalso; eapply (H j); eauto|]. auto.
Qed.
Lemma swap_exact p i j : i < pq_len p -> j < pq_len p -> exact p -> exact (pq_swap p i j).
Proof.
  intros Hi Hj E k Hk. cbn [pq_len pq_swap] in Hk. rewrite swap_q. cbn [pq_idx pq_swap]. unfold upd_z.
  assert (INJ : forall a b, a < pq_len p -> b < pq_len p -> pq_q p a = pq_q p b -> a = b) by (intros a b Ha Hb Q; rewrite <- (E a Ha), <- (E b Hb), Q; auto).
  destruct (Nat.eqb_spec k j) as [->|N]; [rewrite Z.eqb_refl; auto|].
  destruct (Nat.eqb_spec k i) as [->|N2].
  - destruct (Z.eqb_spec (pq_q p j) (pq_q p i)) as [Q|Q]; [apply INJ in Q; auto|]. rewrite Z.eqb_refl. auto.
  - destruct (Z.eqb_spec (pq_q p k) (pq_q p i)) as [Q|Q]; [apply INJ in Q; auto; lia|]. destruct (Z.eqb_spec (pq_q p k) (pq_q p j)) as [Q2|Q2]; [apply INJ in Q2; auto; lia|]. auto.
Qed.
Lemma same_all p p' : same p p' -> all p -> all p'.
Proof. intros (S1 & S2 & _) A i Hi. assert (K : exists i, i < pq_len p' /\ pq_q p' i = pq_q p' i) by eauto. 
  destruct (proj1 (S2 (pq_q p' i)) ltac:(eauto)) as (k & K1 & K2). rewrite <- K2. auto. Qed.

Lemma up_ok f : forall p i, i < f -> i < pq_len p -> all p -> exact p -> up_inv p i ->
  let p' := bubble_up less f p i in same p p' /\ exact p' /\ heap p'.
Proof.
  induction f as [|f IH]; intros p i Hf Hi A E [U1 U2]; [lia|]. cbn [bubble_up].
  destruct (Nat.eqb_spec i 0) as [->|N0].
  - split; [apply same_refl|]. split; auto. intros j Hj. apply U1; auto; lia.
  - rewrite !par_def. set (p0 := par i). assert (Hp : p0 < i) by (apply par_lt; lia).
    destruct (less (pq_q p i) (pq_q p p0)) eqn:L; cbn [negb].
    2:{ split; [apply same_refl|]. split; auto. intros j Hj. destruct (Nat.eq_dec j i) as [->|]; [exact L|apply U1; auto]. }
    pose proof (swap_same p p0 i ltac:(lia) Hi) as SM.
    assert (LE : le (pq_q p i) (pq_q p p0)) by (apply asym; auto; apply A; lia).
    assert (AP : forall k, k < pq_len p -> P (pq_q p k)) by exact A.
    destruct (IH (pq_swap p p0 i) p0) as (K1 & K2 & K3); [lia|cbn; lia|eapply same_all; eauto|apply swap_exact; auto; lia| |].
    { split.
      - intros j Hj Nj. cbn [pq_len pq_swap] in Hj. rewrite !swap_q.
        assert (Hpj : par j < j) by (apply par_lt; lia).
        destruct (Nat.eqb_spec j i) as [->|Nji].
        + fold p0. destruct (Nat.eqb_spec p0 i); [lia|]. rewrite Nat.eqb_refl. exact LE.
        + destruct (Nat.eqb_spec j p0); [lia|]. destruct (Nat.eqb_spec (par j) i) as [Q|Q].
          * apply (U2 j); auto; lia.
          * destruct (Nat.eqb_spec (par j) p0) as [Q2|Q2]; [|apply U1; lia].
            apply (trans _ (pq_q p p0)); try (apply AP; lia); auto. rewrite <- Q2. apply U1; lia.
      - intros c Hc Qc Hp0. cbn [pq_len pq_swap] in Hc. rewrite !swap_q. assert (Hpp : par p0 < p0) by (apply par_lt; lia).
        destruct (Nat.eqb_spec (par p0) i); [lia|]. destruct (Nat.eqb_spec (par p0) p0); [lia|].
        assert (LP : le (pq_q p (par p0)) (pq_q p p0)) by (apply U1; lia).
        destruct (Nat.eqb_spec c i) as [->|Nc]; [exact LP|]. destruct (Nat.eqb_spec c p0) as [->|Nc2]; [pose proof (par_lt p0 ltac:(lia)); lia|].
        apply (trans _ (pq_q p p0)); try (apply AP; lia); auto. rewrite <- Qc. apply U1; lia. }
    split; [eapply same_trans; eauto|]. auto.
Qed.
Lemma down_ok f : forall p i, pq_len p <= i + f -> i < pq_len p -> all p -> exact p -> down_inv p i ->
  let p' := bubble_down less f p i in same p p' /\ exact p' /\ heap p'.
Proof.
  induction f as [|f IH]; intros p i Hf Hi A E [D1 D2]; [lia|]. cbn [bubble_down].
  set (m := min_child less p i).
  assert (M : (m = i /\ forall c, 0 < c < pq_len p -> par c = i -> le (pq_q p i) (pq_q p c)) \/
     (0 < m < pq_len p /\ par m = i /\ le (pq_q p m) (pq_q p i) /\ forall c, 0 < c < pq_len p -> par c = i -> le (pq_q p m) (pq_q p c))).
  { unfold m, min_child. replace (i * 2 + 1) with (2 * i + 1) by lia. replace (2 * i + 1 + 1) with (2 * i + 2) by lia.
    assert (CH : forall c, 0 < c -> par c = i -> c = 2 * i + 1 \/ c = 2 * i + 2) by (intros c Hc; apply par_child; auto).
    assert (P1 : par (2 * i + 1) = i) by (apply par_child; lia). assert (P2 : par (2 * i + 2) = i) by (apply par_child; lia).
    assert (AP : forall k, k < pq_len p -> P (pq_q p k)) by exact A.
    destruct (Nat.leb_spec (pq_len p) (2 * i + 1)) as [L1|L1].
    { left. split; auto. intros c Hc Qc. destruct (CH c); lia. }
    destruct (less (pq_q p (2 * i + 1)) (pq_q p i)) eqn:Q1.
    - assert (LE1 : le (pq_q p (2 * i + 1)) (pq_q p i)) by (apply asym; auto).
      destruct (Nat.leb_spec (pq_len p) (2 * i + 2)) as [L2|L2].
      + right. split; [lia|]. split; auto. split; auto. intros c Hc Qc. destruct (CH c) as [-> | ->]; try lia. apply le_refl; auto.
      + destruct (less (pq_q p (2 * i + 2)) (pq_q p (2 * i + 1))) eqn:Q2.
        * assert (LE2 : le (pq_q p (2 * i + 2)) (pq_q p (2 * i + 1))) by (apply asym; auto).
          right. split; [lia|]. split; auto. split; [apply (trans _ (pq_q p (2 * i + 1))); auto|]. intros c Hc Qc. destruct (CH c) as [-> | ->]; try lia; auto. apply le_refl; auto.
        * right. split; [lia|]. split; auto. split; auto. intros c Hc Qc. destruct (CH c) as [-> | ->]; try lia; auto. apply le_refl; auto.
    - destruct (Nat.leb_spec (pq_len p) (2 * i + 2)) as [L2|L2].
      + left. split; auto. intros c Hc Qc. destruct (CH c) as [-> | ->]; try lia; auto.
      + destruct (less (pq_q p (2 * i + 2)) (pq_q p i)) eqn:Q2.
        * assert (LE2 : le (pq_q p (2 * i + 2)) (pq_q p i)) by (apply asym; auto).
          right. split; [lia|]. split; auto. split; auto. intros c Hc Qc. destruct (CH c) as [-> | ->]; try lia; auto; [|apply le_refl; auto]. apply (trans _ (pq_q p i)); auto.
        * left. split; auto. intros c Hc Qc. destruct (CH c) as [-> | ->]; try lia; auto. }
  clearbody m. destruct M as [[-> MI]|(Hm & Pm & Lm & MI)].
  { rewrite Nat.eqb_refl. split; [apply same_refl|]. split; auto. intros j Hj. destruct (Nat.eq_dec (par j) i) as [Q|Q]; [rewrite Q; apply MI; auto|apply D1; auto]. }
  pose proof (par_lt m ltac:(lia)) as PM. destruct (Nat.eqb_spec m i); [lia|].
  pose proof (swap_same p i m Hi ltac:(lia)) as SM.
  destruct (IH (pq_swap p i m) m) as (K1 & K2 & K3); [cbn; lia|cbn; lia|eapply same_all; eauto|apply swap_exact; auto; lia| |].
  { split.
    - intros j Hj Nj. cbn [pq_len pq_swap] in Hj. rewrite !swap_q. assert (Hpj : par j < j) by (apply par_lt; lia).
      destruct (Nat.eqb_spec (par j) m); [lia|].
      destruct (Nat.eqb_spec j m) as [->|Njm]; [rewrite Pm, Nat.eqb_refl; exact Lm|].
      destruct (Nat.eqb_spec (par j) i) as [Q|Q].
      + destruct (Nat.eqb_spec j i); [lia|]. apply MI; auto.
      + destruct (Nat.eqb_spec j i) as [->|Nji]; [|apply D1; auto]. apply D2; auto; lia.
    - intros c Hc Qc Hm0. cbn [pq_len pq_swap] in Hc. rewrite !swap_q. rewrite Pm. destruct (Nat.eqb_spec i m); [lia|]. rewrite Nat.eqb_refl.
      pose proof (par_lt c ltac:(lia)). destruct (Nat.eqb_spec c m); [lia|]. destruct (Nat.eqb_spec c i); [lia|]. rewrite <- Qc. apply D1; auto; lia. }
  split; [eapply same_trans; eauto|]. auto.
Qed.

(* the contents as a set *)
Definition has (p : pq) (x : Z) : Prop := exists i, i < pq_len p /\ pq_q p i = x.
Definition pq_inv (p : pq) : Prop := all p /\ exact p /\ heap p.
Lemma same_has p p' x : same p p' -> (has p' x <-> has p x). Proof. intros (_ & H & _). apply H. Qed.
Theorem push_ok p x : pq_inv p -> ~ has p x -> P x ->
  let p' := pq_push less p x in pq_inv p' /\ pq_len p' = S (pq_len p) /\ (forall y, has p' y <-> y = x \/ has p y) /\ (forall y, y <> x -> ~ has p y -> pq_idx p' y = pq_idx p y).
Proof.
  intros (A & E & H) N Px. unfold pq_push. set (p1 := mk_pq _ _ _).
  assert (A1 : all p1) by (intros i Hi; cbn in *; unfold upd_nat; destruct (Nat.eqb_spec i (pq_len p)); auto; apply A; lia).
  assert (E1 : exact p1).
  { intros i Hi. cbn in *. unfold upd_nat, upd_z. destruct (Nat.eqb_spec i (pq_len p)) as [->|Ni]; [rewrite Z.eqb_refl; auto|].
    destruct (Z.eqb_spec (pq_q p i) x); [exfalso; apply N; exists i; split; auto; lia|]. apply E; lia. }
  destruct (up_ok (S (pq_len p)) p1 (pq_len p)) as (S1 & S2 & S3); auto; try (cbn; lia).
  { split.
    - intros j Hj Nj. cbn in *. unfold upd_nat. pose proof (par_lt j ltac:(lia)). destruct (Nat.eqb_spec (par j) (pq_len p)); [lia|]. destruct (Nat.eqb_spec j (pq_len p)); [lia|]. apply H; lia.
    - intros c Hc Qc _. pose proof (par_lt c ltac:(lia)). cbn in Hc. lia. }
  cbv zeta. split; [split; [eapply same_all; eauto|auto]|]. split; [apply (proj1 S1)|]. split.
  - intros y. rewrite (same_has _ _ y S1). split.
    + intros (i & Hi & Q). cbn in *. unfold upd_nat in Q. destruct (Nat.eqb_spec i (pq_len p)); [auto|]. right. exists i. split; auto; lia.
    + intros [->|(i & Hi & Q)]; [exists (pq_len p); cbn; unfold upd_nat; rewrite Nat.eqb_refl; auto|].
      exists i. cbn. unfold upd_nat. destruct (Nat.eqb_spec i (pq_len p)); [lia|]. split; auto.
  - intros y Ny Hy. destruct S1 as (_ & _ & S1). rewrite S1; [cbn; unfold upd_z; destruct (Z.eqb_spec y x); [congruence|auto]|].
    intros i Hi. cbn in *. unfold upd_nat. destruct (Nat.eqb_spec i (pq_len p)); [congruence|]. intros Q. apply Hy. exists i. split; auto; lia.
Qed.
Definition gone (p p' : pq) (x : Z) : Prop :=
  pq_inv p' /\ S (pq_len p') = pq_len p /\ (forall y, has p' y <-> y <> x /\ has p y) /\ (forall y, ~ has p y -> pq_idx p' y = pq_idx p y).
Lemma inj p a b : exact p -> a < pq_len p -> b < pq_len p -> pq_q p a = pq_q p b -> a = b.
Proof. intros E Ha Hb Q. rewrite <- (E a Ha), <- (E b Hb), Q. reflexivity. Qed.
(* the last element takes the place of element [i] *)
Lemma replaced p i : exact p -> i < pq_len p - 1 -> let x := pq_q p (pq_len p - 1) in
  let p' := mk_pq (upd_nat (pq_q p) i x) (pq_len p - 1) (upd_z (pq_idx p) x i) in
  exact p' /\ (all p -> all p') /\ (forall y, has p' y <-> y <> pq_q p i /\ has p y) /\ (forall y, ~ has p y -> pq_idx p' y = pq_idx p y).
Proof.
  intros E Hi x p'. split; [|split; [|split]].
  - intros k Hk. cbn in *. unfold upd_nat, upd_z. destruct (Nat.eqb_spec k i) as [->|N]; [rewrite Z.eqb_refl; auto|].
    destruct (Z.eqb_spec (pq_q p k) x) as [Q|Q]; [apply (inj p) in Q; auto; lia|]. apply E; lia.
  - intros A k Hk. cbn in *. unfold upd_nat. destruct (Nat.eqb_spec k i); apply A; lia.
  - intros y. split.
    + intros (k & Hk & Q). cbn in *. unfold upd_nat in Q. destruct (Nat.eqb_spec k i) as [->|N]; subst y; (split; [intros Q; apply (inj p) in Q; auto; lia|]); [exists (pq_len p - 1); split; auto; lia|exists k; split; auto; lia].
    + intros (Ny & k & Hk & Q). destruct (Nat.eq_dec k (pq_len p - 1)) as [->|Nk].
      * exists i. cbn. unfold upd_nat. rewrite Nat.eqb_refl. split; auto.
      * exists k. cbn. unfold upd_nat. destruct (Nat.eqb_spec k i); [subst; congruence|]. split; auto; lia.
  - intros y Hy. cbn. unfold upd_z. destruct (Z.eqb_spec y x); auto. exfalso. apply Hy. exists (pq_len p - 1). split; auto; lia.
Qed.
Lemma par_le_heap p i c : all p -> heap p -> 0 < i -> 0 < c < pq_len p -> par c = i -> le (pq_q p (par i)) (pq_q p c).
Proof.
  intros A H Hi Hc Q. pose proof (par_lt c ltac:(lia)). pose proof (par_lt i ltac:(lia)).
  apply (trans _ (pq_q p i)); try (apply A; lia); [apply H; lia|]. rewrite <- Q. apply H; auto.
Qed.
Theorem pop_ok p : pq_inv p -> pq_len p <> 0 -> exists p', pq_pop less p = Ok p' /\ gone p p' (pq_q p 0).
Proof.
  intros (A & E & H) N. unfold pq_pop. destruct (Nat.eqb_spec (pq_len p) 0); [lia|]. eexists. split; [reflexivity|].
  destruct (Nat.eq_dec (pq_len p) 1) as [L1|L1].
  - rewrite L1. cbn [Nat.sub bubble_down min_child pq_len]. cbn. split; [|split; [|split]].
    + split; [|split]; intros ?; cbn; lia.
    + cbn; lia.
    + intros y. split; [intros (i & Hi & _); cbn in Hi; lia|]. intros (Ny & i & Hi & Q). assert (i = 0) by lia. subst. congruence.
    + intros y Hy. cbn. unfold upd_z. destruct (Z.eqb_spec y (pq_q p 0)); auto. exfalso. apply Hy. exists 0. split; auto; lia.
  - destruct (replaced p 0 E ltac:(lia)) as (R1 & R2 & R3 & R4). set (p1 := mk_pq _ _ _) in *.
    destruct (down_ok (pq_len p) p1 0) as (S1 & S2 & S3); auto; try (cbn; lia).
    { split; [|intros; lia]. intros j Hj Nj. cbn in *. unfold upd_nat. pose proof (par_lt j ltac:(lia)). destruct (Nat.eqb_spec (par j) 0); [lia|]. destruct (Nat.eqb_spec j 0); [lia|]. apply H; lia. }
    split; [split; [eapply same_all; eauto|auto]|]. split; [rewrite (proj1 S1); cbn; lia|]. split.
    + intros y. rewrite (same_has _ _ y S1). apply R3.
    + intros y Hy. destruct S1 as (_ & _ & S1). rewrite S1; [apply R4; auto|]. intros i Hi Q. assert (K : has p1 y) by (exists i; auto). apply R3 in K. tauto.
Qed.
Theorem remove_ok p x : pq_inv p -> has p x -> exists p', pq_remove less p x = Ok p' /\ gone p p' x.
Proof.
  intros I (i & Hi & Qx). pose proof I as (A & E & H). subst x. unfold pq_remove. rewrite (E i Hi), Z.eqb_refl. cbn [negb].
  destruct (Nat.eqb_spec i 0) as [->|N0]; [apply pop_ok; auto; lia|].
  destruct (Nat.eqb_spec i (pq_len p - 1)) as [L|NL].
  { eexists. split; [reflexivity|]. split; [|split; [|split]].
    - split; [|split]; intros k Hk; cbn in *; [apply A|apply E|apply H]; lia.
    - cbn. lia.
    - intros y. split.
      + intros (k & Hk & Q). cbn in *. subst y. split; [intros Q; apply (inj p) in Q; auto; lia|exists k; split; auto; lia].
      + intros (Ny & k & Hk & Q). exists k. cbn. split; auto. destruct (Nat.eq_dec k i); [subst; congruence|lia].
    - reflexivity. }
  destruct (replaced p i E ltac:(lia)) as (R1 & R2 & R3 & R4). set (p1 := mk_pq _ _ _) in *. set (x := pq_q p (pq_len p - 1)) in *.
  assert (AP : forall k, k < pq_len p -> P (pq_q p k)) by exact A.
  assert (PI : par i < i) by (apply par_lt; lia).
  assert (UNI : forall p', same p1 p' /\ exact p' /\ heap p' -> gone p p' (pq_q p i)).
  { intros p' (S1 & S2 & S3). split; [split; [eapply same_all; eauto|auto]|]. split; [rewrite (proj1 S1); cbn; lia|]. split.
    + intros y. rewrite (same_has _ _ y S1). apply R3.
    + intros y Hy. destruct S1 as (_ & _ & S1). rewrite S1; [apply R4; auto|]. intros k Hk Q. assert (K : has p1 y) by (exists k; auto). apply R3 in K. tauto. }
  destruct (less (pq_q p i) x) eqn:L.
  - eexists. split; [reflexivity|]. apply UNI. apply down_ok; auto; try (cbn; lia). split.
    + intros j Hj Nj. cbn in *. unfold upd_nat. pose proof (par_lt j ltac:(lia)). destruct (Nat.eqb_spec (par j) i); [lia|]. destruct (Nat.eqb_spec j i) as [->|Nji]; [|apply H; lia].
      apply (trans _ (pq_q p i)); try (apply AP; lia); [apply H; lia|apply asym; auto; apply AP; lia].
    + intros c Hc Qc _. cbn in *. unfold upd_nat. destruct (Nat.eqb_spec (par i) i); [lia|]. pose proof (par_lt c ltac:(lia)). destruct (Nat.eqb_spec c i); [lia|]. apply par_le_heap; auto; lia.
  - eexists. split; [reflexivity|]. apply UNI. apply up_ok; auto; try (cbn; lia). split.
    + intros j Hj Nj. cbn in *. unfold upd_nat. pose proof (par_lt j ltac:(lia)). destruct (Nat.eqb_spec j i); [lia|]. destruct (Nat.eqb_spec (par j) i) as [Q|Q]; [|apply H; lia].
      apply (trans _ (pq_q p i)); try (apply AP; lia); [exact L|]. rewrite <- Q. apply H; lia.
    + intros c Hc Qc _. cbn in *. unfold upd_nat. destruct (Nat.eqb_spec (par i) i); [lia|]. pose proof (par_lt c ltac:(lia)). destruct (Nat.eqb_spec c i); [lia|]. apply par_le_heap; auto; lia.
Qed.
Theorem top_ok p : pq_inv p -> pq_len p <> 0 -> exists x, pq_top p = Ok x /\ has p x /\ forall y, has p y -> less y x = false.
Proof.
  intros (A & E & H) N. unfold pq_top. destruct (Nat.eqb_spec (pq_len p) 0); [lia|]. eexists. split; [reflexivity|]. split; [exists 0; split; auto; lia|].
  assert (K : forall n i, i < n -> i < pq_len p -> le (pq_q p 0) (pq_q p i)).
  { induction n0 as [|k IH]; intros i Hk Hi; [lia|]. destruct (Nat.eq_dec i 0) as [->|Ni]; [apply le_refl; apply A; lia|].
    pose proof (par_lt i ltac:(lia)). apply (trans _ (pq_q p (par i))); try (apply A; lia); [apply IH; lia|apply H; lia]. }
  intros y (i & Hi & <-). exact (K (S i) i ltac:(lia) Hi).
Qed.
End PROOF.

(* ---- histories ---- *)
From Verif Require Import PqSpec.
Lemma in_contents p x : In x (contents p) <-> has p x.
Proof. unfold contents, has. rewrite in_map_iff. split; intros (i & H1 & H2); exists i; rewrite in_seq in *; intuition lia. Qed.
Lemma contents_nodup p : exact p -> NoDup (contents p).
Proof.
  intros E. unfold contents. apply NoDup_nth_error. intros i j Hi Q. rewrite map_length, seq_length in Hi.
  assert (Hj : j < pq_len p).
  { destruct (Nat.lt_ge_cases j (pq_len p)); auto. exfalso. rewrite (proj2 (nth_error_None _ j)) in Q by (rewrite map_length, seq_length; lia).
    apply nth_error_None in Q. rewrite map_length, seq_length in Q. lia. }
  rewrite !nth_error_map in Q. rewrite (nth_error_nth' _ 0%nat) in Q by (rewrite seq_length; lia). rewrite (nth_error_nth' (seq 0 (pq_len p)) 0%nat (n := j)) in Q by (rewrite seq_length; lia).
  rewrite !seq_nth in Q by lia. cbn in Q. injection Q as Q. eapply inj; eauto.
Qed.
Lemma contents_len p : length (contents p) = pq_len p. Proof. unfold contents. rewrite map_length, seq_length. reflexivity. Qed.
Definition kless (klt : Z -> Z -> bool) (key : Z -> Z) (x y : Z) : bool := klt (key x) (key y).
Lemma q_step klt key p op l : strict_weak klt -> pq_inv (kless klt key) (fun _ => True) p -> Permutation (contents p) l -> proper_op (contents p) op ->
  exists key' p' l', q_do klt key p op = Ok (key', p') /\ qstep klt (key, l) op (key', l') /\ Permutation (contents p') l' /\ pq_inv (kless klt key') (fun _ => True) p'.
Proof.
  intros [W1 W2] I PM PO.
  assert (AS : forall x y, True -> True -> kless klt key x y = true -> kless klt key y x = false) by (intros; apply W1; auto).
  assert (TR : forall x y z, True -> True -> True -> le (kless klt key) x y -> le (kless klt key) y z -> le (kless klt key) x z) by (unfold le, kless; intros; eauto).
  assert (INL : forall x, In x l <-> has p x) by (intros x; rewrite <- in_contents; split; apply Permutation_in; [apply Permutation_sym|]; auto).
  assert (ND : NoDup l) by (eapply Permutation_NoDup; [exact PM|]; apply contents_nodup; apply I).
  assert (GONE : forall p' x, has p x -> gone (kless klt key) (fun _ => True) p p' x -> exists l1 l2, l = l1 ++ x :: l2 /\ Permutation (contents p') (l1 ++ l2)).
  { intros p' x Hx (G1 & G2 & G3 & G4). apply INL in Hx. apply in_split in Hx as (l1 & l2 & ->). exists l1, l2. split; auto.
    apply NoDup_Permutation; [apply contents_nodup; apply G1|eapply NoDup_remove_1; eauto|]. intros y. rewrite in_contents, G3, <- INL.
    apply NoDup_remove_2 in ND. rewrite !in_app_iff in *. cbn. split; [intros (N & H); intuition congruence|]. intros H. split; [intros ->; tauto|tauto]. }
  destruct op as [x| |x|x k]; cbn [proper_op q_do] in *.
  - exists key. rewrite in_contents in PO. destruct (push_ok (kless klt key) (fun _ => True) AS TR p x I PO Logic.I) as (K1 & K2 & K3 & K4).
    eexists. exists (x :: l). split; [reflexivity|]. split; [constructor; rewrite INL; auto|]. split; auto.
    apply NoDup_Permutation; [apply contents_nodup; apply K1|constructor; auto; rewrite INL; auto|]. intros y. rewrite in_contents, K3, <- INL. cbn. intuition.
  - assert (L0 : pq_len p <> 0) by (rewrite <- contents_len; destruct (contents p); [congruence|discriminate]).
    destruct (pop_ok (kless klt key) (fun _ => True) AS TR p I L0) as (p' & R & G). fold (kless klt key). change (fun x y : Z => klt (key x) (key y)) with (kless klt key). rewrite R.
    destruct (top_ok (kless klt key) (fun _ => True) AS TR p I L0) as (m & T1 & T2 & T3).
    assert (m = pq_q p 0) by (unfold pq_top in T1; destruct (Nat.eqb_spec (pq_len p) 0); congruence). subst m.
    destruct (GONE p' _ T2 G) as (l1 & l2 & -> & PM'). exists key, p', (l1 ++ l2). split; [reflexivity|]. split; [|split; auto; apply G].
    constructor. intros y Hy. apply INL in Hy. apply (T3 y Hy).
  - rewrite in_contents in PO. change (fun x y : Z => klt (key x) (key y)) with (kless klt key).
    destruct (remove_ok (kless klt key) (fun _ => True) AS TR p x I PO) as (p' & R & G). rewrite R.
    destruct (GONE p' _ PO G) as (l1 & l2 & -> & PM'). exists key, p', (l1 ++ l2). split; [reflexivity|]. split; [constructor|]. split; auto. apply G.
  - exists (upd_z key x k), p, l. split; [reflexivity|]. rewrite in_contents in PO. split; [constructor; rewrite INL; auto|]. split; auto.
    destruct I as (A & E & H). split; auto. split; auto. intros j Hj. unfold le, kless, upd_z. pose proof (par_lt j ltac:(lia)).
    destruct (Z.eqb_spec (pq_q p j) x) as [Q|Q]; [exfalso; apply PO; exists j; split; auto; lia|].
    destruct (Z.eqb_spec (pq_q p (par j)) x) as [Q2|Q2]; [exfalso; apply PO; exists (par j); split; auto; lia|]. apply H; auto.
Qed.
Theorem q_history klt idx0 : strict_weak klt -> forall ops key, proper_use klt key (pq_init idx0) ops ->
  exists key' p l, q_all klt key (pq_init idx0) ops = Ok (key', p) /\ qrun klt (key, []) ops (key', l) /\
  Permutation (contents p) l /\ NoDup l /\
  (forall x, In x l -> (pq_idx p x < pq_len p)%nat /\ pq_q p (pq_idx p x) = x) /\
  (l <> [] -> exists m, pq_top p = Ok m /\ In m l /\ forall y, In y l -> klt (key' y) (key' m) = false).
Proof.
  intros W. assert (G : forall ops key p l, pq_inv (kless klt key) (fun _ => True) p -> Permutation (contents p) l -> proper_use klt key p ops ->
    exists key' p' l', q_all klt key p ops = Ok (key', p') /\ qrun klt (key, l) ops (key', l') /\ Permutation (contents p') l' /\ pq_inv (kless klt key') (fun _ => True) p').
  { induction ops as [|op ops IH]; intros key p l I PM U.
    - exists key, p, l. repeat split; auto; try apply I. constructor.
    - cbn [proper_use] in U. destruct U as [U1 U2]. destruct (q_step klt key p op l W I PM U1) as (k1 & p1 & l1 & D & S & PM1 & I1).
      rewrite D in U2. destruct (IH k1 p1 l1 I1 PM1 U2) as (k2 & p2 & l2 & D2 & R2 & PM2 & I2). exists k2, p2, l2. cbn [q_all]. rewrite D. repeat split; auto; try apply I2. econstructor; eauto. }
  intros ops key U. destruct (G ops key (pq_init idx0) []) as (k' & p & l & R & QR & PM & I); auto.
  { split; [|split]; intros ? ?; cbn in *; lia. }
  exists k', p, l. split; auto. split; auto. split; auto. split; [eapply Permutation_NoDup; [exact PM|]; apply contents_nodup; apply I|].
  assert (INL : forall x, In x l <-> has p x) by (intros x; rewrite <- in_contents; split; apply Permutation_in; [apply Permutation_sym|]; auto). split.
  - intros x Hx. apply INL in Hx as (i & Hi & <-). destruct I as (_ & E & _). rewrite (E i Hi). auto.
  - intros N. destruct W as [W1 W2]. destruct (top_ok (kless klt k') (fun _ => True) ltac:(intros; apply W1; auto) ltac:(unfold le, kless; intros; eauto) p I) as (m & T1 & T2 & T3).
    { rewrite <- contents_len, (Permutation_length PM). destruct l; [congruence|discriminate]. }
    exists m. split; auto. split; [apply INL; auto|]. intros y Hy. apply INL in Hy. apply (T3 y Hy).
Qed.
