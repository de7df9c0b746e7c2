(* What the priority queue keeps whatever its comparison function says: the set of its entries and their handles *)
From Verif Require Import Base BaseLemmas PqModel PqProofs.
Open Scope nat_scope.

Lemma swap_same0 p i j : i < pq_len p -> j < pq_len p -> same p (pq_swap p i j).
Proof. apply (swap_same (fun _ _ => false) (fun _ => True)); [auto|unfold le; auto]. Qed.
Lemma replaced0 p i : exact p -> i < pq_len p - 1 -> let x := pq_q p (pq_len p - 1) in
  let p' := mk_pq (upd_nat (pq_q p) i x) (pq_len p - 1) (upd_z (pq_idx p) x i) in
  exact p' /\ (forall y, has p' y <-> y <> pq_q p i /\ has p y).
Proof.
  intros E H. destruct (replaced (fun _ _ => false) (fun _ => True) ltac:(auto) ltac:(unfold le; auto) p i E H) as (R1 & _ & R3 & _). split; auto.
Qed.
Section WEAK.
Variable less : Z -> Z -> bool.
Lemma up_weak f : forall p i, i < pq_len p -> exact p -> let p' := bubble_up less f p i in same p p' /\ exact p'.
Proof.
  induction f as [|f IH]; intros p i Hi E; cbn [bubble_up]; [split; [apply same_refl|auto]|].
  destruct (Nat.eqb_spec i 0); [split; [apply same_refl|auto]|]. rewrite !par_def. assert (Hp : par i < i) by (apply par_lt; lia).
  destruct (negb _); [split; [apply same_refl|auto]|].
  destruct (IH (pq_swap p (par i) i) (par i)) as [K1 K2]; [cbn; lia|apply swap_exact; auto; lia|].
  split; auto. eapply same_trans; [apply (swap_same0 p (par i) i); lia|exact K1].
Qed.
Lemma min_child_lt p i : i < pq_len p -> min_child less p i < pq_len p.
Proof.
  intros Hi. unfold min_child. destruct (Nat.leb_spec (pq_len p) (i * 2 + 1)); auto.
  destruct (Nat.leb_spec (pq_len p) (i * 2 + 1 + 1)); destruct (less _ _); try lia; destruct (less _ _); lia.
Qed.
Lemma down_weak f : forall p i, i < pq_len p -> exact p -> let p' := bubble_down less f p i in same p p' /\ exact p'.
Proof.
  induction f as [|f IH]; intros p i Hi E; cbn [bubble_down]; [split; [apply same_refl|auto]|].
  destruct (Nat.eqb_spec (min_child less p i) i); [split; [apply same_refl|auto]|]. pose proof (min_child_lt p i Hi) as Hm.
  destruct (IH (pq_swap p i (min_child less p i)) (min_child less p i)) as [K1 K2]; [exact Hm|apply swap_exact; auto|].
  split; auto. eapply same_trans; [apply (swap_same0 p i _ Hi Hm)|exact K1].
Qed.
Lemma push_weak p x : exact p -> ~ has p x ->
  let p' := pq_push less p x in exact p' /\ pq_len p' = S (pq_len p) /\ (forall y, has p' y <-> y = x \/ has p y).
Proof.
  intros E N. unfold pq_push. set (p1 := mk_pq _ _ _).
  assert (E1 : exact p1).
  { intros i Hi. cbn in *. unfold upd_nat, upd_z. destruct (Nat.eqb_spec i (pq_len p)) as [->|Ni]; [rewrite Z.eqb_refl; auto|].
    destruct (Z.eqb_spec (pq_q p i) x); [exfalso; apply N; exists i; split; auto; lia|]. apply E; lia. }
  destruct (up_weak (S (pq_len p)) p1 (pq_len p)) as (S1 & S2); auto; try (cbn; lia).
  cbv zeta. split; [exact S2|]. split; [apply (proj1 S1)|].
  intros y. rewrite (same_has _ _ y S1). split.
  + intros (i & Hi & Q). cbn in *. unfold upd_nat in Q. destruct (Nat.eqb_spec i (pq_len p)); [auto|]. right. exists i. split; auto; lia.
  + intros [->|(i & Hi & Q)]; [exists (pq_len p); cbn; unfold upd_nat; rewrite Nat.eqb_refl; auto|].
    exists i. cbn. unfold upd_nat. destruct (Nat.eqb_spec i (pq_len p)); [lia|]. split; auto.
Qed.
Definition left_out (p p' : pq) (x : Z) : Prop := exact p' /\ S (pq_len p') = pq_len p /\ (forall y, has p' y <-> y <> x /\ has p y).
Lemma pop_weak p : exact p -> pq_len p <> 0 -> exists p', pq_pop less p = Ok p' /\ left_out p p' (pq_q p 0).
Proof.
  intros E N. unfold pq_pop. destruct (Nat.eqb_spec (pq_len p) 0); [lia|]. eexists. split; [reflexivity|].
  destruct (Nat.eq_dec (pq_len p) 1) as [L1|L1].
  - rewrite L1. cbn. split; [intros ?; cbn; lia|]. split; [cbn; lia|].
    intros y. split; [intros (i & Hi & _); cbn in Hi; lia|]. intros (Ny & i & Hi & Q). assert (i = 0) by lia. subst. congruence.
  - destruct (replaced0 p 0 E ltac:(lia)) as (R1 & R3). set (p1 := mk_pq _ _ _) in *.
    destruct (down_weak (pq_len p) p1 0) as (S1 & S2); auto; try (cbn; lia).
    split; [auto|]. split; [rewrite (proj1 S1); cbn; lia|]. intros y. rewrite (same_has _ _ y S1). apply R3.
Qed.
Lemma remove_weak p x : exact p -> has p x -> exists p', pq_remove less p x = Ok p' /\ left_out p p' x.
Proof.
  intros E (i & Hi & Qx). subst x. unfold pq_remove. rewrite (E i Hi), Z.eqb_refl. cbn [negb].
  destruct (Nat.eqb_spec i 0) as [->|N0]; [apply pop_weak; auto; lia|].
  destruct (Nat.eqb_spec i (pq_len p - 1)) as [L|NL].
  { eexists. split; [reflexivity|]. split; [intros k Hk; cbn in *; apply E; lia|]. split; [cbn; lia|].
    intros y. split.
    + intros (k & Hk & Q). cbn in *. subst y. split; [intros Q; apply (inj p) in Q; auto; lia|exists k; split; auto; lia].
    + intros (Ny & k & Hk & Q). exists k. cbn. split; auto. destruct (Nat.eq_dec k i); [subst; congruence|lia]. }
  destruct (replaced0 p i E ltac:(lia)) as (R1 & R3). set (p1 := mk_pq _ _ _) in *.
  assert (UNI : forall p', same p1 p' /\ exact p' -> left_out p p' (pq_q p i)).
  { intros p' (S1 & S2). split; [auto|]. split; [rewrite (proj1 S1); cbn; lia|]. intros y. rewrite (same_has _ _ y S1). apply R3. }
  destruct (less (pq_q p i) _); eexists; (split; [reflexivity|]); apply UNI; [apply down_weak|apply up_weak]; auto; cbn; lia.
Qed.
Lemma top_weak p : pq_len p <> 0 -> exists x, pq_top p = Ok x /\ has p x.
Proof. intros N. unfold pq_top. destruct (Nat.eqb_spec (pq_len p) 0); [lia|]. eexists; split; [reflexivity|]. exists 0; split; auto; lia. Qed.
End WEAK.
Lemma len_has p x : has p x -> pq_len p <> 0. Proof. intros (i & H & _). lia. Qed.
(* the comparison matters only between entries *)
Lemma pq_inv_ext less less' (P P' : Z -> Prop) p : pq_inv less P p -> (forall x, has p x -> P' x) ->
  (forall x y, has p x -> has p y -> less x y = less' x y) -> pq_inv less' P' p.
Proof.
  intros (A & E & H) HP HL. split; [intros i Hi; apply HP; exists i; auto|]. split; auto.
  intros j Hj. unfold le. pose proof (par_lt j ltac:(lia)). rewrite <- HL; [apply H; auto| |]; eexists; (split; [|reflexivity]); lia.
Qed.
