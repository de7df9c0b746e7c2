(* The ring buffer is a double-ended queue of bounded length *)
From Verif Require Import Base BaseLemmas RingModel.
Open Scope Z_scope.

Lemma popcount_pow2 n : 0 <= n < 2 ^ 32 -> popcount32 n = 1 -> exists k, 0 <= k < 32 /\ n = 2 ^ k.
Proof.
  intros Hn. unfold popcount32.
  assert (G : forall l, let s := fold_right Z.add 0 (map (fun i => if Z.testbit n (Z.of_nat i) then 1 else 0) l) in
    0 <= s /\ (s = 0 -> forall i, In i l -> Z.testbit n (Z.of_nat i) = false) /\
    (s = 1 -> NoDup l -> exists k, In k l /\ Z.testbit n (Z.of_nat k) = true /\ forall i, In i l -> i <> k -> Z.testbit n (Z.of_nat i) = false)).
  { induction l as [|a l (I1 & I2 & I3)]; [cbn; repeat split; try lia; try tauto|]. cbn [map fold_right]. cbv zeta in *.
    destruct (Z.testbit n (Z.of_nat a)) eqn:T; (split; [lia|]).
    - split; [lia|]. intros S ND. exists a. split; [left; auto|]. split; auto. intros i [->|Hi] N; [congruence|]. apply I2; auto. lia.
    - split; [intros S i [->|Hi]; auto; apply I2; auto; lia|]. intros S ND. inversion ND; subst. destruct (I3 ltac:(lia) ltac:(assumption)) as (k & K1 & K2 & K3).
      exists k. split; [right; auto|]. split; auto. intros i [->|Hi] N; auto. }
  intros H. destruct (G (seq 0 32)) as (_ & _ & G3). destruct (G3 H (seq_NoDup _ _)) as (k & K1 & K2 & K3). apply in_seq in K1.
  exists (Z.of_nat k). split; [lia|]. apply Z.bits_inj'. intros i Hi. rewrite Z.pow2_bits_eqb by lia.
  destruct (Z.eqb_spec (Z.of_nat k) i) as [<-|N]; [auto|]. destruct (Z.lt_ge_cases i 32) as [L|L].
  - specialize (K3 (Z.to_nat i)). rewrite Z2Nat.id in K3 by lia. apply K3; [apply in_seq; lia|lia].
  - destruct (Z.eq_dec n 0) as [->|N0]; [apply Z.bits_0|]. apply Z.bits_above_log2; [lia|]. apply Z.log2_lt_pow2; [lia|].
    apply Z.lt_le_trans with (2 ^ 32); [lia|]. apply Z.pow_le_mono_r; lia.
Qed.

Definition rb_ok (r : ring) : Prop :=
  (rb_nmemb r = 0 /\ rb_first r = 0 /\ rb_len r = 0) \/
  (exists k, 0 <= k < 32 /\ rb_nmemb r = 2 ^ k /\ 0 <= rb_first r < rb_nmemb r /\ 0 <= rb_len r <= rb_nmemb r).
Definition slot (r : ring) (i : nat) : Z := rb_buf r (rb_mask r (rb_first r + Z.of_nat i)).
Definition view (r : ring) : list Z := map (slot r) (seq 0 (Z.to_nat (rb_len r))).
Lemma mask_mod r k x : 0 <= k < 32 -> rb_nmemb r = 2 ^ k -> rb_mask r x = x mod rb_nmemb r.
Proof.
  intros K N. unfold rb_mask, size_max1. rewrite N. assert (0 < 2 ^ k) by (apply Z.pow_pos_nonneg; lia). assert (2 ^ k < 2 ^ 64) by (apply Z.pow_lt_mono_r; lia).
  rewrite (Z.mod_small (2 ^ k - 1)) by lia. replace (2 ^ k - 1) with (Z.ones k) by (rewrite Z.ones_equiv; lia). rewrite Z.land_ones by lia.
  symmetry. apply Znumtheory.Zmod_div_mod; try lia. exists (2 ^ (64 - k)). rewrite <- Z.pow_add_r by lia. f_equal. lia.
Qed.
Lemma view_len r : length (view r) = Z.to_nat (rb_len r). Proof. unfold view. rewrite map_length, seq_length. reflexivity. Qed.
Lemma zview_len r : 0 <= rb_len r -> zlen (view r) = rb_len r. Proof. intros. unfold zlen. rewrite view_len. lia. Qed.
Lemma mod_neq a b n : 0 < n -> 0 < a - b < n -> a mod n <> b mod n.
Proof.
  intros Hn H E. assert (K : (a - b) mod n = 0) by (rewrite Zminus_mod, E, Z.sub_diag; apply Z.mod_0_l; lia). rewrite Z.mod_small in K; lia.
Qed.
Lemma mod_eq_add a b n : 0 < n -> (a mod n + b) mod n = (a + b) mod n.
Proof. intros. rewrite Zplus_mod_idemp_l. reflexivity. Qed.
Theorem push_back_ok r v : rb_ok r -> 0 < rb_nmemb r -> rb_ok (rb_push_back r v) /\ rb_nmemb (rb_push_back r v) = rb_nmemb r /\
  view (rb_push_back r v) = (if rb_len r =? rb_nmemb r then tl (view r) else view r) ++ [v].
Proof.
  intros [(? & _)|(k & K & N & F & L)] P; [lia|]. unfold rb_push_back. set (n := rb_nmemb r) in *.
  destruct (Z.eqb_spec (rb_len r) n) as [Q|Q].
  - split; [right; exists k; cbn; rewrite (mask_mod r k) by auto; fold n; repeat split; try lia; apply Z.mod_pos_bound; lia|]. split; [reflexivity|].
    unfold view, slot. cbn [rb_len rb_buf rb_first rb_nmemb]. set (r' := mk_ring _ _ _ _). 
    assert (MM : forall x, rb_mask r' x = x mod n) by (intros; apply (mask_mod r' k); auto).
    assert (M : forall x, rb_mask r x = x mod n) by (intros; apply (mask_mod r k); auto).
    rewrite Q. destruct (Z.to_nat n) as [|m] eqn:ZN; [lia|].
    rewrite seq_S at 1. rewrite map_app. cbn [map Nat.add]. f_equal.
    + cbn [seq map tl]. rewrite <- seq_shift, map_map. apply map_ext_in. intros i Hi. apply in_seq in Hi. unfold rb_set. rewrite !MM, !M, mod_eq_add by lia.
      destruct (Z.eqb_spec ((rb_first r + 1 + Z.of_nat i) mod n) ((rb_first r + n) mod n)) as [E|E]; [|f_equal; f_equal; lia].
      exfalso. symmetry in E. revert E. apply mod_neq; lia.
    + f_equal. unfold rb_set. rewrite !MM, !M, mod_eq_add by lia. replace (rb_first r + 1 + Z.of_nat m) with (rb_first r + n) by lia. rewrite Z.eqb_refl. reflexivity.
  - split; [right; exists k; cbn; fold n; repeat split; lia|]. split; [reflexivity|].
    unfold view, slot. cbn [rb_len rb_buf rb_first rb_nmemb]. set (r' := mk_ring _ _ _ _).
    assert (MM : forall x, rb_mask r' x = x mod n) by (intros; apply (mask_mod r' k); auto).
    assert (M : forall x, rb_mask r x = x mod n) by (intros; apply (mask_mod r k); auto).
    replace (Z.to_nat (rb_len r + 1)) with (S (Z.to_nat (rb_len r))) by lia. rewrite seq_S, map_app. cbn [map Nat.add]. f_equal.
    + apply map_ext_in. intros i Hi. apply in_seq in Hi. unfold rb_set. rewrite !MM, !M. destruct (Z.eqb_spec ((rb_first r + Z.of_nat i) mod n) ((rb_first r + rb_len r) mod n)) as [E|E]; auto.
      exfalso. symmetry in E. revert E. apply mod_neq; lia.
    + f_equal. unfold rb_set. rewrite !MM, !M, Z2Nat.id by lia. rewrite Z.eqb_refl. reflexivity.
Qed.
Theorem push_front_ok r v : rb_ok r -> 0 < rb_nmemb r -> rb_ok (rb_push_front r v) /\ rb_nmemb (rb_push_front r v) = rb_nmemb r /\
  view (rb_push_front r v) = firstn (Z.to_nat (rb_nmemb r)) (v :: view r).
Proof.
  intros [(? & _)|(k & K & N & F & L)] P; [lia|]. unfold rb_push_front. set (n := rb_nmemb r) in *.
  assert (M : forall x, rb_mask r x = x mod n) by (intros; apply (mask_mod r k); auto).
  split; [right; exists k; cbn; rewrite M; fold n; repeat split; try lia; apply Z.mod_pos_bound; lia|]. split; [reflexivity|].
  unfold view, slot. cbn [rb_len rb_buf rb_first rb_nmemb]. set (r' := mk_ring _ _ _ _).
  assert (MM : forall x, rb_mask r' x = x mod n) by (intros; apply (mask_mod r' k); auto).
  assert (LEN : exists m, Z.to_nat (Z.min n (rb_len r + 1)) = S m /\ (m <= Z.to_nat (rb_len r))%nat /\ Z.of_nat m + 1 <= n /\ (Z.to_nat n = S m \/ (Z.to_nat (rb_len r) = m /\ Z.to_nat n > m)%nat)).
  { exists (Z.to_nat (Z.min n (rb_len r + 1) - 1)). lia. }
  destruct LEN as (m & -> & Hm & Hn & D).
  assert (R : firstn (Z.to_nat n) (v :: map (fun i => rb_buf r (rb_mask r (rb_first r + Z.of_nat i))) (seq 0 (Z.to_nat (rb_len r)))) =
    v :: map (fun i => rb_buf r (rb_mask r (rb_first r + Z.of_nat i))) (seq 0 m)).
  { assert (T : forall a b, (a <= b)%nat -> firstn a (seq 0 b) = seq 0 a).
    { intros a b H. replace b with (a + (b - a))%nat by lia. rewrite seq_app, firstn_app, seq_length, Nat.sub_diag, firstn_O, app_nil_r. rewrite firstn_all2; auto. rewrite seq_length. lia. }
    destruct D as [->|[E D]]; [cbn [firstn]; rewrite firstn_map, T by auto; reflexivity|]. rewrite firstn_all2; [rewrite E; reflexivity|]. cbn [length]. rewrite map_length, seq_length. lia. }
  rewrite R. cbn [seq map]. f_equal.
  - unfold rb_set. rewrite !MM, !M, mod_eq_add by lia. rewrite Z.add_0_r, Z.eqb_refl. reflexivity.
  - rewrite <- seq_shift, map_map. apply map_ext_in. intros i Hi. apply in_seq in Hi. unfold rb_set. rewrite !MM, !M, mod_eq_add by lia.
    destruct (Z.eqb_spec ((rb_first r - 1 + Z.of_nat (S i)) mod n) ((rb_first r - 1) mod n)) as [E|E]; [exfalso; revert E; apply mod_neq; lia|]. f_equal. f_equal. lia.
Qed.
Theorem pop_front_ok r : rb_ok r -> view r <> [] -> rb_ok (rb_pop_front r) /\ rb_nmemb (rb_pop_front r) = rb_nmemb r /\ view (rb_pop_front r) = tl (view r).
Proof.
  intros O NE. assert (L0 : 0 < rb_len r) by (destruct (Z.to_nat (rb_len r)) eqn:E; [exfalso; apply NE; unfold view; rewrite E; reflexivity|lia]).
  destruct O as [(? & ? & ?)|(k & K & N & F & L)]; [lia|]. set (n := rb_nmemb r) in *.
  assert (M : forall x, rb_mask r x = x mod n) by (intros; apply (mask_mod r k); auto).
  assert (n < 2 ^ 64) by (rewrite N; apply Z.pow_lt_mono_r; lia).
  assert (LM : (rb_len r - 1) mod size_max1 = rb_len r - 1) by (unfold size_max1; apply Z.mod_small; lia).
  unfold rb_pop_front. rewrite LM, M. split; [right; exists k; cbn; fold n; repeat split; try lia; apply Z.mod_pos_bound; lia|]. split; [reflexivity|].
  unfold view, slot. cbn [rb_len rb_buf rb_first rb_nmemb]. set (r' := mk_ring _ _ _ _).
  assert (MM : forall x, rb_mask r' x = x mod n) by (intros; apply (mask_mod r' k); auto).
  replace (Z.to_nat (rb_len r)) with (S (Z.to_nat (rb_len r - 1))) by (clear - L0; lia). cbn [seq map tl]. rewrite <- seq_shift, map_map. apply map_ext_in. intros i Hi.
  rewrite MM, M, mod_eq_add by lia. f_equal. f_equal. lia.
Qed.
Theorem pop_back_ok r : rb_ok r -> match rb_pop_back r with
  | Ok r' => rb_ok r' /\ rb_nmemb r' = rb_nmemb r /\ view r <> [] /\ view r' = removelast (view r)
  | Err _ => False
  | Abort => view r = [] end.
Proof.
  intros O. unfold rb_pop_back. destruct (Z.eqb_spec (rb_len r) 0) as [Q|Q]; [unfold view; rewrite Q; reflexivity|].
  assert (L0 : 0 < rb_len r) by (destruct O as [(? & ? & ?)|(k & K & N & F & L)]; lia).
  assert (VE : view r = view (mk_ring (rb_buf r) (rb_nmemb r) (rb_first r) (rb_len r - 1)) ++ [slot r (Z.to_nat (rb_len r - 1))]).
  { unfold view. cbn [rb_len]. replace (Z.to_nat (rb_len r)) with (S (Z.to_nat (rb_len r - 1))) by lia. rewrite seq_S, map_app. reflexivity. }
  split; [destruct O as [(? & ? & ?)|(k & K & N & F & L)]; [lia|right; exists k; cbn; repeat split; lia]|]. split; [reflexivity|].
  rewrite VE. split; [intros Q'; exact (app_cons_not_nil _ _ _ (eq_sym Q'))|]. rewrite removelast_app by discriminate. cbn. rewrite app_nil_r. reflexivity.
Qed.
Theorem resize_ok r n : rb_ok r -> 0 <= n -> match rb_resize r n with
  | Ok r' => rb_ok r' /\ rb_nmemb r' = rb_nmemb r /\ zlen (view r') = n /\ (forall i, (i < Z.to_nat (Z.min n (rb_len r)))%nat -> nth_error (view r') i = nth_error (view r) i)
  | Err _ => False
  | Abort => rb_nmemb r < n end.
Proof.
  intros O Hn. unfold rb_resize. destruct (Z.ltb_spec (rb_nmemb r) n); auto.
  split; [destruct O as [(? & ? & ?)|(k & K & N & F & L)]; [left; cbn; lia|right; exists k; cbn; repeat split; lia]|]. split; [reflexivity|].
  split; [rewrite zview_len; cbn; lia|]. intros i Hi. unfold view. cbn [rb_len]. rewrite !nth_error_map.
  rewrite !(nth_error_nth' _ 0%nat) by (rewrite seq_length; lia). rewrite !seq_nth by lia. reflexivity.
Qed.
Theorem get_ok r i : rb_ok r -> 0 <= i -> rb_get r i = match nth_error (view r) (Z.to_nat i) with Some v => Ok v | None => Abort end.
Proof.
  intros O Hi. unfold rb_get. destruct (Z.leb_spec (rb_len r) i) as [L|L].
  - rewrite (proj2 (nth_error_None _ _)); auto. rewrite view_len. lia.
  - unfold view. rewrite nth_error_map, (nth_error_nth' _ 0%nat) by (rewrite seq_length; lia). rewrite seq_nth by lia. cbn. unfold slot. rewrite Z2Nat.id by lia. reflexivity.
Qed.
Theorem reserve_ok junk r n : rb_ok r -> 0 <= n < 2 ^ 32 -> match rb_reserve junk r n with
  | Ok r' => rb_ok r' /\ rb_nmemb r' = Z.max (rb_nmemb r) n /\ view r' = view r
  | Err _ => False
  | Abort => forall k, 0 <= k < 32 -> n <> 2 ^ k end.
Proof.
  intros O Hn. unfold rb_reserve. destruct (Z.leb_spec n (rb_nmemb r)) as [L|L]; [split; auto; split; auto; lia|].
  destruct (ispow2 n) eqn:P; cbn [negb].
  2:{ intros k K ->. unfold ispow2 in P. apply Z.eqb_neq in P. apply P. clear -K.
      assert (C : forallb (fun k => popcount32 (2 ^ Z.of_nat k) =? 1) (seq 0 32) = true) by (vm_compute; reflexivity).
      rewrite forallb_forall in C. specialize (C (Z.to_nat k)). rewrite Z2Nat.id in C by lia. apply Z.eqb_eq. apply C. apply in_seq. lia. }
  unfold ispow2 in P. apply Z.eqb_eq in P. destruct (popcount_pow2 n Hn P) as (k & K & ->).
  assert (P2 : 0 < 2 ^ k) by (apply Z.pow_pos_nonneg; lia).
  destruct (Z.eqb_spec (rb_nmemb r) 0) as [Z0|Z0].
  { destruct O as [(O1 & O2 & O3)|(k' & K' & N' & F' & L')]; [|lia]. split; [right; exists k; cbn; repeat split; lia|]. split; [cbn; lia|]. unfold view. cbn [rb_len]. rewrite O3. reflexivity. }
  destruct O as [(O1 & O2 & O3)|(k' & K' & N' & F' & L')]; [lia|]. set (m := rb_nmemb r) in *.
  assert (M : forall x, rb_mask r x = x mod m) by (intros; apply (mask_mod r k'); auto).
  cbn zeta. set (b := if _ <=? _ then _ else _). split; [right; exists k; cbn; repeat split; lia|]. split; [cbn; lia|].
  unfold view, slot. cbn [rb_len rb_buf rb_first rb_nmemb]. apply map_ext_in. intros i Hi. apply in_seq in Hi.
  rewrite M, (mask_mod (mk_ring b (2 ^ k) 0 (rb_len r)) k) by auto. cbn [rb_nmemb]. rewrite Z.mod_small by lia. unfold b.
  destruct (Z.leb_spec (rb_first r + rb_len r) m) as [S|S]; unfold rb_copy.
  - rewrite (proj2 (Z.leb_le _ _)), (proj2 (Z.ltb_lt _ _)) by lia. cbn [andb]. rewrite Z.mod_small by lia. f_equal. lia.
  - destruct (Z.lt_ge_cases (Z.of_nat i) (m - rb_first r)) as [H|H].
    + destruct (Z.leb_spec (m - rb_first r) (0 + Z.of_nat i)); [lia|]. cbn [andb]. rewrite (proj2 (Z.leb_le _ _)), (proj2 (Z.ltb_lt _ _)) by lia. cbn [andb]. rewrite Z.mod_small by lia. f_equal. lia.
    + rewrite (proj2 (Z.leb_le _ _)), (proj2 (Z.ltb_lt _ _)) by lia. cbn [andb]. replace ((rb_first r + Z.of_nat i) mod m) with (rb_first r + Z.of_nat i - m); [f_equal; lia|].
      replace (rb_first r + Z.of_nat i) with ((rb_first r + Z.of_nat i - m) + 1 * m) at 2 by lia. rewrite Z_mod_plus_full. symmetry. apply Z.mod_small. lia.
Qed.
