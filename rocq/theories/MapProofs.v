(* Proofs about the hash map model. *)
From Verif Require Import Base MapModel MapSpec.
From Coq Require Import Permutation Lia.
Open Scope Z_scope.

(* ---- circular arithmetic ---- *)
Lemma mod_small' : forall a L, 0 <= a < L -> a mod L = a.
Proof. intros. apply Z.mod_small. lia. Qed.
Lemma next_mod : forall bits i, 0 <= bits -> next_idx bits i = (i + 1) mod tlen bits.
Proof.
  intros bits i B. unfold next_idx, tlen. replace (2 ^ bits - 1) with (Z.ones bits) by (rewrite Z.ones_equiv; lia).
  apply Z.land_ones; lia.
Qed.
Lemma hash_range : forall k bits, 1 <= bits <= 32 -> 0 <= hash k bits < tlen bits.
Proof.
  intros k bits B. unfold hash, tlen. rewrite Z.shiftr_div_pow2 by lia.
  pose proof (Z.mod_pos_bound (k * 11400714819323198485) (2 ^ 64) ltac:(lia)) as M.
  split; [apply Z.div_pos; [lia|apply Z.pow_pos_nonneg; lia]|].
  apply Z.div_lt_upper_bound; [apply Z.pow_pos_nonneg; lia|].
  rewrite <- Z.pow_add_r by lia. replace (64 - bits + bits) with 64 by lia. lia.
Qed.

Section Table.
Variables (L bits : Z).
Hypothesis HL : L = tlen bits.
Hypothesis Hb : 4 <= bits <= 31.

Lemma L_pos : 16 <= L <= 2 ^ 31.
Proof.
  rewrite HL. unfold tlen. split.
  - change 16 with (2 ^ 4). apply Z.pow_le_mono_r; lia.
  - apply Z.pow_le_mono_r; lia.
Qed.
Definition home (k : Z) : Z := hash k bits.
Lemma home_range : forall k, 0 <= home k < L.
Proof. intros k. rewrite HL. apply hash_range. lia. Qed.
Definition nx (i : Z) : Z := (i + 1) mod L.
Lemma nx_eq : forall i, next_idx bits i = nx i.
Proof. intros. rewrite next_mod by lia. rewrite <- HL. reflexivity. Qed.
Lemma nx_range : forall i, 0 <= nx i < L.
Proof. intros. apply Z.mod_pos_bound. pose proof L_pos. lia. Qed.
Lemma nx_cases : forall i, 0 <= i < L -> nx i = i + 1 /\ i + 1 < L \/ nx i = 0 /\ i = L - 1.
Proof.
  intros i R. unfold nx. destruct (Z.eq_dec (i + 1) L) as [E|E].
  - right. rewrite E, Z.mod_same by lia. lia.
  - left. rewrite mod_small' by lia. lia.
Qed.
Lemma nx_inj : forall i j, 0 <= i < L -> 0 <= j < L -> nx i = nx j -> i = j.
Proof. intros i j A B E. destruct (nx_cases i A) as [[X Y]|[X Y]]; destruct (nx_cases j B) as [[P Q]|[P Q]]; lia. Qed.
Lemma nx_neq : forall i, 0 <= i < L -> nx i <> i.
Proof. intros i A. pose proof L_pos. destruct (nx_cases i A) as [[X Y]|[X Y]]; lia. Qed.
Lemma nx_neq2 : forall i, 0 <= i < L -> nx (nx i) <> i.
Proof.
  intros i A. pose proof L_pos. destruct (nx_cases i A) as [[X Y]|[X Y]]; rewrite X.
  - destruct (nx_cases (i + 1) ltac:(lia)) as [[P Q]|[P Q]]; lia.
  - destruct (nx_cases 0 ltac:(lia)) as [[P Q]|[P Q]]; lia.
Qed.
Definition dist (e i : Z) : Z := (e - i) mod L.
Lemma dist_range : forall e i, 0 <= dist e i < L.
Proof. intros. apply Z.mod_pos_bound. pose proof L_pos. lia. Qed.
Lemma dist_cases : forall e i, 0 <= e < L -> 0 <= i < L -> i <= e /\ dist e i = e - i \/ e < i /\ dist e i = e - i + L.
Proof.
  intros e i A B. unfold dist. destruct (Z_le_dec i e).
  - left. rewrite mod_small' by lia. lia.
  - right. rewrite <- (Z.mod_add _ 1) by lia. rewrite mod_small' by lia. lia.
Qed.
Lemma dist_nx : forall e i, 0 <= e < L -> 0 <= i < L -> i <> e -> dist e (nx i) = dist e i - 1.
Proof.
  intros e i A B N. pose proof (nx_range i) as R.
  destruct (nx_cases i B) as [[X Y]|[X Y]]; destruct (dist_cases e i A B) as [[P Q]|[P Q]];
    destruct (dist_cases e (nx i) A R) as [[S T]|[S T]]; lia.
Qed.
Lemma dist_inj : forall e i j, 0 <= e < L -> 0 <= i < L -> 0 <= j < L -> dist e i = dist e j -> i = j.
Proof.
  intros e i j A B C E.
  destruct (dist_cases e i A B) as [[P Q]|[P Q]]; destruct (dist_cases e j A C) as [[S T]|[S T]]; lia.
Qed.
(* the place at distance j behind i *)
Definition back (i j : Z) : Z := (i - j) mod L.
Lemma back_range : forall i j, 0 <= back i j < L.
Proof. intros. apply Z.mod_pos_bound. pose proof L_pos. lia. Qed.
Lemma nx_back : forall i j, nx (back i (j + 1)) = back i j.
Proof.
  intros. unfold nx, back. rewrite Zplus_mod_idemp_l. f_equal. lia.
Qed.
Lemma back_0 : forall i, 0 <= i < L -> back i 0 = i.
Proof. intros. unfold back. rewrite Z.sub_0_r. apply mod_small'. lia. Qed.
Lemma back_home : forall k p j, back ((home k + p) mod L) j = (home k + (p - j)) mod L.
Proof. intros. unfold back. rewrite Zminus_mod_idemp_l. f_equal. lia. Qed.

(* ---- the invariant of a table ---- *)
Definition I1 (t : Z -> option bkt) : Prop :=
  forall i b, 0 <= i < L -> t i = Some b -> 0 <= psl b /\ i = (home (key b) + psl b) mod L.
Definition I2 (t : Z -> option bkt) : Prop :=
  forall i b, 0 <= i < L -> t (nx i) = Some b -> 0 < psl b -> exists c, t i = Some c /\ psl b - 1 <= psl c.
Definition ents (t : Z -> option bkt) : list bkt := buckets_upto t (Z.to_nat L).
Definition kd (b : bkt) : Z * Z := (key b, data b).
Definition keys (t : Z -> option bkt) : list Z := map key (ents t).

Lemma in_upto : forall t n b, In b (buckets_upto t n) <-> exists i, 0 <= i < Z.of_nat n /\ t i = Some b.
Proof.
  intros t n b. induction n as [|n IH].
  - split; [intros []|]. intros (i & R & _). lia.
  - cbn [buckets_upto]. rewrite in_app_iff, IH. split.
    + intros [(i & R & E)|H]; [exists i; split; [lia|exact E]|].
      destruct (t (Z.of_nat n)) as [c|] eqn:E; [|destruct H].
      destruct H as [<-|[]]. exists (Z.of_nat n). split; [lia|exact E].
    + intros (i & R & E). destruct (Z.eq_dec i (Z.of_nat n)) as [->|N].
      * right. rewrite E. left. reflexivity.
      * left. exists i. split; [lia|exact E].
Qed.
Lemma in_ents : forall t b, In b (ents t) <-> exists i, 0 <= i < L /\ t i = Some b.
Proof. intros. unfold ents. rewrite in_upto. pose proof L_pos. rewrite Z2Nat.id by lia. reflexivity. Qed.

Definition opt {A} (o : option A) : list A := match o with Some a => [a] | None => [] end.
Lemma upto_tset_out : forall t i v n, Z.of_nat n <= i -> buckets_upto (tset t i v) n = buckets_upto t n.
Proof.
  intros t i v n. induction n as [|n IH]; intros R; [reflexivity|]. cbn [buckets_upto].
  rewrite IH by lia. unfold tset at 1. destruct (Z.eqb_spec (Z.of_nat n) i); [lia|reflexivity].
Qed.
Lemma upto_tset : forall t i v n, 0 <= i < Z.of_nat n ->
  Permutation (opt (t i) ++ buckets_upto (tset t i v) n) (opt v ++ buckets_upto t n).
Proof.
  intros t i v n. induction n as [|n IH]; intros R; [lia|]. cbn [buckets_upto].
  destruct (Z.eq_dec i (Z.of_nat n)) as [E|E].
  - rewrite upto_tset_out by lia. unfold tset at 1. rewrite E, Z.eqb_refl.
    change (match v with Some b => [b] | None => [] end) with (opt v).
    change (match t (Z.of_nat n) with Some b => [b] | None => [] end) with (opt (t (Z.of_nat n))).
    rewrite (app_assoc (opt v)).
    etransitivity; [apply Permutation_app_comm|].
    apply Permutation_app_tail. apply Permutation_app_comm.
  - unfold tset at 2. destruct (Z.eqb_spec (Z.of_nat n) i); [lia|].
    rewrite !app_assoc. apply Permutation_app_tail. apply IH. lia.
Qed.
Lemma ents_tset : forall t i v, 0 <= i < L -> Permutation (opt (t i) ++ ents (tset t i v)) (opt v ++ ents t).
Proof. intros. apply upto_tset. pose proof L_pos. rewrite Z2Nat.id by lia. assumption. Qed.
Lemma ents_put : forall t i b, 0 <= i < L -> t i = None -> Permutation (ents (tset t i (Some b))) (b :: ents t).
Proof. intros t i b R E. pose proof (ents_tset t i (Some b) R) as P. rewrite E in P. exact P. Qed.
Lemma ents_del : forall t i b, 0 <= i < L -> t i = Some b -> Permutation (b :: ents (tset t i None)) (ents t).
Proof. intros t i b R E. pose proof (ents_tset t i None R) as P. rewrite E in P. exact P. Qed.

Lemma free_upto : forall t n, Z.of_nat (length (buckets_upto t n)) < Z.of_nat n -> exists e, 0 <= e < Z.of_nat n /\ t e = None.
Proof.
  intros t n. induction n as [|n IH]; intros H; [cbn in H; lia|]. cbn [buckets_upto] in H. rewrite app_length in H.
  destruct (t (Z.of_nat n)) as [b|] eqn:E.
  - cbn [length] in H. destruct IH as (e & R & F); [lia|]. exists e. split; [lia|exact F].
  - exists (Z.of_nat n). split; [lia|exact E].
Qed.
Lemma free_cell : forall t, Z.of_nat (length (ents t)) < L -> exists e, 0 <= e < L /\ t e = None.
Proof.
  intros t H. pose proof L_pos. destruct (free_upto t (Z.to_nat L)) as (e & R & E).
  - unfold ents in H. rewrite (Z2Nat.id L) by lia. exact H.
  - exists e. rewrite (Z2Nat.id L) in R by lia. auto.
Qed.

(* a key is in one place only *)
Lemma upto_keys : forall t n i j b c, NoDup (map key (buckets_upto t n)) -> 0 <= i < Z.of_nat n -> 0 <= j < Z.of_nat n ->
  t i = Some b -> t j = Some c -> key b = key c -> i = j.
Proof.
  intros t n. induction n as [|n IH]; intros i j b c N Ri Rj A B K; [lia|].
  cbn [buckets_upto] in N. rewrite map_app in N.
  destruct (Z.eq_dec i (Z.of_nat n)) as [Ei|Ei]; destruct (Z.eq_dec j (Z.of_nat n)) as [Ej|Ej].
  - lia.
  - subst i. rewrite A in N. cbn [map] in N. apply NoDup_remove_2 in N. rewrite app_nil_r in N.
    exfalso. apply N. rewrite K. apply in_map. apply in_upto. exists j. split; [lia|exact B].
  - subst j. rewrite B in N. cbn [map] in N. apply NoDup_remove_2 in N. rewrite app_nil_r in N.
    exfalso. apply N. rewrite <- K. apply in_map. apply in_upto. exists i. split; [lia|exact A].
  - apply (IH i j b c); try assumption; try lia.
    destruct (t (Z.of_nat n)); cbn [map] in N; [|rewrite app_nil_r in N; exact N].
    apply NoDup_remove_1 in N. rewrite app_nil_r in N. exact N.
Qed.
Lemma keys_inj : forall t i j b c, NoDup (keys t) -> 0 <= i < L -> 0 <= j < L ->
  t i = Some b -> t j = Some c -> key b = key c -> i = j.
Proof.
  intros t i j b c N Ri Rj. pose proof L_pos. apply (upto_keys t (Z.to_nat L) i j b c N); rewrite Z2Nat.id by lia; assumption.
Qed.

(* walking back from an occupied bucket *)
Lemma walk_back : forall t i b, I2 t -> 0 <= i < L -> t i = Some b ->
  forall j, 0 <= j -> j <= psl b -> exists c, t (back i j) = Some c /\ psl b - j <= psl c.
Proof.
  intros t i b H R E j J. pattern j. apply natlike_ind; [| |exact J].
  - intros _. exists b. rewrite back_0 by exact R. split; [exact E|lia].
  - intros x Hx IH Lx. destruct IH as (c & C & P); [lia|].
    rewrite <- nx_back in C. destruct (H (back i (x + 1)) c (back_range _ _) C ltac:(lia)) as (c' & C' & P').
    exists c'. split; [exact C'|lia].
Qed.
Lemma psl_lt : forall t e i b, I2 t -> 0 <= e < L -> t e = None -> 0 <= i < L -> t i = Some b -> psl b < L.
Proof.
  intros t e i b H Re E R B. destruct (Z_lt_dec (psl b) L) as [X|X]; [exact X|exfalso].
  pose proof (Z.mod_pos_bound (i - e) L ltac:(lia)) as M.
  destruct (walk_back t i b H R B ((i - e) mod L) ltac:(lia) ltac:(lia)) as (c & C & _).
  unfold back in C. rewrite Zminus_mod_idemp_r in C. replace (i - (i - e)) with e in C by lia.
  rewrite mod_small' in C by lia. congruence.
Qed.

(* ---- looking a key up ---- *)
Lemma seek_ok : forall fuel t e k j, I1 t -> I2 t -> 0 <= e < L -> t e = None -> 0 <= j ->
  dist e ((home k + j) mod L) < Z.of_nat fuel ->
  match seek fuel t bits k ((home k + j) mod L) j with
  | Ok (Some i) => 0 <= i < L /\ exists b, t i = Some b /\ key b = k
  | Ok None => forall i b, 0 <= i < L -> t i = Some b -> key b = k -> psl b < j
  | _ => False
  end.
Proof.
  induction fuel as [|f IH]; intros t e k j H1 H2 Re E J D.
  { pose proof (dist_range e ((home k + j) mod L)). lia. }
  cbn [seek]. set (idx := (home k + j) mod L) in *.
  assert (Ri : 0 <= idx < L) by (apply Z.mod_pos_bound; pose proof L_pos; lia).
  assert (Way : forall i b, 0 <= i < L -> t i = Some b -> key b = k -> j <= psl b -> exists c, t idx = Some c /\ j <= psl c).
  { intros i b R B K P. destruct (H1 i b R B) as (P0 & I).
    destruct (walk_back t i b H2 R B (psl b - j) ltac:(lia) ltac:(lia)) as (c & C & Q).
    rewrite I, K, back_home in C. replace (psl b - (psl b - j)) with j in C by lia.
    exists c. split; [exact C|lia]. }
  destruct (t idx) as [c|] eqn:Ec.
  - destruct (Z.gtb_spec j (psl c)) as [G|G].
    + intros i b R B K. destruct (Z_lt_dec (psl b) j) as [X|X]; [exact X|].
      destruct (Way i b R B K ltac:(lia)) as (c' & C' & P'). inversion C'; subst c'. lia.
    + destruct (Z.eqb_spec (key c) k) as [K|K].
      * split; [exact Ri|]. exists c. auto.
      * rewrite nx_eq. assert (N : nx idx = (home k + (j + 1)) mod L).
        { unfold nx, idx. rewrite Zplus_mod_idemp_l. f_equal. lia. }
        assert (NE : idx <> e) by (intros ->; congruence).
        rewrite N. pose proof (IH t e k (j + 1) H1 H2 Re E ltac:(lia)) as S. rewrite <- N in S |- *.
        rewrite (dist_nx e idx Re Ri NE) in S. specialize (S ltac:(lia)).
        destruct (seek f t bits k (nx idx) (j + 1)) as [[i|]|x|]; try exact S.
        intros i b R B Kb. specialize (S i b R B Kb). destruct (Z.eq_dec (psl b) j) as [Pj|Pj]; [exfalso|lia].
        destruct (H1 i b R B) as (_ & I). rewrite Kb, Pj in I. fold idx in I. subst i. congruence.
  - intros i b R B K. destruct (Z_lt_dec (psl b) j) as [X|X]; [exact X|].
    destruct (Way i b R B K ltac:(lia)) as (c & C & _). discriminate C.
Qed.

(* ---- insertion ---- *)
Record float (t : Z -> option bkt) (idx : Z) (b : bkt) : Prop := mk_float {
  fl_r : 0 <= idx < L;
  fl_0 : 0 <= psl b;
  fl_i : idx = (home (key b) + psl b) mod L;
  fl_p : forall i, 0 <= i < L -> nx i = idx -> 0 < psl b -> exists c, t i = Some c /\ psl b - 1 <= psl c }.

Lemma float_far : forall t e idx b, I2 t -> 0 <= e < L -> t e = None -> float t idx b -> psl (farther b) = psl b + 1.
Proof.
  intros t e idx b H Re E F. unfold farther. cbn [psl]. apply mod_small'. pose proof L_pos. pose proof (fl_0 _ _ _ F).
  split; [lia|]. destruct (Z_le_dec (psl b) 0); [lia|].
  assert (B : nx (back idx 1) = idx).
  { change 1 with (0 + 1). rewrite nx_back. apply back_0. apply (fl_r _ _ _ F). }
  destruct (fl_p _ _ _ F (back idx 1) (back_range _ _) B ltac:(lia)) as (c & C & P).
  pose proof (psl_lt t e _ c H Re E (back_range idx 1) C). lia.
Qed.
Lemma nodup_perm : forall (A : Type) (l l' : list A), Permutation l l' -> NoDup l -> NoDup l'.
Proof. intros A l l' P N. eapply Permutation_NoDup; eassumption. Qed.

Lemma loop_ok : forall fuel t e k0 idx b, I1 t -> I2 t -> 0 <= e < L -> t e = None -> float t idx b ->
  NoDup (key b :: keys t) ->
  (forall i c, 0 <= i < L -> t i = Some c -> key c = k0 -> dist e idx < dist e i) ->
  dist e idx < Z.of_nat fuel ->
  exists t', insert_loop fuel t bits k0 idx b = Ok t' /\ I1 t' /\ I2 t' /\
             Permutation (map kd (ents t')) (kd b :: map kd (ents t)).
Proof.
  induction fuel as [|f IH]; intros t e k0 idx b H1 H2 Re E F N Away D.
  { pose proof (dist_range e idx). lia. }
  destruct F as [Ri P0 Hi Hp] eqn:EF. cbn [insert_loop]. destruct (t idx) as [c|] eqn:Ec.
  - assert (NE : idx <> e) by (intros ->; congruence).
    pose proof (dist_nx e idx Re Ri NE) as DN. destruct (H1 idx c Ri Ec) as (C0 & Ci).
    destruct (Z.gtb_spec (psl b) (psl c)) as [G|G].
    + (* swap *)
      set (t' := tset t idx (Some b)).
      assert (T1 : t' idx = Some b) by (unfold t', tset; rewrite Z.eqb_refl; reflexivity).
      assert (T2 : forall i, i <> idx -> t' i = t i).
      { intros i X. unfold t', tset. destruct (Z.eqb_spec i idx); [congruence|reflexivity]. }
      assert (J1 : I1 t').
      { intros i x R X. destruct (Z.eq_dec i idx) as [->|Y].
        - rewrite T1 in X. injection X as <-. auto.
        - rewrite T2 in X by exact Y. apply H1; assumption. }
      assert (J2 : I2 t').
      { intros i x R X Px. destruct (Z.eq_dec (nx i) idx) as [Y|Y].
        - rewrite Y, T1 in X. injection X as <-. destruct (Hp i R Y Px) as (z & Z1 & Z2). exists z. split; [|exact Z2].
          rewrite T2; [exact Z1|]. intros W. rewrite W in Y. exact (nx_neq idx Ri Y).
        - rewrite T2 in X by exact Y. destruct (H2 i x R X Px) as (z & Z1 & Z2).
          destruct (Z.eq_dec i idx) as [W|W].
          + subst i. exists b. split; [exact T1|]. rewrite Ec in Z1. injection Z1 as <-. lia.
          + exists z. rewrite T2 by exact W. auto. }
      assert (E' : t' e = None) by (rewrite T2; [exact E|congruence]).
      assert (Fc : float t idx c).
      { split; try assumption. intros i R Y Px. destruct (H2 i c R) as (z & Z1 & Z2); [rewrite Y; exact Ec|exact Px|].
        exists z. auto. }
      pose proof (float_far t e idx c H2 Re E Fc) as FF.
      assert (Pm : Permutation (c :: ents t') (b :: ents t)).
      { pose proof (ents_tset t idx (Some b) Ri) as P. rewrite Ec in P. exact P. }
      assert (F' : float t' (nx idx) (farther c)).
      { split.
        - apply nx_range.
        - rewrite FF. lia.
        - rewrite FF. unfold farther; cbn [key]. unfold nx. rewrite Ci at 1. rewrite Zplus_mod_idemp_l. f_equal. lia.
        - intros i R Y Px. apply nx_inj in Y; [|exact R|exact Ri]. subst i. exists b. split; [exact T1|]. rewrite FF. lia. }
      destruct (IH t' e k0 (nx idx) (farther c) J1 J2 Re E' F') as (t'' & A & B1 & B2 & B3).
      * change (key (farther c)) with (key c). unfold keys.
        apply (nodup_perm _ (map key (b :: ents t))); [|exact N].
        change (key c :: map key (ents t')) with (map key (c :: ents t')).
        apply Permutation_map. symmetry. exact Pm.
      * intros i x R X K. rewrite DN. destruct (Z.eq_dec i idx) as [->|Y]; [lia|].
        rewrite T2 in X by exact Y. pose proof (Away i x R X K). lia.
      * lia.
      * rewrite nx_eq. exists t''. split; [exact A|]. split; [exact B1|]. split; [exact B2|].
        rewrite B3. change (kd (farther c)) with (kd c).
        change (kd c :: map kd (ents t')) with (map kd (c :: ents t')).
        change (kd b :: map kd (ents t)) with (map kd (b :: ents t)).
        apply Permutation_map. exact Pm.
    + destruct (Z.eqb_spec (key c) k0) as [K|K].
      { pose proof (Away idx c Ri Ec K). lia. }
      assert (FF : psl (farther b) = psl b + 1).
      { apply (float_far t e idx b H2 Re E). split; assumption. }
      destruct (IH t e k0 (nx idx) (farther b) H1 H2 Re E) as (t'' & A & B1 & B2 & B3).
      * split.
        -- apply nx_range.
        -- rewrite FF. lia.
        -- rewrite FF. unfold farther; cbn [key]. unfold nx. rewrite Hi at 1. rewrite Zplus_mod_idemp_l. f_equal. lia.
        -- intros i R Y Px. apply nx_inj in Y; [|exact R|exact Ri]. subst i. exists c. split; [exact Ec|]. rewrite FF. lia.
      * exact N.
      * intros i x R X Kx. rewrite DN. pose proof (Away i x R X Kx). lia.
      * lia.
      * rewrite nx_eq. exists t''. auto.
  - exists (tset t idx (Some b)). split; [reflexivity|].
    assert (T1 : tset t idx (Some b) idx = Some b) by (unfold tset; rewrite Z.eqb_refl; reflexivity).
    assert (T2 : forall i, i <> idx -> tset t idx (Some b) i = t i).
    { intros i X. unfold tset. destruct (Z.eqb_spec i idx); [congruence|reflexivity]. }
    split; [|split].
    + intros i x R X. destruct (Z.eq_dec i idx) as [->|Y].
      * rewrite T1 in X. injection X as <-. auto.
      * rewrite T2 in X by exact Y. apply H1; assumption.
    + intros i x R X Px. destruct (Z.eq_dec (nx i) idx) as [Y|Y].
      * rewrite Y, T1 in X. injection X as <-. destruct (Hp i R Y Px) as (z & Z1 & Z2). exists z. split; [|exact Z2].
        rewrite T2; [exact Z1|]. intros W. rewrite W in Y. exact (nx_neq idx Ri Y).
      * rewrite T2 in X by exact Y. destruct (H2 i x R X Px) as (z & Z1 & Z2). exists z. split; [|exact Z2].
        rewrite T2; [exact Z1|]. congruence.
    + change (kd b :: map kd (ents t)) with (map kd (b :: ents t)). apply Permutation_map. apply ents_put; assumption.
Qed.

Lemma fuel_ok : forall e i, dist e i < Z.of_nat (Z.to_nat (tlen bits)).
Proof. intros. rewrite <- HL. pose proof (dist_range e i). rewrite Z2Nat.id by lia. lia. Qed.

Lemma insert_new : forall t k d, I1 t -> I2 t -> NoDup (keys t) -> Z.of_nat (length (ents t)) < L -> ~ In k (keys t) ->
  exists t', insert t bits k d = Ok t' /\ I1 t' /\ I2 t' /\ Permutation (map kd (ents t')) ((k, d) :: map kd (ents t)).
Proof.
  intros t k d H1 H2 N Sz A. destruct (free_cell t Sz) as (e & Re & E).
  apply (loop_ok _ t e k (hash k bits) (mk_bkt 0 k d) H1 H2 Re E).
  - split; cbn [psl key].
    + apply home_range.
    + lia.
    + rewrite Z.add_0_r. symmetry. apply mod_small'. apply home_range.
    + lia.
  - cbn [key]. constructor; assumption.
  - intros i c R C K. exfalso. apply A. rewrite <- K. apply in_map. apply in_ents. exists i. auto.
  - apply fuel_ok.
Qed.

Lemma loop_dup : forall fuel t e i0 b0 j d, I1 t -> I2 t -> NoDup (keys t) -> 0 <= e < L -> t e = None ->
  0 <= i0 < L -> t i0 = Some b0 -> 0 <= j <= psl b0 ->
  dist e ((home (key b0) + j) mod L) < Z.of_nat fuel ->
  insert_loop fuel t bits (key b0) ((home (key b0) + j) mod L) (mk_bkt j (key b0) d) = Err MAP_EINVAL.
Proof.
  induction fuel as [|f IH]; intros t e i0 b0 j d H1 H2 N Re E R0 B0 J D.
  { pose proof (dist_range e ((home (key b0) + j) mod L)). lia. }
  cbn [insert_loop]. set (idx := (home (key b0) + j) mod L) in *.
  assert (Ri : 0 <= idx < L) by (apply Z.mod_pos_bound; pose proof L_pos; lia).
  destruct (H1 i0 b0 R0 B0) as (P0 & I0).
  destruct (walk_back t i0 b0 H2 R0 B0 (psl b0 - j) ltac:(lia) ltac:(lia)) as (c & C & Q).
  rewrite I0, back_home in C. replace (psl b0 - (psl b0 - j)) with j in C by lia. fold idx in C.
  rewrite C. cbn [psl]. destruct (Z.gtb_spec j (psl c)) as [G|G]; [lia|].
  destruct (Z.eqb_spec (key c) (key b0)) as [K|K]; [reflexivity|].
  assert (J' : j < psl b0).
  { destruct (Z.eq_dec j (psl b0)) as [X|X]; [|lia]. exfalso. apply K.
    assert (i0 = idx) by (rewrite I0; unfold idx; rewrite X; reflexivity). congruence. }
  assert (NE : idx <> e) by (intros X; rewrite X in C; congruence).
  rewrite nx_eq. replace (nx idx) with ((home (key b0) + (j + 1)) mod L).
  2:{ unfold nx, idx. rewrite Zplus_mod_idemp_l. f_equal. lia. }
  unfold farther. cbn [psl key data]. pose proof (psl_lt t e i0 b0 H2 Re E R0 B0). pose proof L_pos.
  rewrite (mod_small' (j + 1) (2 ^ 32)) by lia.
  apply (IH t e i0 b0 (j + 1) d); try assumption; [lia|].
  replace ((home (key b0) + (j + 1)) mod L) with (nx idx).
  2:{ unfold nx, idx. rewrite Zplus_mod_idemp_l. f_equal. lia. }
  rewrite (dist_nx e idx Re Ri NE). lia.
Qed.
Lemma insert_dup : forall t k d, I1 t -> I2 t -> NoDup (keys t) -> Z.of_nat (length (ents t)) < L -> In k (keys t) ->
  insert t bits k d = Err MAP_EINVAL.
Proof.
  intros t k d H1 H2 N Sz A. destruct (free_cell t Sz) as (e & Re & E).
  apply in_map_iff in A. destruct A as (b0 & <- & A). apply in_ents in A. destruct A as (i0 & R0 & B0).
  unfold insert. destruct (H1 i0 b0 R0 B0) as (P0 & _).
  replace (hash (key b0) bits) with ((home (key b0) + 0) mod L).
  2:{ rewrite Z.add_0_r. apply mod_small'. apply home_range. }
  apply (loop_dup _ t e i0 b0 0 d H1 H2 N Re E R0 B0); [lia|apply fuel_ok].
Qed.

Lemma empty_I1 : I1 no_tab. Proof. intros i b R X. discriminate X. Qed.
Lemma empty_I2 : I2 no_tab. Proof. intros i b R X. discriminate X. Qed.
Lemma empty_upto : forall n, buckets_upto no_tab n = [].
Proof. induction n as [|n IH]; [reflexivity|]. cbn [buckets_upto]. rewrite IH. reflexivity. Qed.

Lemma map_fst_kd : forall l, map fst (map kd l) = map key l.
Proof. intros l. rewrite map_map. reflexivity. Qed.
Lemma reinsert_ok : forall l t, I1 t -> I2 t -> NoDup (map key l ++ keys t) ->
  Z.of_nat (length l + length (ents t)) <= L ->
  exists t', reinsert t bits l = Ok t' /\ I1 t' /\ I2 t' /\ Permutation (map kd (ents t')) (map kd l ++ map kd (ents t)).
Proof.
  induction l as [|b l IH]; intros t H1 H2 N Sz.
  - exists t. cbn [reinsert map app]. auto.
  - cbn [reinsert]. cbn [map app] in N. inversion N as [|x y Nb N']; subst x y. cbn [length] in Sz.
    destruct (insert_new t (key b) (data b) H1 H2) as (t' & A & B1 & B2 & B3).
    + clear -N'. induction l as [|x l IHl]; [exact N'|]. cbn [map app] in N'. inversion N'; auto.
    + lia.
    + intros X. apply Nb. apply in_or_app. right. exact X.
    + rewrite A. assert (Pk : Permutation (keys t') (key b :: keys t)).
      { unfold keys. rewrite <- !map_fst_kd. rewrite B3. cbn [map fst]. reflexivity. }
      destruct (IH t' B1 B2) as (t'' & A' & C1 & C2 & C3).
      * eapply nodup_perm; [|exact N]. rewrite Pk. apply Permutation_middle.
      * pose proof (Permutation_length B3) as Ln. cbn [length] in Ln. rewrite !map_length in Ln. lia.
      * exists t''. split; [exact A'|]. split; [exact C1|]. split; [exact C2|].
        rewrite C3, B3. cbn [map app]. symmetry. change (kd b) with (key b, data b). apply Permutation_middle.
Qed.

(* ---- removal ---- *)
(* [h] is the hole, whose bucket had the distance [q] *)
Record hole (t : Z -> option bkt) (h q : Z) : Prop := mk_hole {
  ho_r : 0 <= h < L;
  ho_q : 0 <= q;
  ho_1 : forall i b, 0 <= i < L -> i <> h -> t i = Some b -> 0 <= psl b /\ i = (home (key b) + psl b) mod L;
  ho_2 : forall i b, 0 <= i < L -> i <> h -> nx i <> h -> t (nx i) = Some b -> 0 < psl b -> exists c, t i = Some c /\ psl b - 1 <= psl c;
  ho_pre : forall i, 0 <= i < L -> nx i = h -> 0 < q -> exists c, t i = Some c /\ q - 1 <= psl c;
  ho_post : forall b, t (nx h) = Some b -> 0 < psl b -> psl b - 1 <= q;
  ho_h : t h <> None }.

Lemma shift_ok : forall fuel t e h q, hole t h q -> 0 <= e < L -> t e = None ->
  dist e (nx h) < Z.of_nat fuel ->
  exists t', shift_back fuel t bits h (nx h) = Ok t' /\ I1 t' /\ I2 t' /\
             Permutation (map kd (ents t')) (map kd (ents (tset t h None))).
Proof.
  induction fuel as [|f IH]; intros t e h q H Re E D.
  { pose proof (dist_range e (nx h)). lia. }
  destruct H as [Rh Hq H1 H2 Hpre Hpost Hh]. cbn [shift_back]. set (idx := nx h) in *.
  assert (Ri : 0 <= idx < L) by apply nx_range.
  assert (Nih : idx <> h) by (apply nx_neq; exact Rh).
  assert (Stop : (forall c, t idx = Some c -> psl c = 0) ->
          I1 (tset t h None) /\ I2 (tset t h None)).
  { intros S. split.
    - intros i b R B. unfold tset in B. destruct (Z.eqb_spec i h) as [X|X]; [discriminate B|]. apply H1; assumption.
    - intros i b R B P. unfold tset in *. destruct (Z.eqb_spec (nx i) h) as [X|X]; [discriminate B|].
      destruct (Z.eqb_spec i h) as [Y|Y].
      + subst i. specialize (S b B). lia.
      + apply H2; assumption. }
  destruct (t idx) as [c|] eqn:Ec.
  - destruct (Z.eqb_spec (psl c) 0) as [Z0|Z0].
    + exists (tset t h None). split; [reflexivity|]. destruct (Stop) as (S1 & S2); [intros x X; congruence|].
      split; [exact S1|]. split; [exact S2|reflexivity].
    + destruct (H1 idx c Ri Nih Ec) as (C0 & Ci).
      assert (Cq : psl c - 1 <= q) by (apply Hpost; [reflexivity|lia]).
      set (c' := mk_bkt (psl c - 1) (key c) (data c)).
      set (t' := tset (tset t idx (Some c')) h (Some c')).
      assert (T1 : t' h = Some c') by (unfold t', tset; rewrite Z.eqb_refl; reflexivity).
      assert (T2 : t' idx = Some c').
      { unfold t', tset. destruct (Z.eqb_spec idx h); [congruence|]. rewrite Z.eqb_refl. reflexivity. }
      assert (T3 : forall i, i <> h -> i <> idx -> t' i = t i).
      { intros i X Y. unfold t', tset. destruct (Z.eqb_spec i h); [congruence|]. destruct (Z.eqb_spec i idx); [congruence|reflexivity]. }
      assert (NE : idx <> e) by congruence.
      assert (NEh : h <> e) by congruence.
      assert (Ch : h = (home (key c) + (psl c - 1)) mod L).
      { assert (X : nx h = nx ((home (key c) + (psl c - 1)) mod L)).
        { fold idx. rewrite Ci at 1. unfold nx. rewrite Zplus_mod_idemp_l. f_equal. lia. }
        apply nx_inj in X; [exact X|exact Rh|apply Z.mod_pos_bound; lia]. }
      assert (H' : hole t' idx (psl c)).
      { split; try assumption.
        - intros i b R X B. destruct (Z.eq_dec i h) as [Y|Y].
          + subst i. rewrite T1 in B. injection B as <-. unfold c'. cbn [psl key]. split; [lia|exact Ch].
          + rewrite T3 in B by assumption. apply H1; assumption.
        - intros i b R X Y B P. destruct (Z.eq_dec i h) as [W|W]; [subst i; contradiction Y; reflexivity|].
          destruct (Z.eq_dec (nx i) h) as [V|V].
          + rewrite V, T1 in B. injection B as <-. unfold c' in P |- *. cbn [psl] in P |- *.
            destruct (Hpre i R V ltac:(lia)) as (z & Z1 & Z2). exists z. rewrite T3 by assumption. split; [exact Z1|lia].
          + rewrite T3 in B by assumption. destruct (H2 i b R W V B P) as (z & Z1 & Z2). exists z.
            rewrite T3 by assumption. auto.
        - intros i R Y P. apply nx_inj in Y; [|exact R|exact Rh]. subst i. exists c'. split; [exact T1|]. unfold c'; cbn [psl]. lia.
        - intros b B P. assert (nx idx <> idx) by (apply nx_neq; exact Ri). assert (nx idx <> h) by (apply nx_neq2; exact Rh).
          rewrite T3 in B by assumption. destruct (H2 idx b Ri Nih ltac:(assumption) B P) as (z & Z1 & Z2). congruence.
        - congruence. }
      destruct (IH t' e idx (psl c) H' Re) as (t'' & A & B1 & B2 & B3).
      * rewrite T3; [exact E|congruence|congruence].
      * rewrite (dist_nx e idx Re Ri NE). lia.
      * rewrite nx_eq. exists t''. split; [exact A|]. split; [exact B1|]. split; [exact B2|]. rewrite B3.
        (* contents *)
        assert (Pa : Permutation (c' :: ents (tset t' idx None)) (ents t')) by (apply ents_del; [exact Ri|exact T2]).
        assert (Pb : Permutation (c :: ents (tset t idx None)) (ents t)) by (apply ents_del; assumption).
        destruct (t h) as [x|] eqn:Eh; [|congruence].
        assert (Pc : Permutation (x :: ents (tset t h None)) (ents t)) by (apply ents_del; assumption).
        pose proof (ents_tset t idx (Some c') Ri) as Pd. rewrite Ec in Pd. cbn [opt app] in Pd.
        pose proof (ents_tset (tset t idx (Some c')) h (Some c') Rh) as Pe.
        replace (tset t idx (Some c') h) with (Some x) in Pe.
        2:{ unfold tset. destruct (Z.eqb_spec h idx); [congruence|symmetry; exact Eh]. }
        cbn [opt app] in Pe. fold t' in Pe.
        (* x :: ents t' ~ c' :: ents t1 ; c :: ents t1 ~ c' :: ents t *)
        apply (Permutation_map kd) in Pa, Pc, Pd, Pe. cbn [map] in Pa, Pc, Pd, Pe.
        change (kd c') with (kd c) in *.
        apply Permutation_cons_inv in Pd.
        assert (Pf : Permutation (kd x :: kd c :: map kd (ents (tset t' idx None))) (kd x :: kd c :: map kd (ents (tset t h None)))).
        { rewrite Pa, Pe, Pd. rewrite <- Pc. apply perm_swap. }
        apply Permutation_cons_inv in Pf. apply Permutation_cons_inv in Pf. exact Pf.
  - exists (tset t h None). split; [reflexivity|]. destruct Stop as (S1 & S2); [intros x X; discriminate X|].
    split; [exact S1|]. split; [exact S2|reflexivity].
Qed.

Lemma remove_ok : forall t i b, I1 t -> I2 t -> Z.of_nat (length (ents t)) < L -> 0 <= i < L -> t i = Some b ->
  exists t', shift_back (Z.to_nat (tlen bits)) t bits i (next_idx bits i) = Ok t' /\ I1 t' /\ I2 t' /\
             Permutation (map kd (ents t)) (kd b :: map kd (ents t')).
Proof.
  intros t i b H1 H2 Sz R B. destruct (free_cell t Sz) as (e & Re & E). rewrite nx_eq.
  destruct (H1 i b R B) as (P0 & _).
  destruct (shift_ok (Z.to_nat (tlen bits)) t e i (psl b)) as (t' & A & C1 & C2 & C3); try assumption.
  - split; try assumption.
    + intros j c Rj _ C. apply H1; assumption.
    + intros j c Rj _ _ C P. apply H2; assumption.
    + intros j Rj Nj P. apply (H2 j b Rj); [rewrite Nj; exact B|exact P].
    + intros c C P. destruct (H2 i c R C P) as (z & Z1 & Z2). congruence.
    + congruence.
  - apply fuel_ok.
  - exists t'. split; [exact A|]. split; [exact C1|]. split; [exact C2|]. rewrite C3.
    symmetry. apply (Permutation_map kd) with (l := b :: ents (tset t i None)). apply ents_del; assumption.
Qed.
End Table.
