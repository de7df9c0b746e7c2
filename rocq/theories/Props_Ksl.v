(* C53: the ordered index (nghttp3_ksl) behaves as a sorted sequence of entries *)
From Verif Require Import Base KslModel KslSpec KslProofs KslHist.
From Coq Require Import Lia Sorted.
Open Scope nat_scope.

(* Every sequence of calls, starting from nghttp3_ksl_init, returns (no assertion fails, nothing is read
   or written outside a block, however the blocks split, merge and exchange nodes); the answers are those
   of the sorted sequence, and the entries seen by walking from the begin iterator are that sequence. *)
Theorem C53_ksl : forall (K D : Type) (lt : K -> K -> bool), order K lt -> forall ops, legal K D lt ops ->
  exists r s, krun K D lt (ksl_init K D) ops = Ok (r, s) /\ s_run K D lt [] ops r (seen K D s).
Proof.
  intros K D lt Ord ops Lg. destruct (reach_ok K D lt Ord ops Lg) as (r & s & E & W & R). exists r, s. split; [exact E|].
  rewrite (wf_seen K D lt s W). exact R.
Qed.

(* the entries are in strictly increasing order of their keys, so no key is there twice *)
Theorem C53_sorted : forall (K D : Type) (lt : K -> K -> bool), order K lt -> forall ops, legal K D lt ops ->
  forall r s, krun K D lt (ksl_init K D) ops = Ok (r, s) -> sorted K D lt (seen K D s).
Proof.
  intros K D lt Ord ops Lg r s E. destruct (reach_ok K D lt Ord ops Lg) as (r' & s' & E' & W & _). rewrite E in E'. injection E' as <- <-.
  rewrite (wf_seen K D lt s W). pose proof (wf_sorted K D lt Ord s W) as S. intros a x b y c Ec. rewrite Ec in S. clear -S.
  induction a as [|z a IH]; cbn [app] in S; inversion S as [|u v S1 F]; subst; [|exact (IH S1)].
  rewrite Forall_forall in F. apply F. apply in_or_app. right. left. reflexivity.
Qed.

(* a key is found by nghttp3_ksl_lower_bound if and only if it is there, and what follows the
   returned iterator is every entry whose key is not smaller *)
Theorem C53_lower_bound : forall (K D : Type) (lt : K -> K -> bool), order K lt -> forall ops q, legal K D lt ops ->
  exists r s before after, krun K D lt (ksl_init K D) (ops ++ [KLower (fun k => lt k q)]) = Ok (r ++ [AnsIt 0 after], s) /\
    seen K D s = before ++ after /\ (forall x, In x before -> lt (fst x) q = true) /\ (forall x, In x after -> lt (fst x) q = false) /\
    (present K D lt q (seen K D s) <-> exists x t, after = x :: t /\ same K lt (fst x) q).
Proof.
  intros K D lt Ord ops q Lg. destruct (reach_ok K D lt Ord ops Lg) as (r & s & E & W & R).
  destruct (lower_bound_ok K D lt Ord s (fun k => lt k q) W) as (it & El & St).
  { intros x y L P. destruct (proj2 (proj2 Ord) y x q P) as [A|A]; [congruence|exact A]. }
  inversion St as [| | | | | |p s1 s2 Es P1 P2 Ep Ea| | |]; subst.
  exists r, s, s1, (rest K D s it). rewrite (wf_seen K D lt s W). split; [|split; [exact Es|split; [exact P1|split; [exact P2|]]]].
  - clear -E El. revert r E. generalize (ksl_init K D). induction ops as [|o ops IH]; intros s0 r E.
    + cbn [krun app] in *. injection E as <- <-. cbn [kstep]. rewrite El. reflexivity.
    + cbn [app krun] in *. destruct (kstep K D lt s0 o) as [[a s1]| |]; [|discriminate E|discriminate E].
      destruct (krun K D lt s1 ops) as [[l s2]| |] eqn:Er; [|discriminate E|discriminate E]. injection E as <- <-.
      rewrite (IH s1 l Er). reflexivity.
  - pose proof (wf_sorted K D lt Ord s W) as Srt. rewrite Es in *. split.
    + intros (x & I & X1 & X2). apply in_app_or in I. destruct I as [I|I]; [specialize (P1 x I); congruence|].
      destruct (rest K D s it) as [|y t]; [destruct I|]. exists y, t. split; [reflexivity|].
      assert (Y : lt (fst y) q = false) by (apply (P2 y); left; reflexivity). split; [exact Y|]. destruct I as [->|I]; [exact X2|].
      destruct (lt q (fst y)) eqn:Q; [|reflexivity]. rewrite <- X2. symmetry. apply (proj1 (proj2 Ord) q (fst y) (fst x) Q).
      clear -Srt I. induction s1 as [|z s1 IH]; cbn [app] in Srt; inversion Srt as [|u v S1 F]; subst; [|exact (IH S1)].
      rewrite Forall_forall in F. apply F. exact I.
    + intros (x & t & Et & Sx). exists x. split; [|exact Sx]. rewrite Et. apply in_or_app. right. left. reflexivity.
Qed.

(* iterators: the n-th one shows the n-th entry, ends exactly after the last entry, and steps backwards *)
Theorem C53_iterators : forall (K D : Type) (lt : K -> K -> bool), order K lt -> forall ops, legal K D lt ops ->
  forall r s, krun K D lt (ksl_init K D) ops = Ok (r, s) -> forall n, n <= length (seen K D s) ->
  it_end K D s (nth_it K D s n) = (n =? length (seen K D s)) /\
  it_begin K D s (nth_it K D s n) = (n =? 0) /\
  (forall x, nth_error (seen K D s) n = Some x -> it_node K D s (nth_it K D s n) = Ok x) /\
  (forall m, n = S m -> it_prev K D s (nth_it K D s n) = Ok (nth_it K D s m)) /\
  (n = length (seen K D s) -> nth_it K D s n = ksl_end K D s).
Proof.
  intros K D lt Ord ops Lg r s E n L. destruct (reach_ok K D lt Ord ops Lg) as (r' & s' & E' & W & _). rewrite E in E'. injection E' as <- <-.
  rewrite (wf_seen K D lt s W) in *. pose proof (wf_fine K D lt s W) as F. rewrite (nth_it_place K D lt s n W L). split; [|split; [|split; [|split]]].
  - apply end_place; assumption.
  - destruct (Nat.eqb_spec n 0) as [->|N]; [rewrite begin_place by exact F; reflexivity|].
    destruct (it_begin K D s (place K D (k_leaves K D s) n)) eqn:B; [|reflexivity]. exfalso. apply N. apply (begin_iff K D _ n F L).
    unfold it_begin in B. apply andb_true_iff in B. destruct B as (B1 & B2). apply Nat.eqb_eq in B1, B2.
    destruct (place K D (k_leaves K D s) n) as [a b]. cbn [fst snd] in *. congruence.
  - intros x Nx. apply node_place. exact Nx.
  - intros m ->. rewrite (nth_it_place K D lt s m W) by lia. apply prev_place; [exact F|exact L].
  - intros ->. symmetry. apply ksl_end_place.
Qed.

(* ---- nghttp3's keys ---- *)
Definition zlt (x y : Z) : bool := (x <? y)%Z.
Lemma zlt_order : order Z zlt.
Proof.
  unfold zlt. split; [intros x; apply Z.ltb_irrefl|]. split.
  - intros x y z A B. apply Z.ltb_lt in A, B. apply Z.ltb_lt. lia.
  - intros x y z A. apply Z.ltb_lt in A. destruct (Z.ltb_spec x y); [left; reflexivity|right; apply Z.ltb_lt; lia].
Qed.
(* nghttp3_ksl_range_compar, lib/nghttp3_ksl.c:810-814: ranges by their begin; nghttp3_ksl_uint64_less, :838-841, is zlt
   on values of that type, nghttp3_ksl_int64_greater, :851-854, its converse *)
Definition range_lt (x y : Z * Z) : bool := (fst x <? fst y)%Z.
Lemma range_order : order (Z * Z) range_lt.
Proof. destruct zlt_order as (A & B & C). split; [intros x; apply A|]. split; [intros x y z; apply B|intros x y z; apply C]. Qed.
Definition zgt (x y : Z) : bool := (y <? x)%Z.
Lemma zgt_order : order Z zgt.
Proof.
  destruct zlt_order as (A & B & C). split; [exact A|]. split; [intros x y z P Q; apply (B z y x); assumption|].
  intros x y z P. destruct (C z y x P); auto.
Qed.
Theorem C53_keys : order Z zlt /\ order Z zgt /\ order (Z * Z) range_lt.
Proof. split; [exact zlt_order|]. split; [exact zgt_order|exact range_order]. Qed.

(* ---- the limits ---- *)
Definition up (a n : nat) : list (kop Z Z) := map (fun i => KInsert (Z.of_nat i * 10)%Z (Z.of_nat i)) (seq a n).
(* nghttp3_ksl_update_key asks only that the new key is greater than the previous one and smaller than the
   next one.  A key that is lowered within these bounds can become impossible to find or to remove. *)
Theorem C53_update_key_refuted : exists ops old new r s,
  krun Z Z zlt (ksl_init Z Z) ops = Ok (r, s) /\
  (exists s1 p x n s2, seen Z Z s = s1 ++ p :: x :: n :: s2 /\ same Z zlt (fst x) old /\ zlt (fst p) new = true /\ zlt new (fst n) = true) /\
  exists r' s', krun Z Z zlt (ksl_init Z Z) (ops ++ [KUpdate old new; KRemove new]) = Ok (r' ++ [AnsIt (-101) []], s') /\ present Z Z zlt new (seen Z Z s').
Proof.
  exists (up 0 32 ++ [KInsert 1%Z 0%Z; KRemove 150%Z]), 160%Z, 145%Z.
  destruct (krun Z Z zlt (ksl_init Z Z) (up 0 32 ++ [KInsert 1%Z 0%Z; KRemove 150%Z])) as [[r s]| |] eqn:E; [|vm_compute in E; discriminate E|vm_compute in E; discriminate E].
  exists r, s. split; [reflexivity|].
  assert (Es : seen Z Z s = ((0%Z, 0%Z) :: (1%Z, 0%Z) :: map (fun i => ((Z.of_nat i * 10)%Z, Z.of_nat i)) (seq 1 13)) ++ (140%Z, 14%Z) :: (160%Z, 16%Z) :: (170%Z, 17%Z) :: map (fun i => ((Z.of_nat i * 10)%Z, Z.of_nat i)) (seq 18 14)).
  { vm_compute in E. injection E as <- <-. vm_compute. reflexivity. }
  split; [eexists _, _, _, _, _; split; [exact Es|split; [split; reflexivity|split; reflexivity]]|].
  exists (r ++ [AnsVoid]). eexists. split; [vm_compute in E; injection E as <- <-; vm_compute; reflexivity|].
  exists (145%Z, 16%Z). split; [vm_compute; tauto|split; reflexivity].
Qed.
(* nghttp3_ksl_remove assigns the end iterator when the key is not there - except in an index that has
   no entry since it was set up or cleared: then it assigns nothing *)
Theorem C53_remove_iterator_refuted : exists q s, krun Z Z zlt (ksl_init Z Z) [KRemove q] = Ok ([AnsNoIt (-101)], s).
Proof. exists 0%Z. eexists. reflexivity. Qed.

(* ---- non-vacuity: the index grows to three levels of blocks and shrinks again ---- *)
Definition free (o : kop Z Z) : Prop := match o with KInsert _ _ | KRemove _ | KLen | KClear => True | _ => False end.
Lemma legal_free : forall ops, Forall free ops -> legal Z Z zlt ops.
Proof.
  intros ops F pre o post r l -> _. apply Forall_app in F. destruct F as (_ & F). inversion F as [|? ? F1 _]; subst. destruct o; try destruct F1; exact Logic.I.
Qed.
Definition big : list (kop Z Z) := up 0 300 ++ map (fun i => KInsert (Z.of_nat i * 10 + 5)%Z 0%Z) (rev (seq 0 300)) ++ map (fun i => KRemove (Z.of_nat i * 10)%Z) (seq 0 280).
Definition final (ops : list (kop Z Z)) : nat * nat :=
  match krun Z Z zlt (ksl_init Z Z) ops with
  | Ok (_, s) => (length (seen Z Z s), match k_head Z Z s with Some (existT _ h _) => h | None => 0 end)
  | _ => (0, 0)
  end.
Example C53_applies : legal Z Z zlt big /\ final big = (320, 1).
Proof.
  split; [|vm_compute; reflexivity].
  apply legal_free. unfold big, up. rewrite !Forall_app. repeat split; apply Forall_forall; intros x I; apply in_map_iff in I; destruct I as (y & <- & _); exact Logic.I.
Qed.
(* a legal history with the operations that have conditions *)
Example C53_applies_update : legal Z Z zlt [KInsert 5%Z 1%Z; KInsert 9%Z 2%Z; KUpdate 5%Z 7%Z; KRemoveHint 1; KLower (fun k => zlt k 8%Z)] /\
  final [KInsert 5%Z 1%Z; KInsert 9%Z 2%Z; KUpdate 5%Z 7%Z; KRemoveHint 1; KLower (fun k => zlt k 8%Z)] = (1, 0).
Proof.
  split; [|vm_compute; reflexivity].
  assert (D1 : forall l a l1, s_step Z Z zlt [] (KInsert 5%Z 1%Z) a l1 -> l = l1 -> l1 = [(5%Z, 1%Z)]).
  { intros l a l1 S _. inversion S as [q d s1 s2 E _ _|q d P| | | | | | | |]; subst; [destruct s1; [destruct s2; [reflexivity|discriminate E]|discriminate E]|].
    destruct P as (x & [] & _). }
  assert (D2 : forall a l1, s_step Z Z zlt [(5%Z, 1%Z)] (KInsert 9%Z 2%Z) a l1 -> l1 = [(5%Z, 1%Z); (9%Z, 2%Z)]).
  { intros a l1 S. inversion S as [q d s1 s2 E A B|q d P| | | | | | | |]; subst.
    - destruct s1 as [|x s1]; cbn [app] in E.
      + subst s2. specialize (B (5%Z, 1%Z) (or_introl eq_refl)). discriminate B.
      + injection E as <- E. symmetry in E. apply app_eq_nil in E. destruct E as (-> & ->). reflexivity.
    - destruct P as (x & [<-|[]] & P1 & _). discriminate P1. }
  assert (D3 : forall a l1, s_step Z Z zlt [(5%Z, 1%Z); (9%Z, 2%Z)] (KUpdate 5%Z 7%Z) a l1 -> length l1 = 2).
  { intros a l1 S. inversion S as [| | | | | | |o n s1 x s2 E _| |]; subst. apply (f_equal (@length _)) in E. rewrite app_length in *. cbn [length] in *. lia. }
  intros pre o post r l E R.
  destruct pre as [|o1 pre]; [injection E as <- _; exact Logic.I|]. injection E as <- E. inversion R as [|? ? a1 l1 ? r1 ? S1 R1]; subst.
  rewrite (D1 l1 a1 l1 S1 eq_refl) in R1.
  destruct pre as [|o2 pre]; [injection E as <- _; exact Logic.I|]. injection E as <- E. inversion R1 as [|? ? a2 l2 ? r2 ? S2 R2]; subst.
  rewrite (D2 a2 l2 S2) in R2.
  destruct pre as [|o3 pre].
  { injection E as <- _. inversion R2; subst. split; [reflexivity|]. exists [], (5%Z, 1%Z), [(9%Z, 2%Z)]. split; [reflexivity|]. split; [split; reflexivity|].
    intros y [<-|[]]. reflexivity. }
  injection E as <- E. inversion R2 as [|? ? a3 l3 ? r3 ? S3 R3]; subst. pose proof (D3 a3 l3 S3) as L3.
  destruct pre as [|o4 pre]; [injection E as <- _; inversion R3; subst; cbn [op_ok]; lia|]. injection E as <- E.
  destruct pre as [|o5 pre]; [|destruct pre; discriminate E]. injection E as <- _. cbn [op_ok]. unfold zlt. intros x y A B. apply Z.ltb_ge in A. apply Z.ltb_lt in B. apply Z.ltb_lt. lia.
Qed.
Print Assumptions C53_ksl.
Print Assumptions C53_sorted.
Print Assumptions C53_lower_bound.
Print Assumptions C53_iterators.
Print Assumptions C53_keys.
Print Assumptions C53_update_key_refuted.
Print Assumptions C53_remove_iterator_refuted.
