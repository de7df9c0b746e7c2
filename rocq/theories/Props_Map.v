(* C52: the map that holds the streams behaves as a finite partial function *)
From Verif Require Import Base MapModel MapSpec MapProofs MapHist.
From Coq Require Import Permutation Lia.
Open Scope Z_scope.

(* Every sequence of calls, starting from nghttp3_map_init, returns (no call loops, asserts or reads
   out of bounds), and its answers are those of the finite partial function. *)
Theorem C52_map : forall ops, Forall op_fine ops ->
  (forall pre k d mem post l m, ops = pre ++ MInsert k d mem :: post ->
     map_run map_init pre = Ok (l, m) -> m_size m < MAP_LIMIT) ->
  exists l m s, map_run map_init ops = Ok (l, m) /\ spec_run [] ops l s.
Proof.
  intros ops F Lim. destruct (run_ok ops map_init [] MI_init) as (l & m & s & R & S & _); auto.
  - cbn [map_init m_bits]. lia.
  - exists l, m, s. auto.
Qed.

(* the specification is a partial function: one entry for a key *)
Theorem C52_one_entry : forall ops l s, spec_run [] ops l s -> NoDup (map fst s).
Proof.
  assert (G : forall s0 ops l s, spec_run s0 ops l s -> NoDup (map fst s0) -> NoDup (map fst s)).
  { intros s0 ops l s R. induction R as [|s o a s1 ops l s2 S R IH]; intros N; [exact N|]. apply IH.
    destruct S; try exact N.
    - cbn [map fst]. constructor; [|exact N]. intros I. apply in_map_iff in I. destruct I as ((k', d') & E & J).
      cbn in E. subst k'. exact (H d' J).
    - apply (Permutation_map fst) in H. apply (Permutation_NoDup H) in N. cbn [map] in N. inversion N; assumption.
    - constructor. }
  intros ops l s R. apply (G [] ops l s R). constructor.
Qed.


Lemma spec_run_app : forall ops1 ops2 s l s', spec_run s (ops1 ++ ops2) l s' ->
  exists l1 l2 s1, l = l1 ++ l2 /\ length l1 = length ops1 /\ spec_run s ops1 l1 s1 /\ spec_run s1 ops2 l2 s'.
Proof.
  induction ops1 as [|o ops1 IH]; intros ops2 s l s' R.
  - exists [], l, s. repeat split; [constructor|exact R].
  - cbn [app] in R. inversion R as [|x1 x2 a s1 x3 l0 x4 S R']; subst. destruct (IH _ _ _ _ R') as (l1 & l2 & s2 & -> & Ln & A & B).
    exists (a :: l1), l2, s2. split; [reflexivity|]. split; [cbn [length]; lia|]. split; [|exact B]. econstructor; eassumption.
Qed.
Lemma app_split : forall (A : Type) (a b c d : list A), a ++ b = c ++ d -> length a = length c -> a = c /\ b = d.
Proof.
  induction a as [|x a IH]; intros b c d E L; destruct c as [|y c]; try discriminate L; [auto|].
  cbn [app] in E. injection E as <- E. cbn [length] in L. injection L as L. destruct (IH b c d E L) as (-> & ->). auto.
Qed.
Definition drops (k : Z) (o : mop) : Prop := o = MRemove k \/ o = MClear.
Definition inserts_key (k : Z) (o : mop) : Prop := exists d mem, o = MInsert k d mem.
Lemma keeps : forall k d ops s l s', spec_run s ops l s' -> In (k, d) s -> (forall o, In o ops -> ~ drops k o) -> In (k, d) s'.
Proof.
  intros k d ops s l s' R. induction R as [|s o a s1 ops l s2 S R IH]; intros I N; [exact I|].
  apply IH; [|intros o' J; apply N; right; exact J]. specialize (N o (or_introl eq_refl)). destruct S; auto.
  - right. exact I.
  - apply (Permutation_in _ H) in I. destruct I as [I|I]; [|exact I]. exfalso. apply N. left. congruence.
  - exfalso. apply N. right. reflexivity.
Qed.
Lemma stays_out : forall k ops s l s', spec_run s ops l s' -> absent k s -> (forall o, In o ops -> ~ inserts_key k o) -> absent k s'.
Proof.
  intros k ops s l s' R. induction R as [|s o a s1 ops l s2 S R IH]; intros I N; [exact I|].
  apply IH; [|intros o' J; apply N; right; exact J]. specialize (N o (or_introl eq_refl)). destruct S; auto.
  - intros d' [X|X]; [|exact (I d' X)]. apply N. exists d, mem. congruence.
  - intros d' X. apply (I d'). eapply Permutation_in; [symmetry; exact H|]. right. exact X.
  - intros d' [].
Qed.
Definition within (ops : list mop) : Prop :=
  Forall op_fine ops /\
  forall pre k d mem post l m, ops = pre ++ MInsert k d mem :: post -> map_run map_init pre = Ok (l, m) -> m_size m < MAP_LIMIT.

(* what has been inserted under a key is found under it until the key is removed: no collision, growth
   of the table, or removal of other keys loses it or replaces it *)
Theorem C52_kept : forall ops1 k d mem ops2 l1 l2 a m,
  within (ops1 ++ MInsert k d mem :: ops2 ++ [MFind k]) ->
  map_run map_init (ops1 ++ MInsert k d mem :: ops2 ++ [MFind k]) = Ok (l1 ++ AnsRv 0 :: l2 ++ [a], m) ->
  length l1 = length ops1 -> length l2 = length ops2 ->
  (forall o, In o ops2 -> ~ drops k o) -> a = AnsData d.
Proof.
  intros ops1 k d mem ops2 l1 l2 a m (F & Lim) R L1 L2 N. destruct (C52_map _ F Lim) as (l & m' & s & R' & S).
  rewrite R in R'. injection R' as <- <-. apply spec_run_app in S. destruct S as (x1 & y & s1 & E & X1 & S1 & S).
  apply app_split in E; [|lia]. destruct E as (<- & <-).
  inversion S as [|z1 z2 a0 s2 z3 z4 z5 Si S2]; subst. apply spec_run_app in S2.
  destruct S2 as (x2 & y & s3 & E & X2 & S2 & S3). apply app_split in E; [|lia]. destruct E as (<- & <-).
  inversion S3 as [|z1 z2 a0 s4 z3 z4 z5 Sf S4]; subst.
  assert (I : In (k, d) s3).
  { apply (keeps k d ops2 s2 l2 s3 S2); [|exact N]. inversion Si; subst; left; reflexivity. }
  assert (ND : NoDup (map fst s3)).
  { apply (C52_one_entry (ops1 ++ MInsert k d mem :: ops2) (l1 ++ AnsRv 0 :: l2)).
    clear -S1 Si S2. revert S1. generalize ([] : fmap). revert l1. induction ops1 as [|o ops1 IH]; intros l1 s0 S1; inversion S1; subst; cbn [app].
    - econstructor; eassumption.
    - econstructor; [eassumption|]. apply IH. assumption. }
  inversion Sf as [| | |k1 d0 Hf|k1 Hf| | | | |]; subst.
  - f_equal. clear -I Hf ND. induction s4 as [|[x y] s IH]; [destruct I|]. cbn [map fst] in ND. inversion ND as [|u v A B]; subst.
    destruct I as [I|I]; destruct Hf as [J|J].
    + congruence.
    + injection I as -> ->. exfalso. apply A. apply in_map_iff. exists (k, d0). auto.
    + injection J as -> ->. exfalso. apply A. apply in_map_iff. exists (k, d). auto.
    + auto.
  - exfalso. exact (Hf d I).
Qed.
(* what has been removed is not found again *)
Theorem C52_gone : forall ops1 k ops2 l1 l2 a m,
  within (ops1 ++ MRemove k :: ops2 ++ [MFind k]) ->
  map_run map_init (ops1 ++ MRemove k :: ops2 ++ [MFind k]) = Ok (l1 ++ AnsRv 0 :: l2 ++ [a], m) ->
  length l1 = length ops1 -> length l2 = length ops2 ->
  (forall o, In o ops2 -> ~ inserts_key k o) -> a = AnsData 0.
Proof.
  intros ops1 k ops2 l1 l2 a m (F & Lim) R L1 L2 N. destruct (C52_map _ F Lim) as (l & m' & s & R' & S).
  rewrite R in R'. injection R' as <- <-. apply spec_run_app in S. destruct S as (x1 & y & s1 & E & X1 & S1 & S).
  apply app_split in E; [|lia]. destruct E as (<- & <-).
  inversion S as [|z1 z2 a0 s2 z3 z4 z5 Si S2]; subst. apply spec_run_app in S2.
  destruct S2 as (x2 & y & s3 & E & X2 & S2 & S3). apply app_split in E; [|lia]. destruct E as (<- & <-).
  inversion S3 as [|z1 z2 a0 s4 z3 z4 z5 Sf S4]; subst.
  assert (I : absent k s3).
  { apply (stays_out k ops2 s2 l2 s3 S2); [|exact N]. inversion Si as [| | | | |? d ? P| | | |]; subst.
    pose proof (C52_one_entry _ _ _ S1) as ND. apply (Permutation_NoDup (Permutation_map fst P)) in ND.
    cbn [map fst] in ND. inversion ND as [|u v A B]; subst. intros d' J. apply A. apply in_map_iff. exists (k, d'). auto. }
  inversion Sf as [| | |k1 d0 Hf|k1 Hf| | | | |]; subst; [|reflexivity]. exfalso. exact (I _ Hf).
Qed.

(* beyond the limit the program's behaviour is undefined: with MAP_LIMIT entries one more insertion
   succeeds, and the one after it shifts a 32-bit 1 by 32 *)
Theorem C52_limit_refuted : forall ops l m k d k' d', within ops -> map_run map_init ops = Ok (l, m) ->
  m_size m = MAP_LIMIT -> d <> 0 -> d' <> 0 -> map_find m k = Ok 0 ->
  map_run map_init (ops ++ [MInsert k d true; MInsert k' d' true]) = Abort.
Proof.
  intros ops l m k d k' d' (F & Lim) R S D D' Fi.
  destruct (run_ok ops map_init [] MI_init) as (l0 & m0 & s & R0 & _ & H & B & P); auto.
  { cbn [map_init m_bits]. lia. }
  rewrite R in R0. injection R0 as <- <-.
  destruct (find_step m k H) as (x & Fx & X). rewrite Fi in Fx. injection Fx as <-.
  destruct X as [X|(_ & X)]; [exfalso; exact (mi_data _ H _ _ X eq_refl)|].
  destruct (beyond m k d k' d' H S B D D' X) as (m' & I1 & I2).
  assert (G : forall ops m0 l m, map_run m0 ops = Ok (l, m) -> map_run m [MInsert k d true; MInsert k' d' true] = Abort ->
              map_run m0 (ops ++ [MInsert k d true; MInsert k' d' true]) = Abort).
  { clear. induction ops as [|o ops IH]; intros m0 l m R A.
    - cbn [map_run] in R. injection R as <- <-. exact A.
    - cbn [app]. cbn [map_run] in R |- *. destruct (map_step m0 o) as [[a m1]|e|]; try discriminate R.
      destruct (map_run m1 ops) as [[l1 m2]|e|] eqn:R1; try discriminate R. injection R as _ <-.
      rewrite (IH m1 l1 m2 R1 A). reflexivity. }
  apply (G ops map_init l m R). cbn [map_run map_step]. rewrite I1, I2. reflexivity.
Qed.

(* fourteen request streams, with growth of the table and collisions, one removed *)
Definition demo_ops : list mop :=
  map (fun i => MInsert (4 * Z.of_nat i) (100 + Z.of_nat i) true) (seq 0 14)
  ++ [MRemove 20; MInsert 8 1 true; MFind 20; MFind 24; MFind 52; MSize; MInsert 20 7 false; MFind 20;
      MEach (fun d => if d =? 1000 then 1 else 0)].
Example C52_applies : within demo_ops /\
  exists v m, map_run map_init demo_ops =
    Ok (repeat (AnsRv 0) 14 ++ [AnsRv 0; AnsRv MAP_EINVAL; AnsData 0; AnsData 106; AnsData 113; AnsSize 13; AnsRv 0; AnsData 7;
                                AnsVisited v 0], m) /\ length v = 14%nat.
Proof.
  split.
  - split.
    + unfold demo_ops. apply Forall_app. split.
      * apply Forall_forall. intros o I. apply in_map_iff in I. destruct I as (i & <- & _). cbn [op_fine]. lia.
      * repeat constructor; cbn [op_fine]; lia.
    + intros pre k d mem post l m E R.
      assert (Pre : In (length pre) (seq 0 24)).
      { apply in_seq. apply (f_equal (@length mop)) in E. rewrite app_length in E. cbn [length] in E.
        change (length demo_ops) with 23%nat in E. lia. }
      assert (Fp : pre = firstn (length pre) demo_ops).
      { rewrite E, firstn_app, Nat.sub_diag, firstn_all. cbn [firstn]. rewrite app_nil_r. reflexivity. }
      assert (All : forallb (fun n => match map_run map_init (firstn n demo_ops) with Ok (_, x) => m_size x <? MAP_LIMIT | _ => false end)
                      (seq 0 24) = true) by (vm_compute; reflexivity).
      rewrite forallb_forall in All. specialize (All _ Pre). rewrite <- Fp, R in All. apply Z.ltb_lt. exact All.
  - eexists _, _. split; [vm_compute; reflexivity|reflexivity].
Qed.

Print Assumptions C52_map.
Print Assumptions C52_one_entry.
Print Assumptions C52_kept.
Print Assumptions C52_gone.
Print Assumptions C52_limit_refuted.
