(* Whole histories of ring buffer calls against the abstract queue *)
From Verif Require Import Base BaseLemmas RingModel RingProofs RingSpec.
Open Scope Z_scope.

Lemma nth_ext {A} : forall l1 l2 : list A, (forall i, nth_error l1 i = nth_error l2 i) -> l1 = l2.
Proof.
  induction l1 as [|a l1 IH]; intros [|b l2] H; auto; try (specialize (H 0%nat); discriminate H).
  f_equal; [specialize (H 0%nat); inversion H; auto|]. apply IH. intros i. apply (H (S i)).
Qed.
Lemma d_step junk r op : rb_ok r -> d_proper (rb_nmemb r) (rb_len r) op -> exists r', d_do junk r op = Ok r' /\ rb_ok r' /\
  (rb_nmemb r', rb_len r') = d_cl (rb_nmemb r) (rb_len r) op /\ dstep (rb_nmemb r, view r) op (rb_nmemb r', view r').
Proof.
  intros O P. assert (L0 : 0 <= rb_len r) by (destruct O as [(? & ? & ?)|(k & ? & ? & ? & ?)]; lia).
  assert (LC : rb_len r <= rb_nmemb r) by (destruct O as [(? & ? & ?)|(k & ? & ? & ? & ?)]; lia).
  pose proof (zview_len r L0) as ZV.
  destruct op as [v|v| | |n|n]; cbn [d_proper] in P; cbn [d_do d_cl].
  - destruct (push_front_ok r v O P) as (O' & M & V). eexists. split; [reflexivity|]. split; [exact O'|].
    rewrite M, V. split; [reflexivity|]. destruct (Z.eq_dec (rb_len r) (rb_nmemb r)) as [E|E].
    + destruct (@exists_last _ (view r)) as (l & x & Hl). { intros N. rewrite N, zlen_nil in ZV. lia. }
      rewrite Hl in *. rewrite zlen_app, zlen_cons, zlen_nil in ZV.
      replace (firstn (Z.to_nat (rb_nmemb r)) (v :: l ++ [x])) with (v :: l).
      * apply ds_push_front_full; auto. rewrite zlen_app, zlen_cons, zlen_nil. lia.
      * change (v :: l ++ [x]) with ((v :: l) ++ [x]). replace (Z.to_nat (rb_nmemb r)) with (length (v :: l)).
        -- rewrite firstn_app, Nat.sub_diag, firstn_O, app_nil_r, firstn_all. reflexivity.
        -- unfold zlen in ZV. cbn [length]. lia.
    + rewrite firstn_all2. * apply ds_push_front; auto. rewrite ZV. lia. * unfold zlen in ZV. cbn [length]. lia.
  - destruct (push_back_ok r v O P) as (O' & M & V). eexists. split; [reflexivity|]. split; [exact O'|].
    rewrite M, V. split. { f_equal. unfold rb_push_back. destruct (rb_len r =? rb_nmemb r) eqn:Q; cbn; lia. }
    destruct (rb_len r =? rb_nmemb r) eqn:Q.
    + destruct (view r) as [|x l] eqn:Hv. { rewrite zlen_nil in ZV. lia. } cbn [tl]. apply ds_push_back_full; auto. lia.
    + apply ds_push_back; auto. lia.
  - assert (N : view r <> []) by (intros N; rewrite N, zlen_nil in ZV; lia).
    destruct (pop_front_ok r O N) as (O' & M & V). eexists. split; [reflexivity|]. split; [exact O'|].
    rewrite M, V. split. { f_equal. cbn. rewrite Z.mod_small; auto.
      destruct O as [(? & ? & ?)|(k & ? & HK & ? & ?)]; [lia|]. assert (2 ^ k <= 2 ^ 32) by (apply Z.pow_le_mono_r; lia). change size_max1 with (2 ^ 64).
      assert (2 ^ 32 < 2 ^ 64) by reflexivity. lia. }
    destruct (view r) as [|x l]; [congruence|]. constructor.
  - pose proof (pop_back_ok r O) as H. destruct (rb_pop_back r) as [r'| |] eqn:Q; [|contradiction|].
    + destruct H as (O' & M & N & V). exists r'. split; [reflexivity|]. split; [exact O'|]. rewrite M, V. split.
      * unfold rb_pop_back in Q. destruct (rb_len r =? 0); inversion Q. reflexivity.
      * rewrite (app_removelast_last 0 N) at 1. constructor.
    + rewrite H, zlen_nil in ZV. lia.
  - pose proof (resize_ok r n O (proj1 P)) as H. destruct (rb_resize r n) as [r'| |] eqn:Q; [|contradiction|lia].
    destruct H as (O' & M & L & V). exists r'. split; [reflexivity|]. split; [exact O'|]. rewrite M. split.
    + unfold rb_resize in Q. destruct (rb_nmemb r <? n); inversion Q. reflexivity.
    + assert (F : view r' = firstn (Z.to_nat n) (view r)).
      { apply nth_ext. intros i. destruct (Nat.lt_ge_cases i (Z.to_nat n)) as [I|I].
        - rewrite V by lia. rewrite <- (firstn_skipn (Z.to_nat n) (view r)) at 1. rewrite nth_error_app1; auto.
          rewrite firstn_length. unfold zlen in ZV. lia.
        - rewrite !(proj2 (nth_error_None _ _)); auto. + rewrite firstn_length. lia. + unfold zlen in L. lia. }
      rewrite F. pose proof (ds_truncate (rb_nmemb r) (firstn (Z.to_nat n) (view r)) (skipn (Z.to_nat n) (view r))) as T.
      rewrite firstn_skipn in T. rewrite <- F in T at 1. rewrite L in T. exact T.
  - destruct P as (k & Hk & ->).
    assert (B : 0 <= 2 ^ k < 2 ^ 32) by (split; [lia|apply Z.pow_lt_mono_r; lia]).
    pose proof (reserve_ok junk r (2 ^ k) O B) as H. destruct (rb_reserve junk r (2 ^ k)) as [r'| |] eqn:Q; [|contradiction|exfalso; apply (H k); auto].
    destruct H as (O' & M & V). exists r'. split; [reflexivity|]. split; [exact O'|]. rewrite V, M. split.
    + f_equal. assert (L' : 0 <= rb_len r') by (destruct O' as [(? & ? & ?)|(? & ? & ? & ? & ?)]; lia).
      pose proof (zview_len r' L') as Z'. rewrite V in Z'. lia.
    + constructor.
Qed.
Lemma d_run junk : forall ops r, rb_ok r -> d_use (rb_nmemb r) (rb_len r) ops ->
  exists r', d_all junk r ops = Ok r' /\ rb_ok r' /\ drun (rb_nmemb r, view r) ops (rb_nmemb r', view r').
Proof.
  induction ops as [|op ops IH]; intros r O U.
  - exists r. repeat split; auto. constructor.
  - destruct U as (P & U). destruct (d_step (junk (length (op :: ops))) r op O P) as (r1 & E & O1 & C & S).
    rewrite <- C in U. cbn [fst snd] in U. destruct (IH r1 O1 U) as (r' & E' & O' & R).
    exists r'. split; [|split; auto]. { cbn [d_all]. rewrite E. exact E'. } econstructor; eauto.
Qed.
Theorem d_history junk0 junk n ops : n = 0 \/ pow2 n -> d_use n 0 ops ->
  exists r0 r c l, rb_init junk0 n = Ok r0 /\ d_all junk r0 ops = Ok r /\ drun (n, []) ops (c, l) /\
    rb_len r = zlen l /\ rb_full r = (zlen l =? c) /\ (forall i, 0 <= i -> rb_get r i = match nth_error l (Z.to_nat i) with Some v => Ok v | None => Abort end).
Proof.
  intros N U. assert (I : rb_init junk0 n = Ok (mk_ring junk0 n 0 0)).
  { unfold rb_init. destruct N as [ -> |(k & Hk & ->)]; [reflexivity|]. unfold ispow2.
    assert (X : popcount32 (2 ^ k) = 1).
    { assert (E : In k (map Z.of_nat (seq 0 32))). { apply in_map_iff. exists (Z.to_nat k). rewrite in_seq. lia. }
      cbn [seq map In Z.of_nat] in E. repeat (destruct E as [E|E]; [subst k; reflexivity|]). contradiction. }
    rewrite X. cbn. destruct (negb (2 ^ k =? 0)); reflexivity. }
  assert (O : rb_ok (mk_ring junk0 n 0 0)).
  { destruct N as [ -> |(k & Hk & ->)]; [left; auto|right; exists k; cbn; repeat split; try lia]. }
  destruct (d_run junk ops _ O U) as (r & E & O' & R).
  exists (mk_ring junk0 n 0 0), r, (rb_nmemb r), (view r). assert (L' : 0 <= rb_len r) by (destruct O' as [(? & ? & ?)|(? & ? & ? & ? & ?)]; lia).
  pose proof (zview_len r L'). repeat split; auto.
  - unfold rb_full. congruence.
  - intros i Hi. apply get_ok; auto.
Qed.
Lemma dstep_det s op s1 s2 : dstep s op s1 -> dstep s op s2 -> s1 = s2.
Proof.
  intros A B. inversion A; subst; inversion B; subst; auto;
    try (exfalso; rewrite ?zlen_app, ?zlen_cons, ?zlen_nil in *; lia);
    repeat match goal with H : _ ++ [_] = _ ++ [_] |- _ => apply app_inj_tail in H as [? ?] end; subst; auto.
  f_equal. apply (f_equal (firstn (length l))) in H1. unfold zlen in H. rewrite firstn_app, firstn_app, Nat.sub_diag in H1.
  replace (length l - length l0)%nat with 0%nat in H1 by lia. rewrite !firstn_O, !app_nil_r, firstn_all in H1.
  replace (length l) with (length l0) in H1 by lia. rewrite firstn_all in H1. auto.
Qed.
Lemma drun_det : forall ops s s1 s2, drun s ops s1 -> drun s ops s2 -> s1 = s2.
Proof.
  induction ops as [|op ops IH]; intros s s1 s2 A B; inversion A; subst; inversion B; subst; auto.
  rewrite (dstep_det _ _ _ _ H2 H3) in *. eauto.
Qed.
