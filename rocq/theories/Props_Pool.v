(* C57: object pools *)
From Verif Require Import Base PoolModel PoolSpec PoolProofs.
Import ListNotations.
Open Scope Z_scope.

(* No assertion fails, whatever was asked for, released and stored before *)
Theorem C57_no_abort c w o : fitting c -> pool_reach c w -> proper c w o ->
  exists w' obj l, pool_step c w o = Ok (w', obj, l).
Proof.
  intros FT R P. destruct (preach_inv c FT w R) as [F I]. destruct o as [fresh|x|x f|e]; cbn [proper] in P.
  - destruct (get_inv c FT w F fresh I P) as (w1 & o1 & F1 & E1 & _). eauto.
  - destruct (release_inv c FT w F x I P) as (w1 & E1 & _). eauto.
  - destruct (use_inv c FT w F x f I P) as (w1 & E1 & _). eauto.
  - destruct (clear_inv c w F e I) as (w1 & E1 & _). eauto.
Qed.

(* An object handed out lies, aligned, in memory that malloc has given, and has no byte in common
   with any object in use; none is handed out only when malloc fails *)
Theorem C57_get c w fresh w' obj l : fitting c -> pool_reach c w -> from_malloc c w fresh ->
  pool_step c w (PGet fresh) = Ok (w', obj, l) ->
  (obj = 0 -> fresh = 0) /\
  (obj <> 0 -> 0 < obj /\ in_block c w' obj /\
     forall x, In x (w_live w) -> apart obj (c_size c) x (c_size c)).
Proof.
  intros FT R M E. destruct (preach_inv c FT w R) as [F I].
  destruct (get_inv c FT w F fresh I M) as (w1 & o1 & F1 & E1 & I1 & H & Z0).
  rewrite E in E1. injection E1 as <- <- _. split; [exact Z0|]. intros N.
  destruct H as [[H _] | (_ & HL & HA)]; [contradiction|].
  destruct (v_obj _ _ _ I1 obj) as [P1 P2].
  { apply in_or_app. right. rewrite HL. left. reflexivity. }
  auto.
Qed.

(* At all times the objects in use are pairwise apart and inside malloc's blocks *)
Theorem C57_live c w : fitting c -> pool_reach c w ->
  NoDup (w_live w) /\
  (forall x, In x (w_live w) -> in_block c w x) /\
  (forall x y, In x (w_live w) -> In y (w_live w) -> x <> y -> apart x (c_size c) y (c_size c)).
Proof.
  intros FT R. destruct (preach_inv c FT w R) as [F I].
  assert (S : forall x, In x (w_live w) -> In x (F ++ w_live w)) by (intros; apply in_or_app; auto).
  split; [|split].
  - pose proof (v_nodup _ _ _ I) as ND. clear - ND. induction F as [|y F IH]; [exact ND|].
    cbn [List.app] in ND. inversion ND; subst. auto.
  - intros x Hx. apply (v_obj _ _ _ I x (S x Hx)).
  - intros x y Hx Hy. apply (v_apart _ _ _ I); auto.
Qed.

(* Clearing gives back every block that malloc has given, each exactly once *)
Theorem C57_clear c w e : fitting c -> pool_reach c w ->
  exists w', pool_step c w (PClear e) = Ok (w', 0, w_blocks w) /\ NoDup (w_blocks w) /\
    w_blocks w' = [] /\ w_live w' = [].
Proof.
  intros FT R. destruct (preach_inv c FT w R) as [F I].
  destruct (clear_inv c w F e I) as (w1 & E1 & _ & H1 & H2). exists w1.
  split; [exact E1|]. split; [apply (v_bnodup _ _ _ I)|]. auto.
Qed.

(* Two objects of 24 bytes per block; the first is released while the second is in use and filled
   with anything; it comes back, then a second block is taken *)
Definition small : cfg := mk_cfg 24 8 64.
Definition pgo (o : pop) (w : world) : world :=
  match pool_step small w o with Ok (w', _, _) => w' | _ => w end.
Definition w0 : world :=
  match pool_init small 5 (fun _ => 77) with Ok p => mk_world p [] [] | _ => mk_world (mk_pool 0 0 0 0 (fun _ => 0)) [] [] end.
Definition w1 := pgo (PGet 1000) w0.
Definition w2 := pgo (PGet 0) w1.
Definition w3 := pgo (PRelease 1008) w2.
Definition w4 := pgo (PUse 1040 (fun _ => 1040)) w3.
Definition w5 := pgo (PGet 0) w4.
Definition w6 := pgo (PGet 2000) w5.
Example C57_shape : fitting small /\
  w_live w2 = [1040; 1008] /\ w_live w4 = [1040] /\ w_live w5 = [1008; 1040] /\
  w_live w6 = [2016; 1008; 1040] /\ w_blocks w6 = [2000; 1000].
Proof. split; [unfold fitting, small; cbn; lia|]. repeat split; vm_compute; reflexivity. Qed.
Example C57_reached : pool_reach small w6.
Proof.
  assert (R0 : pool_reach small w0).
  { unfold w0. eapply pool_start with (e := 5) (m := fun _ => 77). reflexivity. }
  assert (R1 : pool_reach small w1).
  { eapply pool_next with (o := PGet 1000); [exact R0| |reflexivity].
    right. split; [lia|]. split; [reflexivity|]. intros b []. }
  assert (R2 : pool_reach small w2).
  { eapply pool_next with (o := PGet 0); [exact R1|left; reflexivity|reflexivity]. }
  assert (R3 : pool_reach small w3).
  { eapply pool_next with (o := PRelease 1008); [exact R2|vm_compute; auto|reflexivity]. }
  assert (R4 : pool_reach small w4).
  { eapply pool_next with (o := PUse 1040 (fun _ => 1040)); [exact R3|vm_compute; auto|reflexivity]. }
  assert (R5 : pool_reach small w5).
  { eapply pool_next with (o := PGet 0); [exact R4|left; reflexivity|reflexivity]. }
  eapply pool_next with (o := PGet 2000); [exact R5| |reflexivity].
  right. split; [lia|]. split; [reflexivity|]. intros b H. vm_compute in H.
  destruct H as [<- | []]. unfold apart, block_size, hd_size, small. cbn. lia.
Qed.

Print Assumptions C57_no_abort.
Print Assumptions C57_get.
Print Assumptions C57_live.
Print Assumptions C57_clear.
