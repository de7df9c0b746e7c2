From Verif Require Import Base PoolModel PoolSpec.
Import ListNotations.
Open Scope Z_scope.

Fixpoint chain (off : Z) (m : Z -> Z) (a : Z) (l : list Z) : Prop :=
  match l with [] => a = 0 | x :: r => a = x + off /\ chain off m (m a) r end.
Lemma chain_ext off m m' l : forall a, (forall x, In x l -> m' (x + off) = m (x + off)) ->
  chain off m a l -> chain off m' a l.
Proof.
  induction l as [|x l IH]; intros a H C; cbn [chain] in *; auto. destruct C as [-> C].
  split; auto. rewrite H by (cbn; auto). apply IH; auto. intros y Hy. apply H. cbn; auto.
Qed.
Lemma chain_set off m a v l b : ~ In (b - off) l -> chain off m a l -> chain off (set_mem b v m) a l.
Proof.
  intros N. apply chain_ext. intros x Hx. unfold set_mem.
  destruct (Z.eqb_spec (x + off) b); auto. exfalso. apply N. replace (b - off) with x by lia. auto.
Qed.

Lemma up16_ge x : x <= up16 x.
Proof. unfold up16. pose proof (Z.div_mod (x + 15) 16). pose proof (Z.mod_pos_bound (x + 15) 16). lia. Qed.
Lemma up16_le x : up16 x <= x + 15.
Proof. unfold up16. pose proof (Z.div_mod (x + 15) 16). pose proof (Z.mod_pos_bound (x + 15) 16). lia. Qed.
Lemma up16_mod x : up16 x mod 16 = 0.
Proof. unfold up16. apply Z.mod_mul. lia. Qed.
Lemma mod16_add a b : a mod 16 = 0 -> b mod 16 = 0 -> (a + b) mod 16 = 0.
Proof. intros H1 H2. rewrite Z.add_mod, H1, H2 by lia. reflexivity. Qed.
(* between multiples of 16 a piece may be rounded up *)
Lemma up16_fits a b n : a mod 16 = 0 -> b mod 16 = 0 -> a + n <= b -> a + up16 n <= b.
Proof.
  intros H1 H2 H. unfold up16. apply Z.mod_divide in H1, H2; try lia.
  destruct H1 as [x ->], H2 as [y ->].
  pose proof (Z.div_mod (n + 15) 16). pose proof (Z.mod_pos_bound (n + 15) 16). lia.
Qed.
(* where a block's pieces begin *)
Lemma block_start f : f mod 8 = 0 -> f + 8 <= up16 (f + 8) <= f + 16.
Proof.
  intros H. apply Z.mod_divide in H; try lia. destruct H as [x ->]. unfold up16.
  pose proof (Z.div_mod (x * 8 + 8 + 15) 16). pose proof (Z.mod_pos_bound (x * 8 + 8 + 15) 16). lia.
Qed.

Section Pool.
Variable c : cfg.
Hypothesis FIT : fitting c.

Record pinv (w : world) (F : list Z) : Prop := {
  v_obj : forall x, In x (F ++ w_live w) -> 0 < x /\ in_block c w x;
  v_nodup : NoDup (F ++ w_live w);
  v_apart : forall x y, In x (F ++ w_live w) -> In y (F ++ w_live w) -> x <> y ->
    apart x (c_size c) y (c_size c);
  v_tail : forall x, In x (F ++ w_live w) ->
    p_last (w_pool w) = p_end (w_pool w) \/
    apart x (c_size c) (p_last (w_pool w)) (p_end (w_pool w) - p_last (w_pool w));
  v_room : p_last (w_pool w) = p_end (w_pool w) \/
    (In (p_head (w_pool w)) (w_blocks w) /\
     p_head (w_pool w) + hd_size <= p_last (w_pool w) /\
     p_end (w_pool w) <= p_head (w_pool w) + block_size c);
  v_ord : p_last (w_pool w) <= p_end (w_pool w);
  v_al : p_last (w_pool w) < p_end (w_pool w) ->
    p_last (w_pool w) mod 16 = 0 /\ p_end (w_pool w) mod 16 = 0;
  v_opl : chain (c_off c) (p_mem (w_pool w)) (p_opl (w_pool w)) F;
  v_blk : chain 0 (p_mem (w_pool w)) (p_head (w_pool w)) (w_blocks w);
  v_bpos : forall b, In b (w_blocks w) -> 0 < b;
  v_bapart : forall b b', In b (w_blocks w) -> In b' (w_blocks w) -> b <> b' ->
    apart b (block_size c) b' (block_size c);
  v_bnodup : NoDup (w_blocks w)
}.

Lemma size_pos : 0 < c_size c.
Proof. destruct FIT. lia. Qed.
Lemma blk_pos : 0 < block_size c.
Proof. destruct FIT as (?&?&?&?). unfold block_size, hd_size. lia. Qed.

(* the header of a block is not inside an object *)
Lemma header_out w F x b : pinv w F -> In x (F ++ w_live w) -> In b (w_blocks w) ->
  b < x \/ x + c_size c <= b.
Proof.
  intros I Hx Hb. destruct (v_obj _ _ I x Hx) as (_ & _ & b' & Hb' & L1 & L2).
  unfold hd_size in *. destruct (Z.eq_dec b b') as [-> | N]; [lia|].
  pose proof (v_bapart _ _ I b b' Hb Hb' N) as A. unfold apart in A. pose proof blk_pos. lia.
Qed.

Lemma in_block_more w w' x : (forall b, In b (w_blocks w) -> In b (w_blocks w')) ->
  in_block c w x -> in_block c w' x.
Proof. intros S (A & b & H & ?). split; auto. exists b. auto. Qed.

Lemma start_inv e m p : pool_init c e m = Ok p -> pinv (mk_world p [] []) [].
Proof.
  unfold pool_init. destruct (c_blklen c mod 16 =? 0); [|discriminate]. intros [= <-].
  constructor; cbn; try tauto; try constructor; try lia.
Qed.

(* cutting a piece off the tail *)
Lemma cut_inv w F : pinv w F -> p_last (w_pool w) + c_size c <= p_end (w_pool w) ->
  exists p, cut (w_pool w) (c_size c) = Ok (p, p_last (w_pool w)) /\
    pinv (mk_world p (w_blocks w) (p_last (w_pool w) :: w_live w)) F /\
    p_last (w_pool w) <> 0 /\ p_head p = p_head (w_pool w) /\
    (forall x, In x (F ++ w_live w) -> apart (p_last (w_pool w)) (c_size c) x (c_size c)).
Proof.
  intros I R. pose proof size_pos as S. destruct (v_al _ _ I) as [A1 A2]; [lia|].
  unfold cut. rewrite A1. cbn [Z.eqb negb]. eexists. split; [reflexivity|].
  destruct (v_room _ _ I) as [K | (H1 & H2 & H3)]; [lia|].
  pose proof (v_bpos _ _ I _ H1) as Hp. unfold hd_size in H2.
  pose proof (up16_ge (c_size c)) as U. pose proof (up16_fits _ _ _ A1 A2 R) as U2.
  set (o := p_last (w_pool w)) in *.
  assert (AP : forall x, In x (F ++ w_live w) -> apart o (c_size c) x (c_size c)).
  { intros x Hx. destruct (v_tail _ _ I x Hx) as [K | K]; fold o in K; [lia|].
    unfold apart in *. lia. }
  assert (NI : ~ In o (F ++ w_live w)).
  { intros K. apply AP in K. unfold apart in K. lia. }
  assert (SPL : forall x, In x (F ++ o :: w_live w) -> x = o \/ In x (F ++ w_live w)).
  { intros x. rewrite !in_app_iff. cbn [In]. intuition. }
  split; [|split; [lia|split; [reflexivity|exact AP]]].
  constructor; cbn [w_pool w_blocks w_live p_last p_end p_head p_opl p_mem]; try apply I.
  - intros x Hx. destruct (SPL x Hx) as [-> | Hx'].
    + split; [lia|]. split; auto. exists (p_head (w_pool w)). unfold hd_size.
      cbn [w_blocks]. repeat split; auto; lia.
    + destruct (v_obj _ _ I x Hx') as [P B]. split; auto.
  - apply NoDup_Add with (a := o) (l := F ++ w_live w). { apply Add_app. } split; [apply I|exact NI].
  - intros x y Hx Hy N. destruct (SPL x Hx) as [-> | Hx'], (SPL y Hy) as [-> | Hy'].
    + congruence.
    + apply AP; auto.
    + pose proof (AP x Hx'). unfold apart in *. lia.
    + apply (v_apart _ _ I); auto.
  - intros x Hx. destruct (SPL x Hx) as [-> | Hx'].
    + right. unfold apart. lia.
    + destruct (v_tail _ _ I x Hx') as [K | K]; fold o in K; [lia|]. right. unfold apart in *. lia.
  - right. unfold hd_size. split; auto. lia.
  - lia.
  - intros _. split; auto. apply mod16_add; auto. apply up16_mod.
Qed.

(* a new block *)
Lemma block_inv w F fresh : pinv w F -> from_malloc c w fresh -> fresh <> 0 ->
  let b := up16 (fresh + hd_size) in
  pinv (mk_world (mk_pool fresh b (b + c_blklen c) (p_opl (w_pool w))
                    (set_mem fresh (p_head (w_pool w)) (p_mem (w_pool w))))
                 (fresh :: w_blocks w) (w_live w)) F /\
  ~ In fresh (w_blocks w).
Proof.
  intros I M N b. destruct M as [M | (P & A8 & AP)]; [congruence|].
  pose proof (block_start fresh A8) as BS. fold b in BS. unfold hd_size in b. fold b in BS.
  pose proof size_pos as S. pose proof blk_pos as BP. destruct FIT as (F1 & F2 & F3 & F4).
  assert (NI : ~ In fresh (w_blocks w)).
  { intros K. apply AP in K. unfold apart in K. lia. }
  assert (OUT : forall x, In x (F ++ w_live w) -> apart x (c_size c) fresh (block_size c)).
  { intros x Hx. destruct (v_obj _ _ I x Hx) as (_ & _ & b' & Hb' & L1 & L2).
    specialize (AP b' Hb'). unfold apart, hd_size in *. lia. }
  assert (OF : forall x, In x F -> In x (F ++ w_live w)) by (intros; apply in_or_app; auto).
  split; [|exact NI].
  constructor; cbn [w_pool w_blocks w_live p_last p_end p_head p_opl p_mem]; try apply I.
  - intros x Hx. destruct (v_obj _ _ I x Hx) as [P0 B]. split; auto.
    eapply in_block_more; [|exact B]. cbn [w_blocks]. intros; right; auto.
  - intros x Hx. right. specialize (OUT x Hx). unfold apart, block_size, hd_size in *. lia.
  - right. unfold block_size, hd_size in *. split; [left; auto|]. lia.
  - lia.
  - intros _. unfold b. split; [apply up16_mod|]. apply mod16_add; auto. apply up16_mod.
  - apply chain_set; [|apply I]. intros K. apply OF in K. specialize (OUT _ K).
    unfold apart in OUT. lia.
  - cbn [chain]. split; [lia|]. unfold set_mem at 2. rewrite Z.eqb_refl. apply chain_set; [|apply I].
    rewrite Z.sub_0_r. exact NI.
  - intros x [<- | H]; auto. apply (v_bpos _ _ I); auto.
  - intros x y [<- | Hx] [<- | Hy] Ne; try congruence; auto.
    + specialize (AP x Hx). unfold apart in *. lia.
    + apply (v_bapart _ _ I); auto.
  - constructor; auto. apply I.
Qed.

Definition handed (w w' : world) (obj : Z) : Prop :=
  obj = 0 /\ w_live w' = w_live w \/
  (obj <> 0 /\ w_live w' = obj :: w_live w /\
   forall x, In x (w_live w) -> apart obj (c_size c) x (c_size c)).

Lemma get_inv w F fresh : pinv w F -> from_malloc c w fresh ->
  exists w' obj F', pool_step c w (PGet fresh) = Ok (w', obj, []) /\ pinv w' F' /\
    handed w w' obj /\ (obj = 0 -> fresh = 0).
Proof.
  intros I M. cbn [pool_step]. unfold pool_get, opl_pop.
  pose proof (v_opl _ _ I) as CH. pose proof size_pos as S.
  destruct F as [|x F].
  - cbn [chain] in CH. rewrite CH. cbn [Z.eqb]. unfold balloc_get.
    destruct FIT as (F1 & F2 & F3 & F4).
    destruct (Z.ltb_spec (c_blklen c) (c_size c)); [lia|].
    destruct (Z.ltb_spec (p_end (w_pool w) - p_last (w_pool w)) (c_size c)).
    + destruct (Z.eqb_spec fresh 0) as [Hf | Hf].
      * rewrite !Z.eqb_refl. exists w, 0, []. destruct w as [p bl li]. cbn [w_pool w_blocks w_live] in *.
        split; [reflexivity|]. split; [exact I|]. split; [|auto]. left. auto.
      * destruct (block_inv w [] fresh I M Hf) as [I2 NI].
        set (b := up16 (fresh + hd_size)) in *.
        destruct (cut_inv _ _ I2) as (p & Ec & I3 & N0 & Hh & AP).
        { cbn [w_pool p_last p_end]. lia. }
        cbn [w_pool w_blocks w_live p_last p_head] in *. rewrite Ec.
        assert (Q : (p_head p =? p_head (w_pool w)) = false).
        { apply Z.eqb_neq. rewrite Hh. intros K. pose proof (v_blk _ _ I) as B.
          destruct (w_blocks w) as [|y l] eqn:Eb; cbn [chain] in B; [lia|].
          apply NI. left. lia. }
        rewrite Q, (proj2 (Z.eqb_neq b 0) N0). exists (mk_world p (fresh :: w_blocks w) (b :: w_live w)), b, [].
        split; [reflexivity|]. split; [exact I3|]. split; [|congruence].
        right. repeat split; auto.
    + destruct (cut_inv _ _ I) as (p & Ec & I3 & N0 & Hh & AP); [lia|].
      assert (Ec' : cut (w_pool w) (c_size c) = Ok (p, p_last (w_pool w))) by exact Ec.
      rewrite Ec', Hh, Z.eqb_refl, (proj2 (Z.eqb_neq _ 0) N0).
      eexists _, _, []. split; [reflexivity|]. split; [exact I3|]. split; [|congruence].
      right. repeat split; auto.
  - cbn [chain] in CH. destruct CH as [CH1 CH2].
    destruct (v_obj _ _ I x) as [Px Bx]; [cbn; auto|]. destruct FIT as (F1 & F2 & F3 & F4).
    rewrite (proj2 (Z.eqb_neq (p_opl (w_pool w)) 0)) by lia.
    rewrite (proj2 (Z.eqb_neq (p_opl (w_pool w)) 0)) by lia.
    cbn [p_head]. rewrite Z.eqb_refl.
    replace (p_opl (w_pool w) - c_off c) with x by lia.
    rewrite (proj2 (Z.eqb_neq x 0)) by lia.
    eexists _, _, F. split; [reflexivity|].
    assert (EQ : forall y, In y (F ++ x :: w_live w) <-> In y ((x :: F) ++ w_live w)).
    { intros y. cbn [List.app In]. rewrite !in_app_iff. cbn [In]. tauto. }
    split; [|split; [|lia]].
    + constructor; cbn [w_pool w_blocks w_live p_last p_end p_head p_opl p_mem]; try apply I.
      * intros y Hy. apply EQ in Hy. apply (v_obj _ _ I y Hy).
      * pose proof (v_nodup _ _ I) as ND. cbn [List.app] in ND. inversion ND; subst.
        apply NoDup_Add with (a := x) (l := F ++ w_live w); [apply Add_app|auto].
      * intros y z Hy Hz. apply EQ in Hy, Hz. apply (v_apart _ _ I); auto.
      * intros y Hy. apply EQ in Hy. apply (v_tail _ _ I y Hy).
    + right. split; [lia|]. split; [reflexivity|]. intros y Hy.
      pose proof (v_nodup _ _ I) as ND. cbn [List.app] in ND. inversion ND; subst.
      apply (v_apart _ _ I); cbn [List.app In]; auto.
      * right. apply in_or_app. auto.
      * intros <-. apply H1. apply in_or_app. auto.
Qed.

Lemma without_in x y l : In y (without x l) <-> In y l /\ y <> x.
Proof.
  unfold without. rewrite filter_In. split; intros [H1 H2]; split; auto.
  - intros ->. rewrite Z.eqb_refl in H2. discriminate.
  - apply Z.eqb_neq in H2. rewrite H2. reflexivity.
Qed.
Lemma release_inv w F obj : pinv w F -> In obj (w_live w) ->
  exists w', pool_step c w (PRelease obj) = Ok (w', 0, []) /\ pinv w' (obj :: F).
Proof.
  intros I H. eexists. split; [reflexivity|].
  assert (HO : In obj (F ++ w_live w)) by (apply in_or_app; auto).
  assert (EQ : forall y, In y ((obj :: F) ++ without obj (w_live w)) <-> In y (F ++ w_live w)).
  { intros y. cbn [List.app In]. rewrite !in_app_iff, without_in. destruct (Z.eq_dec y obj); [subst; tauto|].
    intuition congruence. }
  pose proof (v_nodup _ _ I) as ND. pose proof size_pos. destruct FIT as (F1 & F2 & F3 & F4).
  constructor; cbn [w_pool w_blocks w_live pool_release opl_push p_last p_end p_head p_opl p_mem]; try apply I.
  - intros y Hy. apply EQ in Hy. apply (v_obj _ _ I y Hy).
  - assert (N1 : ~ In obj F).
    { intros K. apply in_split in H. destruct H as (l1 & l2 & E). rewrite E in ND.
      rewrite app_assoc in ND. apply NoDup_remove_2 in ND. apply ND. rewrite !in_app_iff. auto. }
    cbn [List.app]. constructor.
    + rewrite in_app_iff, without_in. tauto.
    + clear - ND. revert ND. induction F as [|y F IH]; cbn [List.app]; intros ND.
      * apply NoDup_filter. exact ND.
      * inversion ND; subst. constructor; auto. intros K. apply H1. rewrite in_app_iff in *.
        rewrite without_in in K. tauto.
  - intros y z Hy Hz. apply EQ in Hy, Hz. apply (v_apart _ _ I); auto.
  - intros y Hy. apply EQ in Hy. apply (v_tail _ _ I y Hy).
  - cbn [chain]. split; [reflexivity|]. unfold set_mem at 2. rewrite Z.eqb_refl.
    apply chain_set; [|apply I]. replace (obj + c_off c - c_off c) with obj by lia.
    intros K. apply in_split in H. destruct H as (l1 & l2 & E). rewrite E in ND.
    rewrite app_assoc in ND. apply NoDup_remove_2 in ND. apply ND. rewrite !in_app_iff. auto.
  - apply chain_set; [|apply I]. intros K. pose proof (header_out w F obj _ I HO K). lia.
Qed.
Lemma use_inv w F obj f : pinv w F -> In obj (w_live w) ->
  exists w', pool_step c w (PUse obj f) = Ok (w', 0, []) /\ pinv w' F.
Proof.
  intros I H. eexists. split; [reflexivity|].
  assert (HO : In obj (F ++ w_live w)) by (apply in_or_app; auto).
  pose proof (v_nodup _ _ I) as ND. pose proof size_pos. destruct FIT as (F1 & F2 & F3 & F4).
  constructor; cbn [w_pool w_blocks w_live p_last p_end p_head p_opl p_mem]; try apply I.
  - eapply chain_ext; [|apply I]. intros x Hx. cbn beta.
    assert (N : x <> obj).
    { intros ->. apply in_split in H. destruct H as (l1 & l2 & E). rewrite E in ND.
      rewrite app_assoc in ND. apply NoDup_remove_2 in ND. apply ND. rewrite !in_app_iff. auto. }
    assert (A : apart x (c_size c) obj (c_size c)).
    { apply (v_apart _ _ I); auto. apply in_or_app. auto. }
    unfold apart in A. destruct (Z.leb_spec obj (x + c_off c)), (Z.ltb_spec (x + c_off c) (obj + c_size c));
      cbn [andb]; auto. lia.
  - eapply chain_ext; [|apply I]. intros x Hx. cbn beta. rewrite Z.add_0_r.
    pose proof (header_out w F obj x I HO Hx).
    destruct (Z.leb_spec obj x), (Z.ltb_spec x (obj + c_size c)); cbn [andb]; auto. lia.
Qed.
Lemma walk_chain m l : forall b, (forall x, In x l -> 0 < x) -> chain 0 m b l ->
  walk (length l) m b = Ok l.
Proof.
  induction l as [|x l IH]; intros b P C; cbn [chain length walk] in *.
  - subst. reflexivity.
  - destruct C as [-> C]. rewrite Z.add_0_r in *. pose proof (P x (or_introl eq_refl)).
    rewrite (proj2 (Z.eqb_neq x 0)) by lia. rewrite IH; auto. intros y Hy. apply P. right. auto.
Qed.
Lemma clear_inv w F e : pinv w F ->
  exists w', pool_step c w (PClear e) = Ok (w', 0, w_blocks w) /\ pinv w' [] /\ w_live w' = [] /\
    w_blocks w' = [].
Proof.
  intros I. cbn [pool_step]. unfold pool_clear.
  rewrite (walk_chain _ _ _ (v_bpos _ _ I) (v_blk _ _ I)).
  eexists. split; [reflexivity|]. split; [|auto].
  constructor; cbn; try tauto; try constructor; try lia.
Qed.

Lemma preach_inv w : pool_reach c w -> exists F, pinv w F.
Proof.
  induction 1 as [e m p E|w o w' obj l R [F I] P E].
  - exists []. apply (start_inv e m p E).
  - destruct o as [fresh|x|x f|e]; cbn [proper] in P.
    + destruct (get_inv w F fresh I P) as (w1 & o1 & F1 & E1 & I1 & _). rewrite E in E1.
      injection E1 as -> -> ->. eauto.
    + destruct (release_inv w F x I P) as (w1 & E1 & I1). rewrite E in E1. injection E1 as -> -> ->. eauto.
    + destruct (use_inv w F x f I P) as (w1 & E1 & I1). rewrite E in E1. injection E1 as -> -> ->. eauto.
    + destruct (clear_inv w F e I) as (w1 & E1 & I1 & _). rewrite E in E1. injection E1 as -> -> ->. eauto.
Qed.
End Pool.
