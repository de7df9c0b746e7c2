(* Proofs about reading the control stream *)
From Verif Require Import Base BaseLemmas ConvModel ConvProofs RdVarint HttpModel Chunk Chunk2 ControlModel.
Open Scope Z_scope.

Lemma skipn_suffix A k (p : list A) : skipn (length p - length (skipn k p)) p = skipn k p.
Proof. rewrite skipn_length. destruct (Nat.le_gt_cases k (length p)) as [H|H]; [f_equal; lia|]. rewrite !skipn_all2 by lia. reflexivity. Qed.
Lemma zlen_skipn A k (p : list A) : 0 <= k <= zlen p -> zlen (skipn (Z.to_nat k) p) = zlen p - k.
Proof. intros H. unfold zlen in *. rewrite skipn_length. lia. Qed.
Lemma rd_rest rv p f v r : rd_varint rv p f = VDone v r -> skipn (length p - length r) p = r.
Proof.
  unfold rd_varint. destruct (read_varint rv p f) as [[rv' n]| |]; try discriminate. destruct (_ =? 0); [|discriminate].
  intros [= _ <-]. apply skipn_suffix.
Qed.
Definition fv_ok (rv : rvint) (lft : Z) (p : list Z) : Prop :=
  match fr_varint rv lft p with
  | FvDone v l' rest => 0 <= v <= max_varint /\ 0 <= l' < lft /\ bytes rest /\ (length rest < length p)%nat /\
      lft - l' = zlen p - zlen rest /\
      forall b, bytes b -> fr_varint rv lft (p ++ b) = FvDone v l' (rest ++ b)
  | FvMore rv' l' => rv_inv rv' /\ 0 < l' /\ l' = lft - zlen p /\
      forall b, bytes b -> b <> [] -> fr_varint rv lft (p ++ b) = fr_varint rv' l' b
  | FvErr => forall b, bytes b -> fr_varint rv lft (p ++ b) = FvErr
  | FvAbort => False
  end.
Lemma fr_varint_ok rv lft p : rv_inv rv -> 0 < lft -> bytes p -> p <> [] -> fv_ok rv lft p.
Proof.
  intros R L B N. unfold fv_ok.
  assert (LP : 0 < zlen p). { destruct p; [congruence|]. rewrite zlen_cons. pose proof (zlen_nonneg _ p). lia. }
  destruct (Z.leb_spec lft (zlen p)) as [C|C].
  - (* the piece holds the rest of the frame *)
    assert (D : forall b, fr_varint rv lft (p ++ b) =
      match rd_varint rv (firstn (Z.to_nat lft) p) true with
      | VDone v r => FvDone v (lft - (lft - zlen r)) (skipn (Z.to_nat (lft - zlen r)) (p ++ b))
      | VMore rv' => FvMore rv' (lft - lft) | VErr => FvErr | VAbort => FvAbort end).
    { intros b. unfold fr_varint. rewrite zlen_app. pose proof (zlen_nonneg _ b).
      rewrite Z.min_l by lia. destruct (Z.leb_spec lft 0); [lia|]. rewrite Z.leb_refl.
      rewrite firstn_app. replace (Z.to_nat lft - length p)%nat with 0%nat by (unfold zlen in C; lia).
      rewrite firstn_O, app_nil_r. reflexivity. }
    pose proof (D []) as D0. rewrite app_nil_r in D0. rewrite D0.
    set (w := firstn (Z.to_nat lft) p) in *.
    assert (Lw : zlen w = lft). { unfold w, zlen. rewrite firstn_length. unfold zlen in C. lia. }
    assert (Nw : w <> []). { intros E. rewrite E, zlen_nil in Lw. lia. }
    pose proof (rd_varint_ok rv w R (bytes_firstn _ _ B) Nw) as O. unfold vres_ok in O.
    destruct (rd_varint rv w false) as [rv'|v r| |]; try contradiction.
    + destruct O as (_ & _ & O & _). rewrite O in *. intros b _. rewrite D. reflexivity.
    + destruct O as (V & Br & Lr & O & _). rewrite O in *.
      assert (zlen r < lft) by (rewrite <- Lw; unfold zlen; lia). pose proof (zlen_nonneg _ r).
      split; [auto|]. split; [lia|]. split; [apply bytes_skipn; auto|].
      split; [rewrite skipn_length; unfold zlen in *; lia|].
      split; [rewrite zlen_skipn by lia; lia|].
      intros b Bb. rewrite D. f_equal. rewrite skipn_app. replace (Z.to_nat (lft - zlen r) - length p)%nat with 0%nat by (unfold zlen in *; lia). reflexivity.
  - assert (D : fr_varint rv lft p =
      match rd_varint rv p false with
      | VDone v r => FvDone v (lft - (zlen p - zlen r)) (skipn (Z.to_nat (zlen p - zlen r)) p)
      | VMore rv' => FvMore rv' (lft - zlen p) | VErr => FvErr | VAbort => FvAbort end).
    { unfold fr_varint. rewrite Z.min_r by lia. destruct (Z.leb_spec (zlen p) 0); [lia|].
      destruct (Z.leb_spec lft (zlen p)); [lia|].
      replace (firstn (Z.to_nat (zlen p)) p) with p by (unfold zlen; rewrite Nat2Z.id, firstn_all; auto). reflexivity. }
    rewrite D. pose proof (rd_varint_ok rv p R B N) as O. unfold vres_ok in O.
    assert (DB : forall b, 0 < zlen b -> fr_varint rv lft (p ++ b) =
      let len := Z.min lft (zlen p + zlen b) in
      match rd_varint rv (p ++ firstn (Z.to_nat (len - zlen p)) b) (lft <=? len) with
      | VDone v r => FvDone v (lft - (len - zlen r)) (skipn (Z.to_nat (len - zlen r)) (p ++ b))
      | VMore rv' => FvMore rv' (lft - len) | VErr => FvErr | VAbort => FvAbort end).
    { intros b Zb. unfold fr_varint. rewrite zlen_app. cbv zeta. set (len := Z.min lft (zlen p + zlen b)).
      destruct (Z.leb_spec len 0); [unfold len in *; lia|]. rewrite firstn_app. rewrite firstn_all2 by (unfold zlen in *; lia).
      replace (Z.to_nat len - length p)%nat with (Z.to_nat (len - zlen p)) by (unfold zlen in *; lia). reflexivity. }
    destruct (rd_varint rv p false) as [rv'|v r| |] eqn:RV; try contradiction.
    + destruct O as (I & _ & _ & O). split; auto. split; [lia|]. split; [auto|]. intros b Bb Nb.
      assert (Zb : 0 < zlen b) by (destruct b; [congruence|rewrite zlen_cons; pose proof (zlen_nonneg _ b); lia]).
      rewrite DB by auto. cbv zeta. unfold fr_varint at 1.
      replace (Z.min lft (zlen p + zlen b) - zlen p) with (Z.min (lft - zlen p) (zlen b)) by lia.
      set (m := Z.min (lft - zlen p) (zlen b)). replace (Z.min lft (zlen p + zlen b)) with (zlen p + m) by lia.
      destruct (Z.leb_spec m 0); [lia|].
      assert (Nf : firstn (Z.to_nat m) b <> []). { destruct b; [congruence|]. destruct (Z.to_nat m) eqn:?; [lia|discriminate]. }
      rewrite O by auto using bytes_firstn.
      replace (lft <=? zlen p + m) with (lft - zlen p <=? m) by lia.
      destruct (rd_varint rv' (firstn (Z.to_nat m) b) (lft - zlen p <=? m)) as [rv2|v r| |] eqn:R2; auto; [f_equal; lia|].
      assert (Lr : zlen r <= m).
      { pose proof (rd_varint_ok rv' _ I (bytes_firstn (Z.to_nat m) b Bb) Nf) as O2. unfold vres_ok in O2.
        assert (Q : rd_varint rv' (firstn (Z.to_nat m) b) false = VDone v r).
        { destruct (lft - zlen p <=? m); [|auto]. destruct (rd_varint rv' (firstn (Z.to_nat m) b) false); try contradiction.
          - destruct O2 as (_ & _ & O2 & _). congruence.
          - destruct O2 as (_ & _ & _ & O2 & _). congruence. }
        rewrite Q in O2. destruct O2 as (_ & _ & O2 & _). rewrite firstn_length in O2. unfold zlen. lia. }
      f_equal; [lia|]. rewrite skipn_app. rewrite skipn_all2 by (unfold zlen in *; lia). cbn [app]. f_equal. unfold zlen in *. lia.
    + destruct O as (V & Br & Lr & _ & O). pose proof (zlen_nonneg _ r).
      assert (LR : zlen r < zlen p) by (unfold zlen; lia).
      assert (SK : skipn (Z.to_nat (zlen p - zlen r)) p = r).
      { apply rd_rest in RV. replace (Z.to_nat (zlen p - zlen r)) with (length p - length r)%nat by (unfold zlen; lia). exact RV. }
      rewrite SK. split; auto. split; [lia|]. split; auto. split; auto. split; [lia|].
      intros b Bb. destruct b as [|b0 b].
      { rewrite !app_nil_r, D. rewrite SK. reflexivity. }
      assert (Zb : 0 < zlen (b0 :: b)) by (rewrite zlen_cons; pose proof (zlen_nonneg _ b); lia).
      rewrite DB by auto. cbv zeta. set (len := Z.min lft (zlen p + zlen (b0 :: b))). rewrite O by (apply bytes_firstn; auto).
      set (k := Z.to_nat (len - zlen p)).
      assert (Lk : zlen (firstn k (b0 :: b)) = len - zlen p) by (unfold zlen; rewrite firstn_length; unfold k, len, zlen in *; lia).
      rewrite zlen_app, Lk. f_equal; [lia|].
      replace (len - (zlen r + (len - zlen p))) with (zlen p - zlen r) by lia.
      rewrite skipn_app, SK. replace (Z.to_nat (zlen p - zlen r) - length p)%nat with 0%nat by (unfold zlen in *; lia). reflexivity.
Qed.

Definition c_inv (E : cenv) (s : cst) : Prop :=
  rv_inv (c_rv s) /\ 0 <= c_left s /\ zlen (c_buf s) <= 8 /\ c_goaway s <= max_varint + 1 /\
  match c_rd s with
  | CType | CLen | CIgn => c_buf s = []
  | CSetId | CSetVal | CGoaway | CMaxPush => 0 < c_left s /\ c_buf s = []
  | CElemId => 0 < c_left s /\ c_buf s = [] /\ ce_server E = true
  | CPrio => 0 < c_left s /\ ce_server E = true
  end.
Definition c_ce (s : cst) : Prop := c_rd s = CIgn.
Lemma c_inv_init E : c_inv E cst_init.
Proof. unfold c_inv, cst_init; cbn. repeat split; auto using rv_inv_reset; try lia. Qed.
Lemma c_reset_inv E s : c_inv E s -> c_buf s = [] -> c_inv E (c_reset s).
Proof. intros (I1 & I2 & I3 & I4 & _) B. unfold c_inv, c_reset; cbn. repeat split; auto using rv_inv_reset; lia. Qed.
Lemma cat_ne A (a b : list A) : a <> [] -> a ++ b <> [].
Proof. destruct a; [congruence|discriminate]. Qed.
Lemma zpos A (a : list A) : a <> [] -> 0 < zlen a.
Proof. destruct a as [|x a]; [congruence|]. intros _. rewrite zlen_cons. pose proof (zlen_nonneg _ a). lia. Qed.

Notation cok E := (step_ok (c_step true E) 3 c_rank (c_inv E) c_ce).
Lemma meas_lt (s s' : cst) (p rest : list Z) : (length rest < length p)%nat -> (measure 3 c_rank s' rest < measure 3 c_rank s p)%nat.
Proof. unfold measure, c_rank. intros. destruct (c_rd s'), (c_rd s); lia. Qed.
Lemma fail_ok E s a e ev : (forall b, bytes b -> c_step true E s (a ++ b) = c_fail e ev) -> cok E s a (c_fail e ev).
Proof. intros H. split; [apply c_inv_init|exact H]. Qed.

Lemma ign_ok E s a : c_inv E s -> c_rd s = CIgn -> bytes a -> cok E s a (c_ign s a).
Proof.
  intros I R B. pose proof I as (I1 & I2 & I3 & I4 & I5). rewrite R in I5.
  assert (ST : forall b, c_step true E s b = c_ign s b) by (intros; unfold c_step; rewrite R; auto).
  unfold c_ign at 1. pose proof (zlen_nonneg _ a) as Za. destruct (Z.leb_spec (c_left s) (zlen a)) as [C|C].
  - rewrite Z.min_l by lia. rewrite Z.sub_diag, Z.eqb_refl. split; [apply c_reset_inv; auto|].
    split; [apply bytes_skipn; auto|]. split.
    { unfold measure. assert (X : c_rank (c_reset s) = 0%nat) by reflexivity. rewrite X. unfold c_rank. rewrite R, skipn_length. lia. }
    split; [discriminate|]. intros b Bb. rewrite ST. unfold c_ign. rewrite zlen_app. pose proof (zlen_nonneg _ b).
    rewrite Z.min_l by lia. rewrite Z.sub_diag, Z.eqb_refl. rewrite skipn_app.
    replace (Z.to_nat (c_left s) - length a)%nat with 0%nat by (unfold zlen in *; lia). reflexivity.
  - rewrite Z.min_r by lia. destruct (Z.eqb_spec (c_left s - zlen a) 0); [lia|]. split.
    + unfold c_inv, c_go; cbn. repeat split; auto using rv_inv_reset; lia.
    + intros b Bb Nb. rewrite ST. unfold c_step. cbn [c_rd c_go]. unfold c_ign. cbn [c_left c_go c_id]. rewrite zlen_app.
      pose proof (zpos _ b Nb). set (m := Z.min (c_left s - zlen a) (zlen b)).
      replace (Z.min (c_left s) (zlen a + zlen b)) with (zlen a + m) by lia.
      replace (c_left s - (zlen a + m)) with (c_left s - zlen a - m) by lia.
      destruct (_ =? 0); cbn [sev app]; [|reflexivity]. unfold c_go, c_reset; cbn. f_equal.
      rewrite skipn_app. rewrite skipn_all2 by (unfold zlen in *; lia). cbn [app]. f_equal. unfold zlen in *. lia.
Qed.
Lemma firstn_min A (n : Z) (a b : list A) : 0 <= n -> n <= zlen a -> firstn (Z.to_nat n) (a ++ b) = firstn (Z.to_nat n) a.
Proof. intros. rewrite firstn_app. replace (Z.to_nat n - length a)%nat with 0%nat by (unfold zlen in *; lia). rewrite firstn_O, app_nil_r. auto. Qed.
Lemma skipn_min A (n : Z) (a b : list A) : 0 <= n -> n <= zlen a -> skipn (Z.to_nat n) (a ++ b) = skipn (Z.to_nat n) a ++ b.
Proof. intros. rewrite skipn_app. replace (Z.to_nat n - length a)%nat with 0%nat by (unfold zlen in *; lia). reflexivity. Qed.
Lemma firstn_more A (n : Z) (a b : list A) : 0 <= n -> firstn (Z.to_nat (zlen a + n)) (a ++ b) = a ++ firstn (Z.to_nat n) b.
Proof. intros. rewrite firstn_app, firstn_all2 by (unfold zlen; lia). do 2 f_equal. unfold zlen. lia. Qed.
Lemma skipn_more A (n : Z) (a b : list A) : 0 <= n -> skipn (Z.to_nat (zlen a + n)) (a ++ b) = skipn (Z.to_nat n) b.
Proof. intros. rewrite skipn_app, skipn_all2 by (unfold zlen; lia). cbn [app]. f_equal. unfold zlen. lia. Qed.

Lemma prio_ok E s a : c_inv E s -> c_rd s = CPrio -> bytes a -> a <> [] -> cok E s a (c_step true E s a).
Proof.
  intros I R B N. pose proof I as (I1 & I2 & I3 & I4 & I5). rewrite R in I5. destruct I5 as [I5 I6].
  assert (ST : forall b, c_step true E s b = c_prio true E s b) by (intros; unfold c_step; rewrite R; auto).
  pose proof (zpos _ a N) as Za. pose proof (zlen_nonneg _ (c_buf s)) as Zb.
  destruct (Z.leb_spec (c_left s) (zlen a)) as [C|C].
  - (* the rest of the frame is in this piece *)
    assert (D : forall b, c_prio true E s (a ++ b) =
      if 8 <? c_left s + zlen (c_buf s) then SGo (c_reset (c_with_buf s [])) (skipn (Z.to_nat (c_left s)) a ++ b) false []
      else match parse_priority (ce_sf E) (mk_pri DEFAULT_URGENCY 0) (c_buf s ++ firstn (Z.to_nat (c_left s)) a) with
           | None => c_fail ERR_H3_GENERAL_PROTOCOL_ERROR []
           | Some pr => if prio_allowed E (c_id s) then SGo (c_reset (c_with_buf s [])) (skipn (Z.to_nat (c_left s)) a ++ b) false [CvPriority (c_id s) pr]
                        else c_fail ERR_H3_ID_ERROR [] end).
    { intros b. unfold c_prio, pri_bufsize. rewrite zlen_app. pose proof (zlen_nonneg _ b). rewrite Z.min_l by lia.
      destruct (Z.leb_spec (c_left s) 0); [lia|]. rewrite Z.eqb_refl, andb_true_r. rewrite I6. cbn [negb].
      rewrite firstn_min, skipn_min by lia. unfold c_ign. cbn [c_left c_with_buf]. rewrite zlen_app, Z.min_l by lia. rewrite Z.sub_diag, Z.eqb_refl, skipn_min by lia.
      destruct (Z.eqb_spec (zlen (c_buf s)) 0) as [Q|Q]; [|reflexivity].
      rewrite Q, Z.add_0_r. apply zlen_0 in Q. rewrite Q. reflexivity. }
    pose proof (D []) as D0. rewrite app_nil_r in D0. rewrite app_nil_r in D0. rewrite ST, D0.
    assert (RI : c_inv E (c_reset (c_with_buf s []))).
    { unfold c_inv, c_reset; cbn. repeat split; auto using rv_inv_reset; try lia. }
    assert (GO : forall ev, (forall b, bytes b -> c_step true E s (a ++ b) = SGo (c_reset (c_with_buf s [])) (skipn (Z.to_nat (c_left s)) a ++ b) false ev) ->
      cok E s a (SGo (c_reset (c_with_buf s [])) (skipn (Z.to_nat (c_left s)) a) false ev)).
    { intros ev H. split; auto. split; [apply bytes_skipn; auto|]. split; [apply meas_lt; rewrite skipn_length; unfold zlen in *; lia|]. split; [discriminate|auto]. }
    destruct (8 <? c_left s + zlen (c_buf s)) eqn:Q8.
    { apply GO. intros b Bb. rewrite ST, D, ?Q8. reflexivity. }
    destruct (parse_priority _ _ _) eqn:PP.
    2:{ apply fail_ok. intros b Bb. rewrite ST, D. auto. }
    destruct (prio_allowed E (c_id s)) eqn:PA; [|apply fail_ok; intros b Bb; rewrite ST, D; auto].
    apply GO. intros b Bb. rewrite ST, D. auto.
  - (* more to come *)
    assert (D : c_prio true E s a =
      if 8 <? zlen a + zlen (c_buf s) then SMore (c_go (c_with_buf s []) CIgn rv_reset (c_left s - zlen a) (c_id s)) []
      else SMore (c_with_buf (c_go s CPrio rv_reset (c_left s - zlen a) (c_id s)) (c_buf s ++ a)) []).
    { unfold c_prio, pri_bufsize. rewrite Z.min_r by lia. destruct (Z.leb_spec (zlen a) 0); [lia|].
      destruct (Z.eqb_spec (c_left s) (zlen a)); [lia|]. rewrite andb_false_r. unfold c_ign. cbn [c_left c_with_buf]. rewrite Z.min_r by lia.
      destruct (Z.eqb_spec (c_left s - zlen a) 0); [lia|].
      replace (firstn (Z.to_nat (zlen a)) a) with a by (unfold zlen; rewrite Nat2Z.id, firstn_all; auto). reflexivity. }
    assert (DB : forall b, b <> [] -> c_prio true E s (a ++ b) =
      let m := Z.min (c_left s - zlen a) (zlen b) in
      if 8 <? zlen a + m + zlen (c_buf s) then
        if c_left s - zlen a - m =? 0 then SGo (c_reset (c_with_buf s [])) (skipn (Z.to_nat m) b) false []
        else SMore (c_go (c_with_buf s []) CIgn rv_reset (c_left s - zlen a - m) (c_id s)) []
      else if c_left s - zlen a =? m then
        match parse_priority (ce_sf E) (mk_pri DEFAULT_URGENCY 0) (c_buf s ++ a ++ firstn (Z.to_nat m) b) with
           | None => c_fail ERR_H3_GENERAL_PROTOCOL_ERROR []
           | Some pr => if prio_allowed E (c_id s) then SGo (c_reset (c_with_buf s [])) (skipn (Z.to_nat m) b) false [CvPriority (c_id s) pr]
                        else c_fail ERR_H3_ID_ERROR [] end
      else SMore (c_with_buf (c_go s CPrio rv_reset (c_left s - zlen a - m) (c_id s)) (c_buf s ++ a ++ firstn (Z.to_nat m) b)) []).
    { intros b Nb. pose proof (zpos _ b Nb) as Pb. cbv zeta. set (m := Z.min (c_left s - zlen a) (zlen b)).
      unfold c_prio, pri_bufsize. rewrite zlen_app. replace (Z.min (c_left s) (zlen a + zlen b)) with (zlen a + m) by lia.
      rewrite firstn_more, skipn_more by lia. rewrite I6. cbn [negb].
      unfold c_ign. cbn [c_left c_with_buf c_id]. rewrite zlen_app. replace (Z.min (c_left s) (zlen a + zlen b)) with (zlen a + m) by lia.
      rewrite skipn_more by lia. replace (c_left s - (zlen a + m)) with (c_left s - zlen a - m) by lia.
      destruct (Z.leb_spec (zlen a + m) 0); [lia|].
      replace (c_left s =? zlen a + m) with (c_left s - zlen a =? m) by lia.
      destruct (Z.eqb_spec (zlen (c_buf s)) 0) as [Q|Q]; cbn [andb]; [|reflexivity].
      rewrite Q, Z.add_0_r. apply zlen_0 in Q. rewrite Q. cbn [app].
      destruct (c_left s - zlen a =? m); [reflexivity|]. reflexivity. }
    rewrite ST, D. destruct (Z.ltb_spec 8 (zlen a + zlen (c_buf s))) as [T|T].
    + split. { unfold c_inv, c_go; cbn. repeat split; auto using rv_inv_reset; lia. }
      intros b Bb Nb. pose proof (zpos _ b Nb). rewrite ST, DB by auto. cbv zeta. set (m := Z.min (c_left s - zlen a) (zlen b)).
      destruct (Z.ltb_spec 8 (zlen a + m + zlen (c_buf s))); [|lia].
      unfold c_step. cbn [c_rd c_go]. unfold c_ign. cbn [c_left c_go c_id]. fold m.
      destruct (_ =? 0); reflexivity.
    + split. { unfold c_inv, c_go, c_with_buf; cbn. rewrite zlen_app. repeat split; auto using rv_inv_reset; lia. }
      intros b Bb Nb. pose proof (zpos _ b Nb). rewrite ST, DB by auto. cbv zeta. set (m := Z.min (c_left s - zlen a) (zlen b)).
      unfold c_step. cbn [c_rd c_go c_with_buf]. unfold c_prio, pri_bufsize. cbn [c_left c_go c_with_buf c_buf c_id].
      fold m. destruct (Z.leb_spec m 0); [lia|]. rewrite zlen_app.
      destruct (Z.eqb_spec (zlen (c_buf s) + zlen a) 0); [lia|]. cbn [andb].
      replace (m + (zlen (c_buf s) + zlen a)) with (zlen a + m + zlen (c_buf s)) by lia.
      rewrite I6. cbn [negb]. unfold c_ign. cbn [c_left c_go c_with_buf c_id]. fold m. rewrite <- app_assoc.
      destruct (8 <? zlen a + m + zlen (c_buf s)); [destruct (_ =? 0); reflexivity|].
      destruct (c_left s - zlen a =? m); [|reflexivity].
      destruct (parse_priority _ _ _); [|reflexivity]. destruct (prio_allowed _ _); reflexivity.
Qed.
Ltac sevc := repeat match goal with |- context [match ?c with _ => _ end] => destruct c end; reflexivity.
Lemma step_ok_all E s a : c_inv E s -> bytes a -> runnable c_ce s a -> cok E s a (c_step true E s a).
Proof.
  intros I B R. destruct (c_rd s) eqn:Rd.
  9: { assert (ST : c_step true E s a = c_ign s a) by (unfold c_step; rewrite Rd; auto). rewrite ST. apply ign_ok; auto. }
  all: assert (N : a <> []) by (destruct R as [R|R]; [auto|unfold c_ce in R; congruence]).
  all: pose proof I as (I1 & I2 & I3 & I4 & I5); rewrite Rd in I5.
  8: { apply prio_ok; auto. }
  1, 2: pose proof (rd_varint_ok (c_rv s) a I1 B N) as O; unfold vres_ok in O.
  3, 4, 5, 6, 7: pose proof (fr_varint_ok (c_rv s) (c_left s) a I1 ltac:(tauto) B N) as O; unfold fv_ok in O.
  - assert (ST : forall b, c_step true E s b = match rd_varint (c_rv s) b false with
      | VDone v rest => SGo (mk_cst CLen rv_reset v (c_left s) (c_id s) (c_seen s) (c_set s) (c_goaway s) (c_closing s) (c_pushes s) (c_buf s)) rest false []
      | VMore rv => SMore (c_go s CType rv (c_left s) (c_id s)) []
      | VErr => c_fail ERR_H3_GENERAL_PROTOCOL_ERROR [] | VAbort => SAbort end) by (intros; unfold c_step; rewrite Rd; auto).
    rewrite ST. destruct (rd_varint (c_rv s) a false) as [rv'|v rest| |] eqn:RV; try contradiction.
    + destruct O as (O1 & O2 & O3 & O4). split; [unfold c_inv; cbn; repeat split; auto|]. intros b Bb Nb. rewrite ST, O4 by auto.
      unfold c_step. cbn [c_rd c_go c_rv]. destruct (rd_varint rv' b false); reflexivity.
    + destruct O as (O1 & O2 & O3 & O4 & O5). split; [unfold c_inv; cbn; repeat split; auto using rv_inv_reset|]. split; auto.
      split; [apply meas_lt; auto|]. split; [discriminate|]. intros b Bb. rewrite ST, O5 by auto. reflexivity.
  - assert (ST : forall b, c_step true E s b = match rd_varint (c_rv s) b false with
      | VDone v rest => c_frame_start E s v rest
      | VMore rv => SMore (c_go s CLen rv (c_left s) (c_id s)) []
      | VErr => c_fail ERR_H3_FRAME_ERROR [] | VAbort => SAbort end) by (intros; unfold c_step; rewrite Rd; auto).
    rewrite ST. destruct (rd_varint (c_rv s) a false) as [rv'|v rest| |] eqn:RV; try contradiction.
    + destruct O as (O1 & O2 & O3 & O4). split; [unfold c_inv; cbn; repeat split; auto|]. intros b Bb Nb. rewrite ST, O4 by auto.
      unfold c_step. cbn [c_rd c_go c_rv]. destruct (rd_varint rv' b false); try reflexivity.
      cbn [sev app]. unfold c_frame_start; cbn [c_ty c_seen c_go c_id c_set c_goaway c_closing c_pushes c_buf c_rd].
      repeat match goal with |- context [if ?c then _ else _] => destruct c end; reflexivity.
    + destruct O as (O1 & O2 & O3 & O4 & O5).
      assert (ST2 : forall b, bytes b -> c_step true E s (a ++ b) = c_frame_start E s v (rest ++ b)) by (intros b Bb; rewrite ST, O5 by auto; reflexivity).
      assert (GO : forall s' busy ev, c_inv E s' -> (busy = true -> c_rd s' = CIgn) -> (forall b, bytes b -> c_frame_start E s v (rest ++ b) = SGo s' (rest ++ b) busy ev) ->
        cok E s a (SGo s' rest busy ev)).
      { intros s' busy ev H1 H2 H3. split; auto. split; auto. split; [apply meas_lt; auto|]. split; [exact H2|]. intros b Bb. rewrite ST2 by auto. auto. }
      assert (FL : forall e, (forall b, bytes b -> c_frame_start E s v (rest ++ b) = c_fail e []) -> cok E s a (c_fail e [])).
      { intros e H. apply fail_ok. intros b Bb. rewrite ST2 by auto. auto. }
      clear ST ST2 O5. unfold c_frame_start in *. cbv zeta in *.
      destruct (negb (c_seen s) && negb (c_ty s =? FRAME_SETTINGS)); [apply FL; auto|].
      destruct (c_seen s && (c_ty s =? FRAME_SETTINGS)); [apply FL; auto|].
      destruct (c_ty s =? FRAME_SETTINGS).
      { destruct (Z.eqb_spec v 0); (apply GO; [unfold c_inv, c_reset, c_go; cbn; repeat split; auto using rv_inv_reset; lia|discriminate|auto]). }
      destruct (c_ty s =? FRAME_GOAWAY).
      { destruct (Z.eqb_spec v 0); [apply FL; auto|]. (apply GO; [unfold c_inv, c_reset, c_go; cbn; repeat split; auto using rv_inv_reset; lia|discriminate|auto]). }
      destruct (c_ty s =? FRAME_MAX_PUSH_ID).
      { destruct (negb (ce_server E)); [apply FL; auto|]. destruct (Z.eqb_spec v 0); [apply FL; auto|]. (apply GO; [unfold c_inv, c_reset, c_go; cbn; repeat split; auto using rv_inv_reset; lia|discriminate|auto]). }
      destruct (c_ty s =? FRAME_PRIORITY_UPDATE).
      { destruct (ce_server E) eqn:SV; cbn [negb] in *; [|apply FL; auto]. destruct (Z.eqb_spec v 0); [apply FL; auto|].
        (apply GO; [unfold c_inv, c_reset, c_go; cbn; repeat split; auto using rv_inv_reset; lia|discriminate|auto]). }
      destruct (c_ty s =? FRAME_PRIORITY_UPDATE_PUSH_ID); [apply FL; auto|].
      destruct (c_refused (c_ty s)); [apply FL; auto|].
      apply GO; [unfold c_inv, c_reset, c_go; cbn; repeat split; auto using rv_inv_reset; lia|auto|auto].
  - destruct I5 as [I5 I6]. assert (ST : forall b, c_step true E s b = match fr_varint (c_rv s) (c_left s) b with
    | FvDone v lft rest =>
      if lft =? 0 then c_fail ERR_H3_FRAME_ERROR []
      else SGo (c_go s CSetVal rv_reset lft v) rest false []
    | FvMore rv lft => SMore (c_go s CSetId rv lft (c_id s)) []
    | FvErr => c_fail ERR_H3_FRAME_ERROR []
    | FvAbort => SAbort end) by (intros; unfold c_step; rewrite Rd; auto).
    rewrite ST. destruct (fr_varint (c_rv s) (c_left s) a) as [rv' l'|v l' rest| |] eqn:RV; try contradiction.
    + destruct O as (O1 & O2 & O3 & O4). split; [unfold c_inv; cbn; repeat split; auto; lia|]. intros b Bb Nb. rewrite ST, O4 by auto.
      unfold c_step. cbn [c_rd c_go c_rv c_left]. sevc.
    + destruct O as (O1 & O2 & O3 & O4 & O5 & O6).
      destruct (Z.eqb_spec l' 0) as [Q|Q].
      * apply fail_ok. intros b Bb. rewrite ST, O6 by auto. rewrite Q. reflexivity.
      * split; [unfold c_inv; cbn; repeat split; auto using rv_inv_reset; lia|]. split; auto. split; [apply meas_lt; auto|]. split; [discriminate|].
        intros b Bb. rewrite ST, O6 by auto. destruct (Z.eqb_spec l' 0); [contradiction|reflexivity].
    + apply fail_ok. intros b Bb. rewrite ST, O by auto. reflexivity.
  - destruct I5 as [I5 I6]. assert (ST : forall b, c_step true E s b = match fr_varint (c_rv s) (c_left s) b with
    | FvDone v lft rest =>
      match settings_entry (ce_server E) (c_set s) (c_id s) v with
      | Ok (r, evs) =>
        if lft =? 0 then SGo (c_reset (c_with_set s r)) rest false (evs ++ [CvSettings r])
        else SGo (c_go (c_with_set s r) CSetId rv_reset lft (c_id s)) rest false evs
      | Err e => c_fail e []
      | Abort => SAbort
      end
    | FvMore rv lft => SMore (c_go s CSetVal rv lft (c_id s)) []
    | FvErr => c_fail ERR_H3_FRAME_ERROR []
    | FvAbort => SAbort end) by (intros; unfold c_step; rewrite Rd; auto).
    rewrite ST. destruct (fr_varint (c_rv s) (c_left s) a) as [rv' l'|v l' rest| |] eqn:RV; try contradiction.
    + destruct O as (O1 & O2 & O3 & O4). split; [unfold c_inv; cbn; repeat split; auto; lia|]. intros b Bb Nb. rewrite ST, O4 by auto.
      unfold c_step. cbn [c_rd c_go c_rv c_left c_set c_id]. sevc.
    + destruct O as (O1 & O2 & O3 & O4 & O5 & O6).
      destruct (settings_entry (ce_server E) (c_set s) (c_id s) v) as [[r evs]|e|] eqn:SE.
      * destruct (Z.eqb_spec l' 0) as [Q|Q].
        -- split; [unfold c_inv; cbn; repeat split; auto using rv_inv_reset; lia|]. split; auto. split; [apply meas_lt; auto|]. split; [discriminate|].
           intros b Bb. rewrite ST, O6 by auto. rewrite SE, Q. reflexivity.
        -- split; [unfold c_inv; cbn; repeat split; auto using rv_inv_reset; lia|]. split; auto. split; [apply meas_lt; auto|]. split; [discriminate|].
           intros b Bb. rewrite ST, O6 by auto. rewrite SE. destruct (Z.eqb_spec l' 0); [contradiction|reflexivity].
      * apply fail_ok. intros b Bb. rewrite ST, O6 by auto. rewrite SE. reflexivity.
      * exfalso. revert SE. unfold settings_entry. repeat match goal with |- context [if ?c then _ else _] => destruct c end; discriminate.
    + apply fail_ok. intros b Bb. rewrite ST, O by auto. reflexivity.
  - destruct I5 as [I5 I6]. assert (ST : forall b, c_step true E s b = match fr_varint (c_rv s) (c_left s) b with
    | FvDone v lft rest =>
      if negb (ce_server E) && negb (client_bidi v) then c_fail ERR_H3_ID_ERROR []
      else if c_goaway s <? v then c_fail ERR_H3_ID_ERROR []
      else SGo (c_reset (mk_cst CGoaway rv_reset (c_ty s) lft (c_id s) (c_seen s) (c_set s) v true (c_pushes s) (c_buf s))) rest false [CvShutdown v]
    | FvMore rv lft => SMore (c_go s CGoaway rv lft (c_id s)) []
    | FvErr => c_fail ERR_H3_FRAME_ERROR []
    | FvAbort => SAbort end) by (intros; unfold c_step; rewrite Rd; auto).
    rewrite ST. destruct (fr_varint (c_rv s) (c_left s) a) as [rv' l'|v l' rest| |] eqn:RV; try contradiction.
    + destruct O as (O1 & O2 & O3 & O4). split; [unfold c_inv; cbn; repeat split; auto; lia|]. intros b Bb Nb. rewrite ST, O4 by auto.
      unfold c_step. cbn [c_rd c_go c_rv c_left c_goaway]. sevc.
    + destruct O as (O1 & O2 & O3 & O4 & O5 & O6).
      destruct (negb (ce_server E) && negb (client_bidi v)) eqn:Q1; [apply fail_ok; intros b Bb; rewrite ST, O6 by auto; rewrite Q1; reflexivity|].
      destruct (c_goaway s <? v) eqn:Q2; [apply fail_ok; intros b Bb; rewrite ST, O6 by auto; rewrite Q1, Q2; reflexivity|].
      split; [unfold c_inv; cbn [c_rd c_rv c_left c_buf c_goaway c_reset]; repeat split; auto using rv_inv_reset; lia|]. split; auto. split; [apply meas_lt; auto|]. split; [discriminate|].
      intros b Bb. rewrite ST, O6 by auto. rewrite Q1, Q2. reflexivity.
    + apply fail_ok. intros b Bb. rewrite ST, O by auto. reflexivity.
  - destruct I5 as [I5 I6]. assert (ST : forall b, c_step true E s b = match fr_varint (c_rv s) (c_left s) b with
    | FvDone v lft rest =>
      if v + 1 <? c_pushes s then c_fail ERR_H3_FRAME_ERROR []
      else SGo (c_reset (mk_cst CMaxPush rv_reset (c_ty s) lft (c_id s) (c_seen s) (c_set s) (c_goaway s) (c_closing s) (v + 1) (c_buf s))) rest false []
    | FvMore rv lft => SMore (c_go s CMaxPush rv lft (c_id s)) []
    | FvErr => c_fail ERR_H3_FRAME_ERROR []
    | FvAbort => SAbort end) by (intros; unfold c_step; rewrite Rd; auto).
    rewrite ST. destruct (fr_varint (c_rv s) (c_left s) a) as [rv' l'|v l' rest| |] eqn:RV; try contradiction.
    + destruct O as (O1 & O2 & O3 & O4). split; [unfold c_inv; cbn; repeat split; auto; lia|]. intros b Bb Nb. rewrite ST, O4 by auto.
      unfold c_step. cbn [c_rd c_go c_rv c_left c_pushes]. sevc.
    + destruct O as (O1 & O2 & O3 & O4 & O5 & O6).
      destruct (v + 1 <? c_pushes s) eqn:Q1; [apply fail_ok; intros b Bb; rewrite ST, O6 by auto; rewrite Q1; reflexivity|].
      split; [unfold c_inv; cbn; repeat split; auto using rv_inv_reset; lia|]. split; auto. split; [apply meas_lt; auto|]. split; [discriminate|].
      intros b Bb. rewrite ST, O6 by auto. rewrite Q1. reflexivity.
    + apply fail_ok. intros b Bb. rewrite ST, O by auto. reflexivity.
  - destruct I5 as (I5 & I6 & I7). assert (ST : forall b, c_step true E s b = match fr_varint (c_rv s) (c_left s) b with
    | FvDone v lft rest =>
      if lft =? 0 then
        if prio_allowed E v then SGo (c_reset s) rest false [CvElem v lft; CvPriority v (mk_pri DEFAULT_URGENCY 0)]
        else c_fail ERR_H3_ID_ERROR []
      else SGo (c_go s CPrio rv_reset lft v) rest false [CvElem v lft]
    | FvMore rv lft => SMore (c_go s CElemId rv lft (c_id s)) []
    | FvErr => c_fail ERR_H3_FRAME_ERROR []
    | FvAbort => SAbort end) by (intros; unfold c_step; rewrite Rd, I7; auto).
    rewrite ST. destruct (fr_varint (c_rv s) (c_left s) a) as [rv' l'|v l' rest| |] eqn:RV; try contradiction.
    + destruct O as (O1 & O2 & O3 & O4). split; [unfold c_inv; cbn; repeat split; auto; lia|]. intros b Bb Nb. rewrite ST, O4 by auto.
      unfold c_step. cbn [c_rd c_go c_rv c_left c_goaway]. rewrite I7. cbn [negb andb]. sevc.
    + destruct O as (O1 & O2 & O3 & O4 & O5 & O6).
      destruct (Z.eqb_spec l' 0) as [Q|Q].
      * destruct (prio_allowed E v) eqn:PA; [|apply fail_ok; intros b Bb; rewrite ST, O6 by auto; rewrite Q, PA; reflexivity].
        split; [apply c_reset_inv; auto|]. split; auto. split; [apply meas_lt; auto|]. split; [discriminate|].
        intros b Bb. rewrite ST, O6 by auto. rewrite Q, PA. reflexivity.
      * split; [unfold c_inv; cbn; repeat split; auto using rv_inv_reset; lia|]. split; auto. split; [apply meas_lt; auto|]. split; [discriminate|].
        intros b Bb. rewrite ST, O6 by auto. destruct (Z.eqb_spec l' 0); [contradiction|reflexivity].
    + apply fail_ok. intros b Bb. rewrite ST, O by auto. reflexivity.
Qed.
