(* The hash map refines the finite partial function of MapSpec, for every sequence of calls. *)
From Verif Require Import Base MapModel MapSpec MapProofs.
From Coq Require Import Permutation Lia.
Open Scope Z_scope.

(* the contents as seen by the caller *)
Definition contents (m : hmap) : fmap := map kd (buckets (m_tab m) (m_bits m)).

Record MI (m : hmap) : Prop := mk_MI {
  mi_bits : m_bits m = 0 /\ m_size m = 0 \/ 4 <= m_bits m <= 31;
  mi_new : m_bits m = 0 -> forall i, m_tab m i = None;
  mi_1 : 4 <= m_bits m -> I1 (tlen (m_bits m)) (m_bits m) (m_tab m);
  mi_2 : 4 <= m_bits m -> I2 (tlen (m_bits m)) (m_tab m);
  mi_nd : NoDup (map fst (contents m));
  mi_sz : Z.of_nat (length (contents m)) = m_size m;
  mi_load : m_size m * 4 <= tlen (m_bits m) * 3;
  mi_data : forall k d, In (k, d) (contents m) -> d <> 0 }.

Lemma MI_init : MI map_init.
Proof.
  assert (C : contents map_init = []) by reflexivity.
  split; rewrite ?C; cbn [map_init m_bits m_size m_tab length map]; try lia.
  - reflexivity.
  - constructor.
  - unfold tlen. lia.
  - intros k d [].
Qed.

Lemma contents_ents : forall m, contents m = map kd (ents (tlen (m_bits m)) (m_tab m)).
Proof. reflexivity. Qed.
Lemma key_contents : forall m, map fst (contents m) = keys (tlen (m_bits m)) (m_tab m).
Proof. intros m. rewrite contents_ents. unfold keys. rewrite map_map. reflexivity. Qed.
Lemma in_contents : forall m k d, In (k, d) (contents m) <-> exists b, In b (ents (tlen (m_bits m)) (m_tab m)) /\ kd b = (k, d).
Proof.
  intros m k d. rewrite contents_ents, in_map_iff. split; intros (b & X & Y); exists b; auto.
Qed.
Lemma sp_absent : forall m k, MI m -> (forall d, ~ In (k, d) (contents m)) <-> ~ In k (map fst (contents m)).
Proof.
  intros m k H. split.
  - intros A B. apply in_map_iff in B. destruct B as ((k', d) & E & I). cbn in E. subst k'. exact (A d I).
  - intros A d I. apply A. apply in_map_iff. exists (k, d). auto.
Qed.
Lemma load_lt : forall m, 4 <= m_bits m -> MI m -> Z.of_nat (length (ents (tlen (m_bits m)) (m_tab m))) < tlen (m_bits m).
Proof.
  intros m B H. pose proof (mi_sz _ H) as S. rewrite contents_ents, map_length in S. pose proof (mi_load _ H).
  assert (0 < tlen (m_bits m)) by (unfold tlen; apply Z.pow_pos_nonneg; lia). lia.
Qed.

(* ---- growth ---- *)
Lemma resize_ok : forall m bits mem, MI m -> 4 <= bits <= 31 -> (m_size m + 1) * 4 <= tlen bits * 3 ->
  match map_resize m bits mem with
  | Ok m' => MI m' /\ m_bits m' = bits /\ m_size m' = m_size m /\ Permutation (contents m') (contents m) /\ mem = true
  | Err e => e = MAP_ENOMEM /\ mem = false
  | Abort => False
  end.
Proof.
  intros m bits mem H B S. unfold map_resize. destruct (Z.leb_spec 32 bits); [lia|].
  destruct mem; cbn [negb]; [|split; reflexivity].
  assert (T0 : 0 < tlen bits) by (unfold tlen; apply Z.pow_pos_nonneg; lia).
  assert (X : exists t', (if m_size m =? 0 then Ok no_tab else reinsert no_tab bits (buckets (m_tab m) (m_bits m))) = Ok t' /\
            I1 (tlen bits) bits t' /\ I2 (tlen bits) t' /\ Permutation (map kd (ents (tlen bits) t')) (contents m)).
  { pose proof (mi_sz _ H) as Sz. destruct (Z.eqb_spec (m_size m) 0) as [Z0|Z0].
    - exists no_tab. split; [reflexivity|]. split; [apply empty_I1|]. split; [apply empty_I2|].
      unfold ents. rewrite empty_upto. destruct (contents m); [reflexivity|cbn [length] in Sz; lia].
    - pose proof (reinsert_ok (tlen bits) bits eq_refl B (buckets (m_tab m) (m_bits m)) no_tab) as R.
      destruct R as (t' & A & P1 & P2 & P3).
      + apply empty_I1.
      + apply empty_I2.
      + unfold keys, ents. rewrite empty_upto. cbn [map]. rewrite app_nil_r.
        pose proof (mi_nd _ H) as N. rewrite key_contents in N. exact N.
      + unfold ents. rewrite empty_upto. cbn [length]. rewrite Nat.add_0_r.
        unfold contents in Sz. rewrite map_length in Sz. lia.
      + exists t'. split; [exact A|]. split; [exact P1|]. split; [exact P2|].
        rewrite P3. unfold ents. rewrite empty_upto. cbn [map]. rewrite app_nil_r. reflexivity. }
  destruct X as (t' & -> & P1 & P2 & P3). split; [|cbn [m_bits m_size]; auto].
  assert (C : contents (mk_hmap t' (m_size m) bits) = map kd (ents (tlen bits) t')) by reflexivity.
  split; cbn [m_bits m_size m_tab].
  - right. lia.
  - lia.
  - intros _. exact P1.
  - intros _. exact P2.
  - rewrite C. eapply nodup_perm; [|apply (mi_nd _ H)]. apply Permutation_map. symmetry. exact P3.
  - rewrite C, (Permutation_length P3). apply (mi_sz _ H).
  - lia.
  - intros k d I. rewrite C in I. apply (mi_data _ H k d). eapply Permutation_in; [exact P3|exact I].
Qed.

Lemma insert_main : forall m k d, MI m -> 4 <= m_bits m -> (m_size m + 1) * 4 <= tlen (m_bits m) * 3 -> d <> 0 ->
  (~ In k (map fst (contents m)) /\ exists t, insert (m_tab m) (m_bits m) k d = Ok t /\
     let m' := mk_hmap t (m_size m + 1) (m_bits m) in MI m' /\ Permutation (contents m') ((k, d) :: contents m))
  \/ In k (map fst (contents m)) /\ insert (m_tab m) (m_bits m) k d = Err MAP_EINVAL.
Proof.
  intros m k d H B S D. assert (Bb : 4 <= m_bits m <= 31) by (destruct (mi_bits _ H); lia).
  pose proof (load_lt m B H) as Ld. pose proof (mi_nd _ H) as N. rewrite key_contents in N.
  destruct (in_dec Z.eq_dec k (map fst (contents m))) as [I|I].
  - right. split; [exact I|]. rewrite key_contents in I.
    apply (insert_dup (tlen (m_bits m)) (m_bits m) eq_refl Bb); auto; [apply (mi_1 _ H B)|apply (mi_2 _ H B)].
  - left. split; [exact I|]. assert (I' := I). rewrite key_contents in I'.
    destruct (insert_new (tlen (m_bits m)) (m_bits m) eq_refl Bb (m_tab m) k d (mi_1 _ H B) (mi_2 _ H B) N Ld I') as (t & A & P1 & P2 & P3).
    exists t. split; [exact A|]. cbv zeta.
    assert (C : contents (mk_hmap t (m_size m + 1) (m_bits m)) = map kd (ents (tlen (m_bits m)) t)) by reflexivity.
    assert (P : Permutation (contents (mk_hmap t (m_size m + 1) (m_bits m))) ((k, d) :: contents m)) by exact P3.
    split; [|exact P]. split; cbn [m_bits m_size m_tab].
    + right. lia.
    + lia.
    + intros _. exact P1.
    + intros _. exact P2.
    + eapply nodup_perm; [apply Permutation_map; symmetry; exact P|]. cbn [map fst]. constructor; [exact I|apply (mi_nd _ H)].
    + rewrite (Permutation_length P). cbn [length]. pose proof (mi_sz _ H). lia.
    + exact S.
    + intros k' d' J. apply (Permutation_in _ P) in J. destruct J as [J|J]; [congruence|exact (mi_data _ H _ _ J)].
Qed.

Lemma insert_step : forall m k d mem, MI m -> m_bits m <= 30 -> m_size m < MAP_LIMIT -> d <> 0 ->
  exists rv m', map_insert m k d mem = Ok (rv, m') /\ MI m' /\ m_bits m' <= 30 /\
    (rv = 0 /\ absent k (contents m) /\ Permutation (contents m') ((k, d) :: contents m) \/
     rv = MAP_EINVAL /\ (exists d', In (k, d') (contents m)) /\ Permutation (contents m') (contents m) \/
     rv = MAP_ENOMEM /\ mem = false /\ Permutation (contents m') (contents m)).
Proof.
  intros m k d mem H B30 Lim D. unfold map_insert. destruct (Z.eqb_spec d 0) as [X|_]; [contradiction|].
  assert (Sz : 0 <= m_size m) by (pose proof (mi_sz _ H); lia).
  set (nb := if m_bits m =? 0 then 4 else m_bits m + 1).
  assert (B0 : 0 <= m_bits m) by (destruct (mi_bits _ H); lia).
  assert (Md : (tlen (m_bits m) * 3) mod 2 ^ 32 = tlen (m_bits m) * 3).
  { apply Z.mod_small. assert (tlen (m_bits m) <= 2 ^ 30) by (unfold tlen; apply Z.pow_le_mono_r; lia).
    assert (0 < tlen (m_bits m)) by (unfold tlen; apply Z.pow_pos_nonneg; lia). lia. }
  rewrite Md. clear Md.
  assert (G : exists m1, (if (m_size m + 1) * 4 >? tlen (m_bits m) * 3 then map_resize m nb mem else Ok m) = Ok m1 /\
                MI m1 /\ 4 <= m_bits m1 <= 30 /\ (m_size m1 + 1) * 4 <= tlen (m_bits m1) * 3 /\ Permutation (contents m1) (contents m)
            \/ (if (m_size m + 1) * 4 >? tlen (m_bits m) * 3 then map_resize m nb mem else Ok m) = Err MAP_ENOMEM /\ mem = false).
  { destruct (Z.gtb_spec ((m_size m + 1) * 4) (tlen (m_bits m) * 3)) as [Gr|Gr].
    - assert (NB : 4 <= nb <= 30 /\ (m_size m + 1) * 4 <= tlen nb * 3).
      { unfold nb. pose proof (mi_load _ H) as Ld. destruct (Z.eqb_spec (m_bits m) 0) as [Z0|Z0].
        - split; [lia|]. destruct (mi_bits _ H) as [[_ S0]|]; [|lia]. rewrite S0. unfold tlen. lia.
        - assert (Q : m_bits m <> 30).
          { intros Q. rewrite Q in Gr. unfold MAP_LIMIT, tlen in *. lia. }
          destruct (mi_bits _ H); [lia|]. split; [lia|]. unfold tlen in *. rewrite Z.pow_add_r by lia.
          assert (2 ^ 4 <= 2 ^ m_bits m) by (apply Z.pow_le_mono_r; lia). lia. }
      destruct NB as (NB1 & NB2). pose proof (resize_ok m nb mem H ltac:(lia) NB2) as R.
      destruct (map_resize m nb mem) as [m1|e|]; [| |contradiction].
      + destruct R as (R1 & R2 & R3 & R4 & R5). exists m1. left. rewrite R2, R3.
        split; [reflexivity|]. split; [exact R1|]. split; [lia|]. split; [lia|exact R4].
      + exists m. right. destruct R as (-> & ->). auto.
    - exists m. left. split; [reflexivity|]. split; [exact H|].
      destruct (mi_bits _ H) as [[Z0 S0]|]; [rewrite Z0, S0 in Gr; unfold tlen in Gr; lia|].
      split; [lia|]. split; [lia|reflexivity]. }
  destruct G as (m1 & [(-> & H1 & B1 & L1 & P1)|(-> & ->)]).
  - destruct (insert_main m1 k d H1 ltac:(lia) L1 D) as [(I & t & -> & H2 & P2)|(I & ->)].
    + eexists _, _. split; [reflexivity|]. split; [exact H2|]. split; [cbn [m_bits]; lia|]. left.
      split; [reflexivity|]. split.
      * intros d' J. apply I. apply in_map_iff. exists (k, d'). split; [reflexivity|].
        eapply Permutation_in; [symmetry; exact P1|exact J].
      * rewrite P2, P1. reflexivity.
    + eexists _, _. split; [reflexivity|]. split; [exact H1|]. split; [lia|]. right; left.
      split; [reflexivity|]. split; [|exact P1].
      apply in_map_iff in I. destruct I as ((k', d') & E & J). cbn in E. subst k'. exists d'.
      eapply Permutation_in; [exact P1|exact J].
  - exists MAP_ENOMEM, m. split; [reflexivity|]. split; [exact H|]. split; [lia|]. right; right. auto.
Qed.

(* ---- lookup ---- *)
Lemma seek_main : forall m k, MI m -> m_size m <> 0 ->
  match map_seek m k with
  | Ok (Some i) => 0 <= i < tlen (m_bits m) /\ exists b, m_tab m i = Some b /\ key b = k
  | Ok None => absent k (contents m)
  | _ => False
  end.
Proof.
  intros m k H S. assert (B : 4 <= m_bits m <= 31) by (destruct (mi_bits _ H); lia).
  destruct (free_cell (tlen (m_bits m)) (m_bits m) eq_refl B (m_tab m) (load_lt m (proj1 B) H)) as (e & Re & E).
  pose proof (seek_ok (tlen (m_bits m)) (m_bits m) eq_refl B (Z.to_nat (tlen (m_bits m))) (m_tab m) e k 0
                (mi_1 _ H (proj1 B)) (mi_2 _ H (proj1 B)) Re E ltac:(lia)) as K.
  assert (Hm : (home (m_bits m) k + 0) mod tlen (m_bits m) = hash k (m_bits m)).
  { rewrite Z.add_0_r. apply Z.mod_small. apply hash_range. lia. }
  rewrite Hm in K. specialize (K (fuel_ok (tlen (m_bits m)) (m_bits m) eq_refl B e _)).
  unfold map_seek. destruct (seek _ _ _ _ _ _) as [[i|]|x|]; try exact K.
  intros d J. apply in_contents in J. destruct J as (b & J & KD).
  apply (in_ents (tlen (m_bits m)) (m_bits m) eq_refl B) in J. destruct J as (i & Ri & Bi).
  assert (Kb : key b = k) by (unfold kd in KD; congruence).
  pose proof (K i b Ri Bi Kb) as X. pose proof (mi_1 _ H (proj1 B) i b Ri Bi). lia.
Qed.
Lemma empty_contents : forall m, MI m -> m_size m = 0 -> contents m = [].
Proof. intros m H S. pose proof (mi_sz _ H). destruct (contents m); [reflexivity|cbn [length] in *; lia]. Qed.
Lemma find_step : forall m k, MI m -> exists d, map_find m k = Ok d /\
  (In (k, d) (contents m) \/ d = 0 /\ absent k (contents m)).
Proof.
  intros m k H. unfold map_find. destruct (Z.eqb_spec (m_size m) 0) as [S|S].
  - exists 0. split; [reflexivity|]. right. split; [reflexivity|]. rewrite (empty_contents m H S). intros d [].
  - pose proof (seek_main m k H S) as K. destruct (map_seek m k) as [[i|]|x|]; try contradiction.
    + destruct K as (R & b & E & Kb). rewrite E. exists (data b). split; [reflexivity|]. left.
      apply in_contents. exists b. split; [|unfold kd; congruence].
      assert (B : 4 <= m_bits m <= 31) by (destruct (mi_bits _ H); lia).
      apply (in_ents (tlen (m_bits m)) (m_bits m) eq_refl B). exists i. auto.
    + exists 0. split; [reflexivity|]. right. auto.
Qed.

(* ---- removal ---- *)
Lemma remove_step : forall m k, MI m -> exists rv m', map_remove m k = Ok (rv, m') /\ MI m' /\ m_bits m' = m_bits m /\
  (rv = 0 /\ (exists d, Permutation (contents m) ((k, d) :: contents m')) \/
   rv = MAP_EINVAL /\ absent k (contents m) /\ m' = m).
Proof.
  intros m k H. unfold map_remove. destruct (Z.eqb_spec (m_size m) 0) as [S|S].
  - exists MAP_EINVAL, m. split; [reflexivity|]. split; [exact H|]. split; [reflexivity|]. right.
    split; [reflexivity|]. split; [|reflexivity]. rewrite (empty_contents m H S). intros d [].
  - assert (B : 4 <= m_bits m <= 31) by (destruct (mi_bits _ H); lia).
    pose proof (seek_main m k H S) as K. destruct (map_seek m k) as [[i|]|x|]; try contradiction.
    + destruct K as (R & b & E & Kb).
      destruct (remove_ok (tlen (m_bits m)) (m_bits m) eq_refl B (m_tab m) i b (mi_1 _ H (proj1 B)) (mi_2 _ H (proj1 B))
                  (load_lt m (proj1 B) H) R E) as (t & -> & P1 & P2 & P3).
      set (m' := mk_hmap t (m_size m - 1) (m_bits m)).
      assert (P : Permutation (contents m) ((k, data b) :: contents m')).
      { replace (k, data b) with (kd b) by (unfold kd; congruence). exact P3. }
      exists 0, m'. split; [reflexivity|].
      pose proof (mi_nd _ H) as N. apply (nodup_perm _ _ (map fst ((k, data b) :: contents m'))) in N; [|apply Permutation_map; exact P].
      cbn [map fst] in N. inversion N as [|x y N1 N2]; subst x y.
      split; [|split; [reflexivity|left; split; [reflexivity|exists (data b); exact P]]].
      split; cbn [m' m_bits m_size m_tab].
      * right. lia.
      * lia.
      * intros _. exact P1.
      * intros _. exact P2.
      * exact N2.
      * pose proof (Permutation_length P) as Ln. cbn [length] in Ln. pose proof (mi_sz _ H).
        change (contents (mk_hmap t (m_size m - 1) (m_bits m))) with (contents m'). lia.
      * pose proof (mi_load _ H). lia.
      * intros k' d' J. apply (mi_data _ H k' d'). eapply Permutation_in; [symmetry; exact P|]. right. exact J.
    + exists MAP_EINVAL, m. auto 10.
Qed.

(* ---- the other calls ---- *)
Lemma clear_step : forall m, MI m -> MI (map_clear m) /\ contents (map_clear m) = [] /\ m_bits (map_clear m) = m_bits m.
Proof.
  intros m H. unfold map_clear. destruct (Z.eqb_spec (m_size m) 0) as [S|S].
  - split; [exact H|]. split; [apply empty_contents; assumption|reflexivity].
  - assert (B : 4 <= m_bits m <= 31) by (destruct (mi_bits _ H); lia).
    assert (C : contents (mk_hmap no_tab 0 (m_bits m)) = []).
    { unfold contents, buckets. cbn [m_tab]. rewrite empty_upto. reflexivity. }
    split; [|split; [exact C|reflexivity]].
    split; cbn [m_bits m_size m_tab]; rewrite ?C; try lia.
    + intros _. apply empty_I1.
    + intros _. apply empty_I2.
    + constructor.
    + reflexivity.
    + assert (0 < tlen (m_bits m)) by (unfold tlen; apply Z.pow_pos_nonneg; lia). lia.
    + intros k d [].
Qed.
Lemma call_visits : forall f l, visits f (map data l) (fst (call_each f l)) (snd (call_each f l)).
Proof.
  intros f l. induction l as [|b l IH]; cbn [call_each map]; [constructor|].
  destruct (Z.eqb_spec (f (data b)) 0) as [Z0|Z0].
  - destruct (call_each f l) as [v r]. cbn [fst snd] in *. constructor; assumption.
  - cbn [fst snd]. apply v_stop. exact Z0.
Qed.
Lemma each_step : forall m f, MI m -> exists l, Permutation l (map snd (contents m)) /\
  visits f l (fst (map_each m f)) (snd (map_each m f)).
Proof.
  intros m f H. unfold map_each. destruct (Z.eqb_spec (m_size m) 0) as [S|S].
  - rewrite (empty_contents m H S). exists []. split; [reflexivity|constructor].
  - exists (map data (buckets (m_tab m) (m_bits m))). split; [|apply call_visits].
    unfold contents. rewrite map_map. reflexivity.
Qed.

(* ---- histories ---- *)
Lemma step_ok : forall m o, MI m -> m_bits m <= 30 -> op_fine o ->
  (forall k d mem, o = MInsert k d mem -> m_size m < MAP_LIMIT) ->
  exists a m' s', map_step m o = Ok (a, m') /\ MI m' /\ m_bits m' <= 30 /\ spec_step (contents m) o a s' /\ Permutation (contents m') s'.
Proof.
  intros m o H B F Lim. destruct o as [k d mem|k|k| | |f]; cbn [map_step op_fine] in *.
  - destruct (insert_step m k d mem H B (Lim k d mem eq_refl) F) as (rv & m' & -> & H' & B' & [(-> & X & P)|[(-> & (d' & X) & P)|(-> & -> & P)]]).
    + eexists _, m', _. split; [reflexivity|]. split; [exact H'|]. split; [exact B'|]. split; [apply sp_insert; exact X|exact P].
    + eexists _, m', _. split; [reflexivity|]. split; [exact H'|]. split; [exact B'|]. split; [apply (sp_insert_dup _ _ _ d'); exact X|exact P].
    + eexists _, m', _. split; [reflexivity|]. split; [exact H'|]. split; [exact B'|]. split; [apply sp_insert_nomem|exact P].
  - destruct (find_step m k H) as (d & -> & [X|(-> & X)]); eexists _, m, (contents m); (split; [reflexivity|]); (split; [exact H|]);
      (split; [exact B|]); (split; [|reflexivity]).
    + apply sp_find. exact X.
    + apply sp_find_none. exact X.
  - destruct (remove_step m k H) as (rv & m' & -> & H' & B' & [(-> & d & P)|(-> & X & ->)]).
    + eexists _, m', (contents m'). split; [reflexivity|]. split; [exact H'|]. split; [lia|]. split; [|reflexivity]. apply (sp_remove _ _ d). exact P.
    + eexists _, m, (contents m). split; [reflexivity|]. split; [exact H'|]. split; [lia|]. split; [|reflexivity]. apply sp_remove_none. exact X.
  - destruct (clear_step m H) as (H' & C & B'). eexists _, _, []. split; [reflexivity|]. split; [exact H'|]. split; [lia|].
    split; [constructor|rewrite C; reflexivity].
  - eexists _, m, (contents m). split; [reflexivity|]. split; [exact H|]. split; [exact B|]. split; [|reflexivity].
    rewrite <- (mi_sz _ H). constructor.
  - destruct (each_step m f H) as (l & P & V). destruct (map_each m f) as [v r]. cbn [fst snd] in V.
    eexists _, m, (contents m). split; [reflexivity|]. split; [exact H|]. split; [exact B|]. split; [|reflexivity].
    apply (sp_each _ _ l); assumption.
Qed.

Lemma absent_perm : forall k s s', Permutation s s' -> absent k s -> absent k s'.
Proof. intros k s s' P A d I. apply (A d). eapply Permutation_in; [symmetry; exact P|exact I]. Qed.
Lemma spec_perm : forall o s s' a s1, Permutation s s' -> spec_step s o a s1 ->
  exists s1', spec_step s' o a s1' /\ Permutation s1 s1'.
Proof.
  intros o s s' a s1 P S. destruct S.
  - exists ((k, d) :: s'). split; [apply sp_insert; eapply absent_perm; eassumption|]. constructor. exact P.
  - exists s'. split; [|exact P]. apply (sp_insert_dup _ _ _ d'). eapply Permutation_in; eassumption.
  - exists s'. split; [apply sp_insert_nomem|exact P].
  - exists s'. split; [|exact P]. apply sp_find. eapply Permutation_in; eassumption.
  - exists s'. split; [|exact P]. apply sp_find_none. eapply absent_perm; eassumption.
  - rename s'0 into r. exists r. split; [|reflexivity]. apply (sp_remove _ _ d). rewrite <- P. exact H.
  - exists s'. split; [|exact P]. apply sp_remove_none. eapply absent_perm; eassumption.
  - exists []. split; [constructor|reflexivity].
  - exists s'. split; [|exact P]. rewrite (Permutation_length P). constructor.
  - exists s'. split; [|exact P]. apply (sp_each _ _ l); [|exact H0]. rewrite H. apply Permutation_map. exact P.
Qed.

Lemma run_ok : forall ops m s, MI m -> m_bits m <= 30 -> Permutation (contents m) s -> Forall op_fine ops ->
  (forall pre k d mem post l m', ops = pre ++ MInsert k d mem :: post -> map_run m pre = Ok (l, m') -> m_size m' < MAP_LIMIT) ->
  exists l m' s', map_run m ops = Ok (l, m') /\ spec_run s ops l s' /\ MI m' /\ m_bits m' <= 30 /\ Permutation (contents m') s'.
Proof.
  induction ops as [|o ops IH]; intros m s H B P F Lim.
  - exists [], m, s. split; [reflexivity|]. split; [constructor|]. auto.
  - inversion F as [|x y F1 F2]; subst x y. cbn [map_run].
    destruct (step_ok m o H B F1) as (a & m1 & s1 & E & H1 & B1 & S1 & P1).
    { intros k d mem ->. apply (Lim [] k d mem ops [] m); reflexivity. }
    destruct (spec_perm o _ s a s1 P S1) as (s1' & S1' & P1').
    destruct (IH m1 s1' H1 B1 (perm_trans P1 P1') F2) as (l & m2 & s2 & R & SR & H2 & B2 & P2).
    { intros pre k d mem post l m' Eq Rn. apply (Lim (o :: pre) k d mem post (a :: l) m'); [rewrite Eq; reflexivity|].
      cbn [map_run]. rewrite E, Rn. reflexivity. }
    rewrite E, R. exists (a :: l), m2, s2. split; [reflexivity|]. split; [apply (sr_cons _ _ _ s1'); assumption|]. auto.
Qed.

(* beyond the limit *)
Lemma beyond : forall m k d k' d', MI m -> m_size m = MAP_LIMIT -> m_bits m <= 30 -> d <> 0 -> d' <> 0 -> absent k (contents m) ->
  exists m', map_insert m k d true = Ok (0, m') /\ map_insert m' k' d' true = Abort.
Proof.
  intros m k d k' d' H S B D D' A. assert (B30 : m_bits m = 30).
  { destruct (mi_bits _ H) as [[_ Z0]|]; [rewrite S in Z0; discriminate Z0|]. pose proof (mi_load _ H) as Ld. rewrite S in Ld.
    destruct (Z.eq_dec (m_bits m) 30); [assumption|]. assert (tlen (m_bits m) <= 2 ^ 29) by (unfold tlen; apply Z.pow_le_mono_r; lia).
    unfold MAP_LIMIT in Ld. lia. }
  unfold map_insert. destruct (Z.eqb_spec d 0); [contradiction|]. destruct (Z.eqb_spec d' 0); [contradiction|].
  rewrite S, B30. change ((MAP_LIMIT + 1) * 4 >? (tlen 30 * 3) mod 2 ^ 32) with true. cbn iota. change (if 30 =? 0 then 4 else 30 + 1) with 31.
  pose proof (resize_ok m 31 true H ltac:(lia)) as R. rewrite S in R. specialize (R ltac:(unfold MAP_LIMIT, tlen; lia)).
  destruct (map_resize m 31 true) as [m1|e|]; [|destruct R as (_ & R); discriminate R|contradiction].
  destruct R as (R1 & R2 & R3 & R4 & _).
  destruct (insert_main m1 k d R1 ltac:(lia)) as [(I & t & E & H2 & P2)|(I & E)].
  - rewrite R2, R3. unfold MAP_LIMIT, tlen. lia.
  - exact D.
  - rewrite E, R3, R2. eexists. split; [reflexivity|]. cbn [m_size m_bits].
    change ((MAP_LIMIT + 1 + 1) * 4 >? (tlen 31 * 3) mod 2 ^ 32) with true. cbn iota. change (if 31 =? 0 then 4 else 31 + 1) with 32.
    unfold map_resize. change (32 <=? 32) with true. cbn iota. reflexivity.
  - exfalso. apply in_map_iff in I. destruct I as ((k2, d2) & E2 & J). cbn in E2. subst k2. apply (A d2).
    eapply Permutation_in; [exact R4|exact J].
Qed.
