(* The encoder's book-keeping of outstanding sections and blocked streams. *)
From Verif Require Import Base BaseLemmas Tables ConvProofs QpackIntModel QpackIntSpec QpackIntProofs
  HuffModel HuffSpec HuffProofs QpackTabModel QpackTabSpec QpackTabProofs QpackDynSpec QpackDynProofs
  Chunk QpackDecModel QpackReadProofs QpackDecProofs QpackSecProofs QpackHistModel QpackHistProofs QpackCutProofs QpackEncModel
  QpackWireProofs QpackEncSpec QpackEncProofs QpackNvProofs QpackNvsProofs QpackShrinkProofs.

Definition refs_of (st : list (Z * list (Z * Z))) (id : Z) : list (Z * Z) :=
  match find_stream st id with None => [] | Some r => r end.

Lemma find_in st id r : find_stream st id = Some r -> In (id, r) st.
Proof.
  induction st as [|[i x] st IH]; cbn [find_stream]; [discriminate|]. destruct (Z.eqb_spec i id) as [->|].
  - intros [= ->]. left; auto.
  - intros H. right; auto.
Qed.
Lemma in_find st id r : NoDup (map fst st) -> In (id, r) st -> find_stream st id = Some r.
Proof.
  induction st as [|[i x] st IH]; intros N H; [destruct H|]. cbn [map fst find_stream] in *. inversion N; subst.
  destruct H as [H|H]; [injection H as -> ->; rewrite Z.eqb_refl; auto|].
  destruct (Z.eqb_spec i id) as [->|]; [|auto]. exfalso. apply H2. apply in_map_iff. exists (id, r). auto.
Qed.
Lemma find_remove st id i : find_stream (remove_stream st id) i = if i =? id then None else find_stream st i.
Proof.
  induction st as [|[j x] st IH]; cbn [remove_stream filter find_stream fst]; [destruct (i =? id); auto|].
  fold (remove_stream st id). destruct (Z.eqb_spec j id) as [->|Hj]; cbn [negb].
  - rewrite IH. rewrite (Z.eqb_sym id i). destruct (i =? id) eqn:E; auto.
  - cbn [find_stream]. rewrite IH. destruct (Z.eqb_spec j i) as [->|]; [|auto]. destruct (Z.eqb_spec i id); [lia|auto].
Qed.
Lemma find_put st id r i : find_stream (put_stream st id r) i = if i =? id then Some r else find_stream st i.
Proof.
  unfold put_stream. cbn [find_stream]. rewrite find_remove, (Z.eqb_sym id i). destruct (i =? id); auto.
Qed.
Lemma remove_in st id i : In i (map fst (remove_stream st id)) -> In i (map fst st) /\ i <> id.
Proof.
  intros H. apply in_map_iff in H as ([j r] & <- & H). apply filter_In in H as [H Hn]. cbn [fst] in *. split.
  - apply in_map_iff. exists (j, r). auto.
  - destruct (Z.eqb_spec j id); [discriminate|auto].
Qed.
Lemma remove_nodup st id : NoDup (map fst st) -> NoDup (map fst (remove_stream st id)).
Proof.
  induction st as [|[j r] st IH]; intros N; cbn [remove_stream filter fst]; [constructor|]. fold (remove_stream st id).
  cbn [map fst] in N. inversion N; subst. destruct (Z.eqb_spec j id); cbn [negb]; [auto|]. cbn [map fst]. constructor; [|auto].
  intros H. apply remove_in in H. tauto.
Qed.
Lemma put_nodup st id r : NoDup (map fst st) -> NoDup (map fst (put_stream st id r)).
Proof.
  intros N. unfold put_stream. cbn [map fst]. constructor; [|apply remove_nodup; auto]. intros H. apply remove_in in H. tauto.
Qed.

Lemma max_of_ge l r : In r l -> fst r <= max_of l.
Proof. induction l as [|x l IH]; intros H; [destruct H|]. cbn [max_of fold_right]. fold (max_of l). destruct H as [->|H]; [lia|]. specialize (IH H). lia. Qed.
Lemma max_of_nonneg l : 0 <= max_of l.
Proof. induction l as [|x l IH]; cbn [max_of fold_right]; [lia|]. fold (max_of l). lia. Qed.
Lemma max_of_ex l : max_of l = 0 \/ exists r, In r l /\ max_of l = fst r.
Proof.
  induction l as [|x l IH]; [auto|]. cbn [max_of fold_right]. fold (max_of l).
  destruct (Z.max_spec (fst x) (max_of l)) as [[_ ->]|[_ ->]]; [|right; exists x; split; [left|]; auto].
  destruct IH as [IH|(r & R & IH)]; [auto|]. right. exists r. split; [right|]; auto.
Qed.
Lemma max_of_snoc l mx mn : 0 <= mx -> max_of (l ++ [(mx, mn)]) = Z.max (max_of l) mx.
Proof.
  intros H. induction l as [|x l IH]; cbn [max_of fold_right app fst]; [lia|]. fold (max_of (l ++ [(mx, mn)])). fold (max_of l). lia.
Qed.
Lemma min_of_spec l : (forall r, In r l -> exists m, min_of l = Some m /\ m <= snd r) /\
  (forall m, min_of l = Some m -> exists r, In r l /\ snd r = m).
Proof.
  induction l as [|[a b] l [I1 I2]]; cbn [min_of]; [split; [intros r []|discriminate]|]. split.
  - intros r [<-|R].
    + cbn [snd]. destruct (min_of l); eexists; (split; [reflexivity|lia]).
    + destruct (I1 r R) as (m & -> & Hm). eexists. split; [reflexivity|]. lia.
  - intros m. destruct (min_of l) as [k|].
    + intros [= <-]. destruct (Z.min_spec b k) as [[_ ->]|[_ ->]].
      * exists (a, b). split; [left|]; auto.
      * destruct (I2 k eq_refl) as (r & R & E). exists r. split; [right|]; auto.
    + intros [= <-]. exists (a, b). split; [left|]; auto.
Qed.

Record sinv (st : list (Z * list (Z * Z))) (bl : list (Z * Z)) (k : Z) (c : ctx) : Prop := {
  si_nd : NoDup (map fst st);
  si_ne : forall id r, find_stream st id = Some r -> r <> [];
  si_refs : forall id mx mn, In (mx, mn) (refs_of st id) -> 1 <= mn <= mx /\ mx <= next_absidx c /\ inr c mn;
  si_k : 0 <= k <= next_absidx c;
  si_bl : forall m id, In (m, id) bl <-> m = max_of (refs_of st id) /\ k < m;
  si_bn : NoDup bl }.

Lemma refs_none st id : find_stream st id = None -> refs_of st id = [].
Proof. unfold refs_of. intros ->. auto. Qed.
Lemma all_refs_in st r : NoDup (map fst st) -> (In r (all_refs st) <-> exists id, In r (refs_of st id)).
Proof.
  intros N. unfold all_refs. rewrite in_flat_map. split.
  - intros ([id l] & H & R). exists id. unfold refs_of. rewrite (in_find _ _ _ N H). auto.
  - intros (id & R). unfold refs_of in R. destruct (find_stream st id) as [l|] eqn:E; [|destruct R]. exists (id, l). split; [apply find_in; auto|auto].
Qed.
Lemma gmin_spec e : NoDup (map fst (enc_streams e)) ->
  (forall id r, In r (refs_of (enc_streams e) id) -> exists m, gmin e = Some m /\ m <= snd r) /\
  (forall m, gmin e = Some m -> exists id r, In r (refs_of (enc_streams e) id) /\ snd r = m).
Proof.
  intros N. destruct (min_of_spec (all_refs (enc_streams e))) as [A B]. split.
  - intros id r R. apply A. apply all_refs_in; eauto.
  - intros m H. destruct (B m H) as (r & R & E). apply all_refs_in in R as (id & R); eauto.
Qed.
Lemma gmin_inr e : sinv (enc_streams e) (enc_blocked e) (enc_krcnt e) (enc_ctx e) -> forall m, gmin e = Some m -> inr (enc_ctx e) m.
Proof.
  intros H m G. destruct (proj2 (gmin_spec e (si_nd _ _ _ _ H)) m G) as (id & [mx mn] & R & <-). apply (si_refs _ _ _ _ H id mx mn R).
Qed.

Lemma sinv_init c : 0 <= next_absidx c -> sinv [] [] 0 c.
Proof.
  intros H. constructor.
  - constructor.
  - discriminate.
  - intros id mx mn [].
  - lia.
  - intros m id. split; [intros []|]. cbn. lia.
  - constructor.
Qed.
(* another table with the protected entries *)
Lemma sinv_ctx st bl k c c' : sinv st bl k c -> next_absidx c <= next_absidx c' ->
  (forall id mx mn, In (mx, mn) (refs_of st id) -> inr c' mn) -> sinv st bl k c'.
Proof.
  intros [A B C D E F] H I. constructor; auto; [|lia]. intros id mx mn R. destruct (C id mx mn R) as (X & Y & Z). split; [auto|]. split; [lia|]. eauto.
Qed.

Lemma filter_length_le A (f : A -> bool) l : (length (filter f l) <= length l)%nat.
Proof. induction l as [|x l IH]; cbn [filter length]; [lia|]. destruct (f x); cbn [length]; lia. Qed.
Lemma has_key_spec b k : has_key b k = true <-> In k b.
Proof.
  unfold has_key. rewrite existsb_exists. unfold key_eqb. destruct k as [m i]. cbn [fst snd]. split.
  - intros ([m' i'] & H & E). cbn [fst snd] in E. apply andb_true_iff in E as [E1 E2].
    apply Z.eqb_eq in E1. apply Z.eqb_eq in E2. subst. auto.
  - intros H. exists (m, i). split; [auto|]. cbn [fst snd]. rewrite !Z.eqb_refl. auto.
Qed.
Lemma key_eqb_spec a b : key_eqb a b = true <-> a = b.
Proof.
  destruct a, b. unfold key_eqb. cbn [fst snd]. rewrite andb_true_iff, !Z.eqb_eq. split; [intros [-> ->]; auto|intros [= -> ->]; auto].
Qed.

(* ---- a new section ---- *)
Lemma add_stream_ref_spec e id mx mn : sinv (enc_streams e) (enc_blocked e) (enc_krcnt e) (enc_ctx e) ->
  1 <= mn <= mx -> mx <= next_absidx (enc_ctx e) -> inr (enc_ctx e) mn ->
  exists b, add_stream_ref e id mx mn =
    Ok (en_set_str e (put_stream (enc_streams e) id (refs_of (enc_streams e) id ++ [(mx, mn)])) b) /\
    sinv (put_stream (enc_streams e) id (refs_of (enc_streams e) id ++ [(mx, mn)])) b (enc_krcnt e) (enc_ctx e) /\
    zlen b <= zlen (enc_blocked e) + (if is_blocked e (find_stream (enc_streams e) id) then 0 else if enc_krcnt e <? mx then 1 else 0).
Proof.
  intros H Hm Hx Hi. pose proof H as [Nd Ne Rf Hk Bl Bn]. unfold add_stream_ref.
  fold (refs_of (enc_streams e) id). set (st := enc_streams e) in *. set (rs := refs_of st id).
  set (rs' := rs ++ [(mx, mn)]). set (bl := enc_blocked e) in *. set (k := enc_krcnt e) in *.
  assert (Mx : max_of rs' = Z.max (max_of rs) mx) by (apply max_of_snoc; lia).
  assert (Blk : is_blocked e (find_stream st id) = (k <? max_of rs)).
  { unfold is_blocked, rs, refs_of. destruct (find_stream st id); [reflexivity|]. cbn. fold k. lia. }
  rewrite Blk.
  assert (Ri : forall i, refs_of (put_stream st id rs') i = if i =? id then rs' else refs_of st i).
  { intros i. unfold refs_of. rewrite find_put. destruct (i =? id); auto. }
  assert (Fin : forall b, (forall m i, In (m, i) b <-> m = max_of (refs_of (put_stream st id rs') i) /\ k < m) -> NoDup b ->
    sinv (put_stream st id rs') b k (enc_ctx e)).
  { intros b B1 B2. constructor; auto.
    - apply put_nodup; auto.
    - intros i r. rewrite find_put. destruct (i =? id); [intros [= <-]; unfold rs'; destruct rs; discriminate|apply Ne].
    - intros i mx' mn'. rewrite Ri. destruct (i =? id); [|apply Rf]. unfold rs'. intros R. apply in_app_or in R as [R|[R|[]]].
      + eapply Rf; eauto.
      + injection R as <- <-. auto. }
  destruct (Z.gtb_spec mx (max_of rs)) as [Hg|Hg].
  - rewrite andb_true_r. cbn [andb].
    destruct (Z.ltb_spec k (max_of rs)) as [Hb|Hb].
    + assert (Ik : In (max_of rs, id) bl) by (apply Bl; auto).
      unfold unblock_stream. rewrite (proj2 (has_key_spec _ _) Ik). cbn [obind].
      set (b1 := filter (fun x => negb (key_eqb (max_of rs, id) x)) bl).
      assert (B1 : forall m i, In (m, i) b1 <-> i <> id /\ m = max_of (refs_of st i) /\ k < m).
      { intros m i. unfold b1. rewrite filter_In, Bl. destruct (key_eqb (max_of rs, id) (m, i)) eqn:E.
        - apply key_eqb_spec in E. injection E as <- <-. cbn [negb]. split; [intros [_ X]; discriminate|intros (X & _); congruence].
        - cbn [negb]. split; [|tauto]. intros ((-> & X2) & _). split; [|auto]. intros ->.
          assert (key_eqb (max_of rs, id) (max_of (refs_of st id), id) = true) by (apply key_eqb_spec; auto). congruence. }
      assert (N1 : NoDup b1) by (apply NoDup_filter; auto).
      assert (L1 : zlen b1 + 1 <= zlen bl).
      { unfold b1. clear - Ik. unfold zlen. induction bl as [|x l IH]; [destruct Ik|]. cbn [filter]. destruct Ik as [->|Ik].
        - rewrite (proj2 (key_eqb_spec _ _) eq_refl). cbn [negb length]. pose proof (filter_length_le _ (fun x => negb (key_eqb (max_of rs, id) x)) l). lia.
        - specialize (IH Ik). destruct (negb _); cbn [length]; lia. }
      destruct (Z.ltb_spec k (max_of rs')) as [Hb2|Hb2]; [|lia].
      unfold block_stream. destruct (has_key b1 (max_of rs', id)) eqn:Hk2.
      { apply has_key_spec, B1 in Hk2. destruct Hk2 as [X _]. congruence. }
      cbn [obind]. exists ((max_of rs', id) :: b1). split; [reflexivity|]. split; [apply Fin|].
      * intros m i. cbn [In]. rewrite B1, Ri. destruct (Z.eqb_spec i id) as [->|Hi2].
        -- split; [intros [[= <-]|(X & _)]; [auto|congruence]|]. intros [-> _]. left. auto.
        -- split; [intros [[= _ X]|(_ & X)]; [congruence|auto]|]. intros X. right. auto.
      * constructor; [|auto]. intros X. apply has_key_spec in X. congruence.
      * rewrite zlen_cons. lia.
    + cbn [obind].
      destruct (Z.ltb_spec k (max_of rs')) as [Hb2|Hb2].
      * unfold block_stream. destruct (has_key bl (max_of rs', id)) eqn:Hk2.
        { apply has_key_spec, Bl in Hk2. fold rs in Hk2. lia. }
        cbn [obind]. exists ((max_of rs', id) :: bl). split; [reflexivity|]. split; [apply Fin|].
        -- intros m i. cbn [In]. rewrite Bl, Ri. destruct (Z.eqb_spec i id) as [->|Hi2].
           ++ split; [intros [[= <-]|X]; [auto|fold rs in X; lia]|]. intros [-> _]. left. auto.
           ++ split; [intros [[= _ X]|X]; [congruence|auto]|]. auto.
        -- constructor; [|auto]. intros X. apply has_key_spec in X. congruence.
        -- rewrite zlen_cons. destruct (Z.ltb_spec k mx); lia.
      * cbn [obind]. exists bl. split; [reflexivity|]. split; [apply Fin; auto|].
        -- intros m i. rewrite Bl, Ri. destruct (Z.eqb_spec i id) as [->|Hi2]; [|tauto]. fold rs. lia.
        -- destruct (k <? mx); lia.
  - rewrite andb_false_r. cbn [obind andb]. exists bl. split; [reflexivity|]. split; [apply Fin; auto|].
    + intros m i. rewrite Bl, Ri. destruct (Z.eqb_spec i id) as [->|Hi2]; [|tauto]. fold rs. rewrite Mx, Z.max_l by lia. tauto.
    + destruct (k <? max_of rs), (k <? mx); lia.
Qed.

(* ---- feedback ---- *)
Lemma unblock_spec st bl k k' c : sinv st bl k c -> k <= k' <= next_absidx c -> sinv st (unblock bl k') k' c.
Proof.
  intros [Nd Ne Rf Hk Bl Bn] H. constructor; auto; [lia| |apply NoDup_filter; auto].
  intros m id. unfold unblock. rewrite filter_In, Bl. cbn [fst]. destruct (Z.gtb_spec m k'); split; intros; [split; [tauto|lia]|split; [split; [tauto|lia]|auto]|destruct H1; discriminate|lia].
Qed.
Lemma add_icnt_spec e n : sinv (enc_streams e) (enc_blocked e) (enc_krcnt e) (enc_ctx e) -> 0 <= n ->
  if (n =? 0) || (next_absidx (enc_ctx e) <? enc_krcnt e + n) then add_icnt e n = Err ERR_QPACK_DECODER_STREAM_ERROR
  else add_icnt e n = Ok (en_set_krcnt e (enc_krcnt e + n) (unblock (enc_blocked e) (enc_krcnt e + n))) /\
       sinv (enc_streams e) (unblock (enc_blocked e) (enc_krcnt e + n)) (enc_krcnt e + n) (enc_ctx e).
Proof.
  intros H Hn. unfold add_icnt. pose proof (si_k _ _ _ _ H).
  replace (next_absidx (enc_ctx e) - enc_krcnt e <? n) with (next_absidx (enc_ctx e) <? enc_krcnt e + n) by lia.
  destruct ((n =? 0) || _) eqn:E; [auto|]. split; [auto|]. apply orb_false_iff in E as [_ E]. apply Z.ltb_ge in E.
  eapply unblock_spec; eauto. lia.
Qed.
Lemma ack_header_spec e id : sinv (enc_streams e) (enc_blocked e) (enc_krcnt e) (enc_ctx e) ->
  match refs_of (enc_streams e) id with
  | [] => ack_header e id = Err ERR_QPACK_DECODER_STREAM_ERROR
  | (mx, mn) :: rs => exists st b, ack_header e id = Ok (en_set_str (en_set_krcnt e (Z.max (enc_krcnt e) mx) b) st b) /\
      sinv st b (Z.max (enc_krcnt e) mx) (enc_ctx e) /\ zlen b <= zlen (enc_blocked e) /\
      forall i, refs_of st i = if i =? id then rs else refs_of (enc_streams e) i
  end.
Proof.
  intros H. pose proof H as [Nd Ne Rf Hk Bl Bn]. unfold ack_header, refs_of at 1.
  destruct (find_stream (enc_streams e) id) as [[|[mx mn] rs]|] eqn:F; [elim (Ne id [] F); auto| |auto].
  assert (R0 : refs_of (enc_streams e) id = (mx, mn) :: rs) by (unfold refs_of; rewrite F; auto).
  destruct (Rf id mx mn ltac:(rewrite R0; left; auto)) as (X1 & X2 & X3).
  set (k' := Z.max (enc_krcnt e) mx). set (b := if enc_krcnt e <? mx then unblock (enc_blocked e) mx else enc_blocked e).
  assert (S1 : sinv (enc_streams e) b k' (enc_ctx e)).
  { unfold b, k'. destruct (Z.ltb_spec (enc_krcnt e) mx).
    - rewrite Z.max_r by lia. eapply unblock_spec; eauto. lia.
    - rewrite Z.max_l by lia. auto. }
  set (st := match rs with [] => remove_stream (enc_streams e) id | _ => put_stream (enc_streams e) id rs end).
  assert (Ri : forall i, refs_of st i = if i =? id then rs else refs_of (enc_streams e) i).
  { intros i. unfold st, refs_of. destruct rs; [rewrite find_remove|rewrite find_put]; destruct (i =? id); auto. }
  exists st, b. split.
  { unfold st, k', b. destruct (Z.ltb_spec (enc_krcnt e) mx).
    - rewrite Z.max_r by lia. destruct rs; reflexivity.
    - rewrite Z.max_l by lia. destruct e; destruct rs; reflexivity. }
  split; [|split; [|exact Ri]].
  - destruct S1 as [A1 A2 A3 A4 A5 A6]. constructor; auto.
    + unfold st. destruct rs; [apply remove_nodup|apply put_nodup]; auto.
    + intros i r. unfold st. destruct rs; [rewrite find_remove|rewrite find_put]; (destruct (i =? id); [|apply Ne]); [discriminate|intros [= <-]; discriminate].
    + intros i mx' mn' R. rewrite Ri in R. destruct (Z.eqb_spec i id) as [->|]; [|eapply A3; eauto]. apply (A3 id). rewrite R0. right. auto.
    + intros m i. rewrite A5, Ri. destruct (Z.eqb_spec i id) as [->|]; [|tauto]. rewrite R0. cbn [max_of fold_right fst]. fold (max_of rs).
      unfold k' in *. lia.
  - unfold b. destruct (_ <? _); [|lia]. unfold unblock, zlen. pose proof (filter_length_le _ (fun x => fst x >? mx) (enc_blocked e)). lia.
Qed.
Lemma cancel_spec e id : sinv (enc_streams e) (enc_blocked e) (enc_krcnt e) (enc_ctx e) ->
  exists st b, enc_cancel e id = Ok (en_set_str e st b) /\ sinv st b (enc_krcnt e) (enc_ctx e) /\ zlen b <= zlen (enc_blocked e) /\
    forall i, refs_of st i = if i =? id then [] else refs_of (enc_streams e) i.
Proof.
  intros H. pose proof H as [Nd Ne Rf Hk Bl Bn]. unfold enc_cancel.
  destruct (find_stream (enc_streams e) id) as [r|] eqn:F.
  - assert (R0 : refs_of (enc_streams e) id = r) by (unfold refs_of; rewrite F; auto).
    assert (Ri : forall i, refs_of (remove_stream (enc_streams e) id) i = if i =? id then [] else refs_of (enc_streams e) i).
    { intros i. unfold refs_of. rewrite find_remove. destruct (i =? id); auto. }
    assert (Q : exists b, (if is_blocked e (Some r) then unblock_stream (enc_blocked e) (max_of r, id) else Ok (enc_blocked e)) = Ok b /\
      NoDup b /\ zlen b <= zlen (enc_blocked e) /\ forall m i, In (m, i) b <-> i <> id /\ In (m, i) (enc_blocked e)).
    { cbn [is_blocked]. destruct (Z.ltb_spec (enc_krcnt e) (max_of r)).
      - assert (Ik : In (max_of r, id) (enc_blocked e)) by (apply Bl; rewrite R0; auto).
        unfold unblock_stream. rewrite (proj2 (has_key_spec _ _) Ik). eexists. split; [reflexivity|]. split; [apply NoDup_filter; auto|].
        split. { unfold zlen. pose proof (filter_length_le _ (fun x => negb (key_eqb (max_of r, id) x)) (enc_blocked e)). lia. }
        intros m i. rewrite filter_In. destruct (key_eqb (max_of r, id) (m, i)) eqn:E; cbn [negb].
        + apply key_eqb_spec in E. injection E as <- <-. split; [intros [_ X]; discriminate|intros [X _]; congruence].
        + split; [|tauto]. intros [X _]. split; [|auto]. intros ->. apply Bl in X as [-> _]. rewrite R0 in E.
          rewrite (proj2 (key_eqb_spec (max_of r, id) _) eq_refl) in E. discriminate.
      - exists (enc_blocked e). split; [auto|]. split; [auto|]. split; [lia|]. intros m i. split; [|tauto]. intros X. split; [|auto]. intros ->.
        apply Bl in X. rewrite R0 in X. lia. }
    destruct Q as (b & Q & Qn & Ql & Qi). rewrite Q. cbn [obind]. eexists _, b. split; [reflexivity|]. split; [|split; [auto|exact Ri]]. constructor; auto.
    + apply remove_nodup; auto.
    + intros i x. rewrite find_remove. destruct (i =? id); [discriminate|apply Ne].
    + intros i mx mn R. rewrite Ri in R. destruct (i =? id); [destruct R|]. eauto.
    + intros m i. rewrite Qi, Bl, Ri. destruct (Z.eqb_spec i id) as [->|]; [|tauto]. cbn [max_of fold_right]. split; [tauto|lia].
  - exists (enc_streams e), (enc_blocked e). split; [destruct e; reflexivity|]. split; [auto|]. split; [lia|]. intros i.
    destruct (Z.eqb_spec i id) as [->|]; [apply refs_none; auto|auto].
Qed.
