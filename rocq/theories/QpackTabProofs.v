From Verif Require Import Base BaseLemmas Tables QpackTabModel QpackTabSpec.

Lemma beqb_spec a b : beqb a b = true <-> a = b.
Proof. apply list_eqb_spec. Qed.
Lemma beqb_refl a : beqb a a = true. Proof. apply beqb_spec; auto. Qed.

Lemma static_table_rfc : map (fun r => (fst (fst r), snd (fst r))) stable = rfc_static_table.
Proof. vm_compute. reflexivity. Qed.

Lemma stable_len_99 : stable_len = 99. Proof. reflexivity. Qed.
Lemma stable_get_rfc i : stable_get i =
  if (0 <=? i) && (i <? 99) then
    match nth_error stable (Z.to_nat i) with Some x => Some x | None => None end else None.
Proof.
  unfold stable_get. destruct (Z.ltb_spec i 0); destruct (Z.leb_spec 0 i); try lia; cbn [andb]; auto.
  destruct (Z.ltb_spec i 99); [destruct (nth_error stable (Z.to_nat i)); auto|].
  apply nth_error_None. change (Datatypes.length stable) with 99%nat. lia.
Qed.
Lemma stable_get_some i : 0 <= i < 99 -> exists n v t, stable_get i = Some (n, v, t).
Proof.
  intros H. unfold stable_get. destruct (Z.ltb_spec i 0); [lia|].
  destruct (nth_error stable (Z.to_nat i)) as [[[n v] t]|] eqn:E; [eauto|].
  apply nth_error_None in E. change (Datatypes.length stable) with 99%nat in E. lia.
Qed.
Lemma stable_get_range i x : stable_get i = Some x -> 0 <= i < 99.
Proof.
  unfold stable_get. destruct (Z.ltb_spec i 0); [discriminate|].
  intros E. assert (nth_error stable (Z.to_nat i) <> None) as N by congruence.
  apply nth_error_Some in N. change (Datatypes.length stable) with 99%nat in N. lia.
Qed.
Lemma stable_get_in i x : stable_get i = Some x -> In x stable.
Proof. unfold stable_get. destruct (i <? 0); [discriminate|]. apply nth_error_In. Qed.

(* ---- tokens ---- *)
Definition case_name (c : Z * Z * Z * Z * list Z * Z) : list Z :=
  let '(_, _, ch, _, lit, _) := c in lit ++ [ch].
Definition case_tok (c : Z * Z * Z * Z * list Z * Z) : Z := snd c.
Definition case_ok (c : Z * Z * Z * Z * list Z * Z) : bool :=
  let '(len, idx, ch, mlen, lit, _) := c in
  (mlen =? zlen lit) && (idx =? zlen lit) && (len =? zlen lit + 1).
Lemma cases_ok : forallb case_ok lookup_token_cases = true.
Proof. vm_compute. reflexivity. Qed.

Lemma case_match c name : case_ok c = true ->
  (let '(len, idx, ch, mlen, lit, tok) := c in
   (zlen name =? len) && (nth (Z.to_nat idx) name (-1) =? ch) && beqb (firstn (Z.to_nat mlen) name) lit)
  = beqb name (case_name c).
Proof.
  destruct c as [[[[[len idx] ch] mlen] lit] tok]. unfold case_ok, case_name.
  intros H. assert (mlen = zlen lit /\ idx = zlen lit /\ len = zlen lit + 1) as (-> & -> & ->) by lia. clear H.
  apply Bool.eq_iff_eq_true. rewrite !andb_true_iff, !beqb_spec, !Z.eqb_eq. split.
  - intros [[H1 H2] H3]. rewrite zlen_length in *.
    rewrite <- (firstn_skipn (length lit) name), H3. f_equal.
    assert (L : length (skipn (length lit) name) = 1%nat)
      by (rewrite skipn_length; unfold zlen in H1; lia).
    destruct (skipn (length lit) name) as [|x [|? ?]] eqn:E; try discriminate. f_equal.
    rewrite <- H2. rewrite <- (firstn_skipn (length lit) name) at 1.
    rewrite app_nth2 by (rewrite firstn_length; lia).
    rewrite E, firstn_length. unfold zlen in H1.
    replace (length lit - Nat.min (length lit) (length name))%nat with 0%nat by lia. reflexivity.
  - intros ->. rewrite zlen_app, zlen_cons, zlen_nil, zlen_length.
    rewrite firstn_app, firstn_all, Nat.sub_diag, app_nil_r.
    rewrite app_nth2, Nat.sub_diag by lia. repeat split; auto; lia.
Qed.

Definition token_names : list (list Z * Z) := map (fun c => (case_name c, case_tok c)) lookup_token_cases.
Fixpoint assoc_name (l : list (list Z * Z)) (name : list Z) : Z :=
  match l with
  | [] => -1
  | (n, t) :: l' => if beqb name n then t else assoc_name l' name
  end.
Lemma lookup_token_assoc name : lookup_token name = assoc_name token_names name.
Proof.
  unfold lookup_token, token_names. pose proof cases_ok as H. revert H.
  induction lookup_token_cases as [|c cs IH]; [reflexivity|].
  cbn [forallb lookup_cases map assoc_name]. intros H. apply andb_true_iff in H as [Hc Hs].
  pose proof (case_match c name Hc) as M. destruct c as [[[[[len idx] ch] mlen] lit] tok].
  rewrite M. unfold case_tok; cbn [snd]. destruct (beqb name (case_name _)); auto.
Qed.

Lemma assoc_in l name : assoc_name l name <> -1 -> In (name, assoc_name l name) l.
Proof.
  induction l as [|[n t] l IH]; cbn [assoc_name]; [congruence|].
  destruct (beqb name n) eqn:E; [apply beqb_spec in E; subst; left; auto|]. right; auto.
Qed.
Lemma assoc_none l name : assoc_name l name = -1 -> (forall n t, In (n, t) l -> t <> -1) -> ~ In name (map fst l).
Proof.
  induction l as [|[n t] l IH]; cbn [assoc_name map fst In]; [auto|]. intros H HN [->|HI].
  - rewrite beqb_refl in H. apply (HN name t); auto.
  - destruct (beqb name n) eqn:E; [apply (HN n t); auto|]. eapply IH; eauto.
Qed.

(* finite facts about the tables, each decided by computation *)
Fixpoint inb (x : list Z) (l : list (list Z)) : bool :=
  match l with [] => false | y :: l' => beqb x y || inb x l' end.
Lemma inb_spec x l : inb x l = true <-> In x l.
Proof.
  induction l; cbn; [split; [discriminate|tauto]|]. rewrite orb_true_iff, beqb_spec, IHl.
  split; intros [?|?]; subst; auto.
Qed.
Lemma tn_pos : forallb (fun p => 0 <=? snd p) token_names = true. Proof. vm_compute; reflexivity. Qed.
Lemma tn_known : forallb (fun p => inb (fst p) known_names) token_names = true.
Proof. vm_compute; reflexivity. Qed.
Lemma known_tn : forallb (fun n => negb (lookup_token n =? -1)) known_names = true.
Proof. vm_compute; reflexivity. Qed.
Lemma tn_inj : forallb (fun p => forallb (fun q => negb (snd p =? snd q) || beqb (fst p) (fst q)) token_names)
  token_names = true.
Proof. vm_compute; reflexivity. Qed.

Lemma lookup_token_in name : lookup_token name <> -1 -> In (name, lookup_token name) token_names.
Proof. rewrite lookup_token_assoc. apply assoc_in. Qed.
Lemma lookup_token_known name : lookup_token name <> -1 <-> In name known_names.
Proof.
  split.
  - intros H. apply lookup_token_in in H. pose proof tn_known as K. rewrite forallb_forall in K.
    apply K in H. apply inb_spec in H. exact H.
  - intros H. pose proof known_tn as K. rewrite forallb_forall in K. apply K in H. lia.
Qed.
Lemma lookup_token_inj n1 n2 : lookup_token n1 <> -1 -> lookup_token n1 = lookup_token n2 -> n1 = n2.
Proof.
  intros H E. assert (H2 : lookup_token n2 <> -1) by congruence.
  apply lookup_token_in in H; apply lookup_token_in in H2.
  pose proof tn_inj as K. rewrite forallb_forall in K. apply K in H. rewrite forallb_forall in H.
  apply H in H2. cbn [fst snd] in H2. apply orb_true_iff in H2 as [H2|H2]; [lia|].
  apply beqb_spec in H2; auto.
Qed.
Lemma lookup_token_range name : lookup_token name = -1 \/ 0 <= lookup_token name <= 98 \/ 1000 <= lookup_token name <= 1008.
Proof.
  destruct (Z.eq_dec (lookup_token name) (-1)) as [E|E]; [auto|right].
  apply lookup_token_in in E. revert E.
  assert (K : forallb (fun p => (0 <=? snd p) && (snd p <=? 98) || (1000 <=? snd p) && (snd p <=? 1008)) token_names = true)
    by (vm_compute; reflexivity).
  rewrite forallb_forall in K. intros E. apply K in E. cbn [snd] in E. lia.
Qed.

(* static rows carry the token of their name *)
Lemma stable_tokens : forallb (fun r => let '(n, v, t) := r in (t =? lookup_token n) && (0 <=? t) && (t <=? 98)) stable = true.
Proof. vm_compute; reflexivity. Qed.
Lemma stable_get_token i n v t : stable_get i = Some (n, v, t) -> t = lookup_token n /\ 0 <= t <= 98.
Proof.
  intros H. apply stable_get_in in H. pose proof stable_tokens as K. rewrite forallb_forall in K.
  apply K in H. cbv beta iota in H. lia.
Qed.

(* lookup_stable, for each token of a static name: rows of token_stable *)
Definition rows_of (tok : Z) : list Z := (* indices of the static rows the loop visits *)
  map (fun r => fst (fst r))
    ((fix go (l : list (Z * Z * Z)) := match l with
       | r :: l' => if snd (fst r) =? tok then r :: go l' else []
       | [] => [] end) (skipn (Z.to_nat tok) token_stable)).
Definition all_idx : list Z := map Z.of_nat (seq 0 99).
Definition row_name (i : Z) : list Z := match stable_get i with Some (n, _, _) => n | None => [] end.
Definition row_value (i : Z) : list Z := match stable_get i with Some (_, v, _) => v | None => [] end.
Definition zinb (x : Z) (l : list Z) : bool := existsb (Z.eqb x) l.
Definition token_rows_ok (p : list Z * Z) : bool :=
  let '(n, t) := p in
  if t <=? 98 then
    match rows_of t with [] => false | i :: _ =>
      match token_stable_get t with Some (j, t', _) => (i =? j) && (t' =? t) | None => false end end
    && forallb (fun i => (0 <=? i) && (i <? 99) && beqb (row_name i) n) (rows_of t)
    && forallb (fun i => negb (beqb (row_name i) n) || zinb i (rows_of t)) all_idx
  else negb (inb n (map fst rfc_static_table)).
Lemma token_rows : forallb token_rows_ok token_names = true.
Proof. vm_compute; reflexivity. Qed.

Lemma lookup_stable_loop_spec rows tok value :
  (forall a b c, In (a, b, c) rows -> b = tok -> 0 <= a < 99) ->
  let vis := map (fun r => fst (fst r))
    ((fix go (l : list (Z * Z * Z)) := match l with
       | r :: l' => if snd (fst r) =? tok then r :: go l' else []
       | [] => [] end) rows) in
  exists res, lookup_stable_loop rows tok value = Ok res /\
  match res with
  | Some i => In i vis /\ row_value i = value
  | None => forall i, In i vis -> row_value i <> value
  end.
Proof.
  induction rows as [|[[a b] c] rows IH]; intros HR; cbn.
  - exists None; split; auto.
  - cbn [fst snd]. destruct (Z.eqb_spec b tok) as [->|N]; cbn [map].
    + destruct (stable_get_some a) as (n & v & t & E); [apply (HR a tok c); cbn; auto|].
      rewrite E. destruct (beqb v value) eqn:Ev.
      * apply beqb_spec in Ev. subst. exists (Some a). split; [auto|]. split; [left; auto|].
        unfold row_value; rewrite E; auto.
      * destruct IH as (res & -> & H); [intros; eapply HR; cbn; eauto|].
        exists res. split; [auto|]. destruct res as [i|].
        -- destruct H; split; [right|]; auto.
        -- intros i [<-|HI]; [|auto]. cbn [fst]. unfold row_value; rewrite E.
           intros ->. rewrite beqb_refl in Ev; discriminate.
    + exists None; split; [auto|]. intros i [].
Qed.

Lemma token_stable_rows a b c : In (a, b, c) token_stable -> 0 <= a < 99.
Proof.
  assert (K : forallb (fun r => (0 <=? fst (fst r)) && (fst (fst r) <? 99)) token_stable = true) by (vm_compute; reflexivity).
  rewrite forallb_forall in K. intros H. apply K in H. cbn [fst] in H. lia.
Qed.

Lemma skipn_In A n (l : list A) x : In x (skipn n l) -> In x l.
Proof. intros H. rewrite <- (firstn_skipn n l). apply in_or_app; auto. Qed.

Lemma lookup_stable_spec name value never :
  0 <= lookup_token name <= 98 ->
  exists i exact, lookup_stable (lookup_token name) value never = Ok (i, exact) /\
    0 <= i < 99 /\ row_name i = name /\
    (exact = true <-> never = false /\ exists j, 0 <= j < 99 /\ row_name j = name /\ row_value j = value) /\
    (exact = true -> row_value i = value).
Proof.
  intros H. pose proof (lookup_token_in name ltac:(lia)) as HI.
  pose proof token_rows as K. rewrite forallb_forall in K. apply K in HI. unfold token_rows_ok in HI.
  destruct (Z.leb_spec (lookup_token name) 98); [|lia].
  apply andb_true_iff in HI as [HI H3]. apply andb_true_iff in HI as [H1 H2].
  unfold lookup_stable. set (t := lookup_token name) in *.
  destruct (token_stable_get t) as [[[a t'] h]|] eqn:E; [|destruct (rows_of t); discriminate].
  destruct (rows_of t) as [|i0 rs] eqn:ER; [discriminate|].
  apply andb_true_iff in H1 as [H1 _]. apply Z.eqb_eq in H1; subst i0.
  rewrite forallb_forall in H2, H3.
  assert (Ha : 0 <= a < 99 /\ row_name a = name).
  { specialize (H2 a (or_introl eq_refl)). apply andb_true_iff in H2 as [H2 H4]. apply beqb_spec in H4. split; [lia|auto]. }
  destruct never.
  - exists a, false. split; [auto|]. destruct Ha. repeat split; auto; try lia; try discriminate; intros [? _]; discriminate.
  - destruct (lookup_stable_loop_spec (skipn (Z.to_nat t) token_stable) t value) as (res & -> & HS).
    { intros a0 b0 c0 HIn _. apply skipn_In in HIn. eapply token_stable_rows; eauto. }
    cbv zeta in HS. fold (rows_of t) in HS. rewrite ER in HS.
    destruct res as [i|].
    + destruct HS as [HS1 HS2]. exists i, true. split; [auto|].
      pose proof (H2 i HS1) as H4. apply andb_true_iff in H4 as [H4 H5]. apply beqb_spec in H5.
      repeat split; auto; try lia. exists i. repeat split; auto; lia.
    + exists a, false. destruct Ha. split; [auto|]. repeat split; auto; try lia; try discriminate.
      intros [_ (j & Hj & Hn & Hv)]. exfalso.
      assert (Hin : In j all_idx).
      { unfold all_idx. apply in_map_iff. exists (Z.to_nat j). split; [lia|]. apply in_seq. lia. }
      apply H3 in Hin. rewrite Hn, beqb_refl in Hin. cbn [negb orb] in Hin.
      unfold zinb in Hin. apply existsb_exists in Hin as (x & Hx & Ex). apply Z.eqb_eq in Ex; subst x.
      eapply HS; eauto.
Qed.

Lemma row_rfc i : row_name i = fst (nth (Z.to_nat i) rfc_static_table ([], [])) /\
  row_value i = snd (nth (Z.to_nat i) rfc_static_table ([], [])) \/ i < 0.
Proof.
  destruct (Z.ltb_spec i 0); [auto|left].
  unfold row_name, row_value, stable_get. destruct (Z.ltb_spec i 0); [lia|].
  rewrite <- static_table_rfc.
  destruct (nth_error stable (Z.to_nat i)) as [[[n v] t]|] eqn:E.
  - pose proof (map_nth_error (fun r => (fst (fst r), snd (fst r))) _ _ E) as M.
    rewrite (nth_error_nth _ _ _ M). auto.
  - rewrite nth_overflow; [auto|]. rewrite map_length. apply nth_error_None; auto.
Qed.

Lemma stable_get_rfc_row i n v t : stable_get i = Some (n, v, t) ->
  t = lookup_token n /\ nth_error rfc_static_table (Z.to_nat i) = Some (n, v).
Proof.
  intros H. split; [eapply stable_get_token; eauto|].
  rewrite <- static_table_rfc. unfold stable_get in H. destruct (i <? 0); [discriminate|].
  apply (map_nth_error (fun r => (fst (fst r), snd (fst r)))) in H. exact H.
Qed.

Lemma static_name_token name : In name (map fst rfc_static_table) -> 0 <= lookup_token name <= 98.
Proof.
  assert (K : forallb (fun n => (0 <=? lookup_token n) && (lookup_token n <=? 98)) (map fst rfc_static_table) = true)
    by (vm_compute; reflexivity).
  rewrite forallb_forall in K. intros H; apply K in H. lia.
Qed.

Lemma row_nth i : 0 <= i < 99 -> nth_error rfc_static_table (Z.to_nat i) = Some (row_name i, row_value i).
Proof.
  intros H. destruct (stable_get_some i H) as (n & v & t & E).
  unfold row_name, row_value; rewrite E. eapply stable_get_rfc_row; eauto.
Qed.

Lemma lookup_stable_rfc name value never :
  In name (map fst rfc_static_table) ->
  exists i exact, lookup_stable (lookup_token name) value never = Ok (i, exact) /\
    0 <= i /\
    (exists v, nth_error rfc_static_table (Z.to_nat i) = Some (name, v) /\ (exact = true -> v = value)) /\
    (exact = true <-> never = false /\ In (name, value) rfc_static_table).
Proof.
  intros H. apply static_name_token in H.
  destruct (lookup_stable_spec name value never H) as (i & ex & E & Hi & Hn & Hx & Hv).
  exists i, ex. split; [auto|]. split; [lia|]. split.
  - exists (row_value i). rewrite row_nth by auto. rewrite Hn. auto.
  - rewrite Hx. split; intros [A B]; split; auto.
    + destruct B as (j & Hj & <- & <-). eapply nth_error_In. apply row_nth; auto.
    + apply In_nth_error in B as [k Ek].
      assert (Hk : (k < 99)%nat).
      { change 99%nat with (Datatypes.length rfc_static_table). apply nth_error_Some. congruence. }
      exists (Z.of_nat k). assert (R : 0 <= Z.of_nat k < 99) by lia. split; [auto|].
      pose proof (row_nth _ R) as Q. rewrite Nat2Z.id, Ek in Q. injection Q as -> ->. auto.
Qed.
