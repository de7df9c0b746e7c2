(* The index as a whole: iterators, and histories of calls *)
From Verif Require Import Base KslModel KslSpec KslProofs.
From Coq Require Import Lia Sorted.
Open Scope nat_scope.

(* ---- calls on the model ---- *)
Section Calls.
Variables (K D : Type) (lt : K -> K -> bool).
(* what the caller sees from an iterator to the end *)
Fixpoint walk (fuel : nat) (s : ksl K D) (it : iter) : list (K * D) :=
  match fuel with
  | O => []
  | S f => if it_end K D s it then [] else match it_node K D s it with Ok x => x :: walk f s (it_next K D s it) | _ => [] end
  end.
Definition rest (s : ksl K D) (it : iter) : list (K * D) := walk (S (k_n K D s)) s it.
(* the iterator n steps after nghttp3_ksl_begin *)
Fixpoint nth_it (s : ksl K D) (n : nat) : iter :=
  match n with O => ksl_begin K D s | S m => it_next K D s (nth_it s m) end.
Definition seen (s : ksl K D) : list (K * D) := rest s (ksl_begin K D s).

Definition kstep (s : ksl K D) (o : kop K D) : outcome (kans K D * ksl K D) :=
  match o with
  | KInsert q d => match ksl_insert K D lt s q d with Ok (rv, it, s') => Ok (AnsIt rv (rest s' it), s') | Err e => Err e | Abort => Abort end
  | KRemove q => match ksl_remove K D lt s q with
                 | Ok (rv, Some it, s') => Ok (AnsIt rv (rest s' it), s')
                 | Ok (rv, None, s') => Ok (AnsNoIt rv, s')
                 | Err e => Err e | Abort => Abort end
  | KRemoveHint n => match it_node K D s (nth_it s n) with
                     | Ok (q, _) => match ksl_remove_hint K D lt s (nth_it s n) q with
                                    | Ok (rv, Some it, s') => Ok (AnsIt rv (rest s' it), s')
                                    | Ok (rv, None, s') => Ok (AnsNoIt rv, s')
                                    | Err e => Err e | Abort => Abort end
                     | Err e => Err e | Abort => Abort end
  | KLower p => match ksl_lower_bound K D s p with Ok it => Ok (AnsIt 0 (rest s it), s) | Err e => Err e | Abort => Abort end
  | KUpdate old new => match ksl_update_key K D lt s old new with Ok s' => Ok (AnsVoid, s') | Err e => Err e | Abort => Abort end
  | KLen => Ok (AnsLen (ksl_len K D s), s)
  | KClear => Ok (AnsVoid, ksl_clear K D s)
  end.
Fixpoint krun (s : ksl K D) (ops : list (kop K D)) : outcome (list (kans K D) * ksl K D) :=
  match ops with
  | [] => Ok ([], s)
  | o :: r => match kstep s o with
              | Ok (a, s1) => match krun s1 r with Ok (l, s2) => Ok (a :: l, s2) | Err e => Err e | Abort => Abort end
              | Err e => Err e
              | Abort => Abort
              end
  end.
End Calls.

Section H.
Variables (K D : Type) (lt : K -> K -> bool).
Hypothesis Ord : order K lt.
Let lt_irr := proj1 Ord.
Let lt_trans := proj1 (proj2 Ord).
Let lt_neg := proj2 (proj2 Ord).
Notation ksl := (ksl K D).
Notation at_off := (at_off K D).
Notation at_in := (at_in K D).
Notation ok := (ok K D lt).
Notation fl := (fl K D).

(* ---- iterators ---- *)
Fixpoint place (ls : list (list (K * D))) (n : nat) : iter :=
  match ls with
  | [] => (O, O)
  | [l] => (O, n)
  | l :: r => if n <? length l then (O, n) else let '(a, b) := place r (n - length l) in (S a, b)
  end.
Definition fine (ls : list (list (K * D))) : Prop := length ls <= 1 \/ Forall (fun l => l <> []) ls.
Lemma place_in : forall pre l post i, i < length l -> place (pre ++ l :: post) (length (concat pre) + i) = (length pre, i).
Proof.
  induction pre as [|m pre IH]; intros l post i L.
  - cbn [app concat length]. destruct post as [|l2 post]; [reflexivity|]. cbn [place]. rewrite Nat.add_0_l.
    destruct (Nat.ltb_spec i (length l)); [reflexivity|lia].
  - cbn [app concat length]. rewrite app_length. cbn [place]. destruct (pre ++ l :: post) as [|l2 r] eqn:E; [destruct pre; discriminate E|].
    destruct (Nat.ltb_spec (length m + length (concat pre) + i) (length m)); [lia|].
    rewrite <- E. replace (length m + length (concat pre) + i - length m) with (length (concat pre) + i) by lia. rewrite IH by exact L. reflexivity.
Qed.
Lemma place_end : forall pre l, place (pre ++ [l]) (length (concat pre) + length l) = (length pre, length l).
Proof.
  induction pre as [|m pre IH]; intros l; [reflexivity|].
  cbn [app concat length]. rewrite app_length. cbn [place]. destruct (pre ++ [l]) as [|l2 r] eqn:E; [destruct pre; discriminate E|].
  destruct (Nat.ltb_spec (length m + length (concat pre) + length l) (length m)); [lia|].
  rewrite <- E. replace (length m + length (concat pre) + length l - length m) with (length (concat pre) + length l) by lia. rewrite IH. reflexivity.
Qed.
Lemma nth_pre : forall (A : Type) (pre : list A) l post, nth_error (pre ++ l :: post) (length pre) = Some l.
Proof. intros. rewrite nth_error_app2 by lia. rewrite Nat.sub_diag. reflexivity. Qed.
Lemma onward_place : forall (s : ksl) it n, fine (k_leaves K D s) -> at_off (k_leaves K D s) it n -> onward K D s it = place (k_leaves K D s) n.
Proof.
  intros s [lf i] n F (pre & l & post & E & A & B & C). cbn [fst snd] in *. subst lf n. unfold onward. rewrite E in *. rewrite nth_pre.
  destruct (Nat.eqb_spec i (length l)) as [Ei|Ni]; cbn [andb].
  - subst i. destruct post as [|l2 post].
    + rewrite app_length. cbn [length]. replace (length pre + 1) with (S (length pre)) by lia. rewrite Nat.ltb_irrefl. symmetry. apply place_end.
    + destruct (Nat.ltb_spec (S (length pre)) (length (pre ++ l :: l2 :: post))); [|rewrite app_length in *; cbn [length] in *; lia].
      destruct F as [F|F]; [rewrite app_length in F; cbn [length] in F; lia|].
      apply Forall_app in F. destruct F as (_ & F). inversion F as [|? ? _ F1]; subst. inversion F1 as [|? ? F2 _]; subst.
      replace (pre ++ l :: l2 :: post) with ((pre ++ [l]) ++ l2 :: post) by (rewrite <- app_assoc; reflexivity).
      replace (length (concat pre) + length l) with (length (concat (pre ++ [l])) + 0) by (rewrite concat_app, app_length; cbn [concat length]; rewrite app_nil_r; lia).
      rewrite place_in; [rewrite app_length; cbn [length]; f_equal; lia|]. destruct l2; [contradiction|cbn [length]; lia].
  - symmetry. apply place_in. lia.
Qed.
Lemma in_place : forall ls it n, at_in ls it n -> it = place ls n.
Proof. intros ls [lf i] n (pre & l & post & -> & A & B & ->). cbn [fst snd] in *. subst lf. symmetry. apply place_in. exact B. Qed.
Lemma find_leaf : forall (ls : list (list (K * D))) n, n < length (concat ls) ->
  exists pre l post i, ls = pre ++ l :: post /\ i < length l /\ n = length (concat pre) + i.
Proof.
  induction ls as [|l ls IH]; intros n L; [cbn in L; lia|].
  destruct (Nat.lt_ge_cases n (length l)) as [A|A].
  - exists [], l, ls, n. auto.
  - cbn [concat] in L. rewrite app_length in L. destruct (IH (n - length l)) as (pre & l0 & post & i & -> & B & C); [lia|].
    exists (l :: pre), l0, post, i. split; [reflexivity|]. split; [exact B|]. cbn [concat]. rewrite app_length. lia.
Qed.
Lemma concat_nth : forall (pre : list (list (K * D))) l post i x, nth_error l i = Some x -> nth_error (concat (pre ++ l :: post)) (length (concat pre) + i) = Some x.
Proof.
  intros. rewrite concat_app. cbn [concat]. rewrite nth_error_app2 by lia. replace (length (concat pre) + i - length (concat pre)) with i by lia.
  rewrite nth_error_app1; [assumption|]. apply nth_error_Some. congruence.
Qed.
Lemma node_place : forall (s : ksl) n x, nth_error (concat (k_leaves K D s)) n = Some x -> it_node K D s (place (k_leaves K D s) n) = Ok x.
Proof.
  intros s n x Nx. assert (L : n < length (concat (k_leaves K D s))) by (apply nth_error_Some; congruence).
  destruct (find_leaf _ _ L) as (pre & l & post & i & E & Li & ->). unfold it_node. rewrite E in *. rewrite place_in by exact Li. cbn [fst snd]. rewrite nth_pre.
  destruct (nth_error l i) as [y|] eqn:Y; [|apply nth_error_None in Y; lia]. rewrite (concat_nth pre l post i y Y) in Nx. injection Nx as <-. reflexivity.
Qed.
Lemma next_place : forall (s : ksl) n, fine (k_leaves K D s) -> n < length (concat (k_leaves K D s)) ->
  it_next K D s (place (k_leaves K D s) n) = place (k_leaves K D s) (S n).
Proof.
  intros s n F L. destruct (find_leaf _ _ L) as (pre & l & post & i & E & Li & ->). unfold it_next. apply onward_place; [exact F|].
  rewrite E, place_in by exact Li. exists pre, l, post. cbn [fst snd]. split; [reflexivity|]. lia.
Qed.
Lemma end_place : forall (s : ksl) n, fine (k_leaves K D s) -> n <= length (concat (k_leaves K D s)) ->
  it_end K D s (place (k_leaves K D s) n) = (n =? length (concat (k_leaves K D s))).
Proof.
  intros s n F L. unfold it_end. destruct (Nat.eqb_spec n (length (concat (k_leaves K D s)))) as [En|Nn].
  - destruct (k_leaves K D s) as [|m ms] eqn:Els; [reflexivity|]. assert (Ne : m :: ms <> []) by discriminate.
    destruct (exists_last Ne) as (pre & l & E). rewrite E in *. rewrite En, concat_app, app_length. cbn [concat]. rewrite app_nil_r.
    rewrite place_end. cbn [fst snd]. rewrite nth_pre, Nat.eqb_refl. rewrite app_length. cbn [length]. replace (length pre + 1) with (S (length pre)) by lia.
    rewrite Nat.ltb_irrefl. reflexivity.
  - destruct (find_leaf (k_leaves K D s) n) as (pre & l & post & i & E & Li & ->); [lia|]. rewrite E, place_in by exact Li. cbn [fst snd]. rewrite nth_pre.
    destruct (Nat.eqb_spec (length l) i); [lia|reflexivity].
Qed.
Lemma prev_place : forall (s : ksl) n, fine (k_leaves K D s) -> n < length (concat (k_leaves K D s)) ->
  it_prev K D s (place (k_leaves K D s) (S n)) = Ok (place (k_leaves K D s) n).
Proof.
  intros s n F L. rewrite <- next_place by assumption. destruct (find_leaf _ _ L) as (pre & l & post & i & E & Li & ->).
  rewrite E, place_in by exact Li. unfold it_next. cbn [fst snd]. unfold onward. rewrite E, nth_pre.
  destruct ((S i =? length l) && (S (length pre) <? length (pre ++ l :: post))) eqn:C.
  - apply andb_true_iff in C. destruct C as (C1 & _). apply Nat.eqb_eq in C1. unfold it_prev, it_begin. cbn [fst snd Nat.eqb andb].
    rewrite E. rewrite Nat.sub_succ, Nat.sub_0_r, nth_pre. replace (length l - 1) with i by lia. reflexivity.
  - unfold it_prev, it_begin. cbn [fst snd Nat.eqb andb]. replace (S i - 1) with i by lia. reflexivity.
Qed.
Lemma begin_place : forall ls, fine ls -> place ls 0 = (0, 0).
Proof.
  intros [|l [|l2 r]] F; [reflexivity|reflexivity|]. cbn [place]. destruct F as [F|F]; [cbn in F; lia|]. inversion F as [|? ? F1 _]; subst.
  destruct l; [contradiction|]. reflexivity.
Qed.
Lemma ksl_end_place : forall (s : ksl), ksl_end K D s = place (k_leaves K D s) (length (concat (k_leaves K D s))).
Proof.
  intros s. unfold ksl_end. destruct (k_leaves K D s) as [|m ms]; [reflexivity|]. assert (Ne : m :: ms <> []) by discriminate.
  destruct (exists_last Ne) as (pre & l & E). rewrite E. rewrite last_last, app_length, concat_app, app_length. cbn [concat length]. rewrite app_nil_r, place_end.
  f_equal. lia.
Qed.
Lemma begin_iff : forall ls n, fine ls -> n <= length (concat ls) -> (place ls n = (0, 0) <-> n = 0).
Proof.
  intros ls n F L. split; [|intros ->; apply begin_place; exact F].
  intros E. destruct ls as [|l [|l2 r]]; [cbn in L; lia|cbn in E; injection E as ->; reflexivity|].
  change (place (l :: l2 :: r) n) with (if n <? length l then (0, n) else let '(a, b) := place (l2 :: r) (n - length l) in (S a, b)) in E. destruct (Nat.ltb_spec n (length l)); [injection E as ->; reflexivity|].
  destruct (place (l2 :: r) (n - length l)) as [a b]. unfold iter in E. discriminate E.
Qed.
Lemma walk_place : forall (s : ksl) fuel n, fine (k_leaves K D s) -> n <= length (concat (k_leaves K D s)) -> length (concat (k_leaves K D s)) - n < fuel ->
  walk K D fuel s (place (k_leaves K D s) n) = skipn n (concat (k_leaves K D s)).
Proof.
  intros s fuel. induction fuel as [|f IH]; intros n F L Fu; [lia|]. cbn [walk]. rewrite end_place by assumption.
  destruct (Nat.eqb_spec n (length (concat (k_leaves K D s)))) as [->|Nn]; [symmetry; apply skipn_all|].
  destruct (nth_error (concat (k_leaves K D s)) n) as [x|] eqn:Nx; [|apply nth_error_None in Nx; lia].
  rewrite (node_place s n x Nx), next_place by (assumption || lia). rewrite IH by (assumption || lia).
  clear -Nx. revert n Nx. induction (concat (k_leaves K D s)) as [|y l IH]; intros [|n] Nx; try discriminate Nx; cbn [nth_error skipn] in *.
  - injection Nx as <-. reflexivity.
  - apply IH. exact Nx.
Qed.

(* ---- the state ---- *)
Definition cont (s : ksl) : list (K * D) := concat (k_leaves K D s).
Definition wf (s : ksl) : Prop :=
  match k_head K D s with
  | None => True
  | Some (existT _ h t) => ok h t /\ (h = 0 \/ 2 <= length t) /\ length t <= MAX_NBLK
  end /\ k_n K D s = length (cont s).
Lemma leaf_sizes : forall h (t : blk K D (S h)), ok (S h) t -> Forall (fun l => MIN_NBLK <= length l) (leaves K D (S h) t).
Proof.
  induction h as [|h IH]; intros t O.
  - induction t as [|[k c] t IHt]; [constructor|]. destruct O as (F & Or). pose proof (Forall_inv F) as G. cbn [snd] in G.
    change (leaves K D 1 ((k, c) :: t)) with (leaves K D 0 c ++ leaves K D 1 t). constructor; [apply G|].
    apply IHt. split; [exact (Forall_inv_tail F)|]. cbn [ord] in Or. apply Or.
  - induction t as [|[k c] t IHt]; [constructor|]. destruct O as (F & Or). pose proof (Forall_inv F) as G. cbn [snd] in G.
    change (leaves K D (S (S h)) ((k, c) :: t)) with (leaves K D (S h) c ++ leaves K D (S (S h)) t). apply Forall_app. split; [apply IH; apply G|].
    apply IHt. split; [exact (Forall_inv_tail F)|]. cbn [ord] in Or. apply Or.
Qed.
Lemma wf_fine : forall s, wf s -> fine (k_leaves K D s).
Proof.
  intros s (W & _). unfold k_leaves. destruct (k_head K D s) as [[[|h] t]|]; [left; cbn; lia| |left; cbn; lia].
  right. destruct W as (O & _). eapply Forall_impl; [|apply leaf_sizes; exact O]. cbn beta. intros l L ->. cbn in L. unfold MIN_NBLK in L. lia.
Qed.
Lemma wf_rest : forall s n, wf s -> n <= length (cont s) -> rest K D s (place (k_leaves K D s) n) = skipn n (cont s).
Proof. intros s n W L. unfold rest. apply walk_place; [apply wf_fine; exact W|exact L|]. destruct W as (_ & ->). unfold cont. lia. Qed.
Lemma wf_end : forall s, wf s -> rest K D s (ksl_end K D s) = [].
Proof. intros s W. rewrite ksl_end_place. change (concat (k_leaves K D s)) with (cont s). rewrite wf_rest by (assumption || lia). apply skipn_all. Qed.
Lemma wf_seen : forall s, wf s -> seen K D s = cont s.
Proof.
  intros s W. unfold seen, ksl_begin. rewrite <- (begin_place _ (wf_fine s W)). rewrite wf_rest by (assumption || lia). reflexivity.
Qed.
Lemma nth_it_place : forall s n, wf s -> n <= length (cont s) -> nth_it K D s n = place (k_leaves K D s) n.
Proof.
  intros s n W. induction n as [|n IH]; intros L; [symmetry; apply begin_place; apply wf_fine; exact W|].
  cbn [nth_it]. rewrite IH by lia. apply next_place; [apply wf_fine; exact W|exact L].
Qed.
Lemma fl_cont : forall h (t : blk K D h) n, cont (mk_ksl K D (Some (existT _ h t)) n) = fl h t.
Proof. reflexivity. Qed.
Lemma wf_sorted : forall s, wf s -> StronglySorted (fun x y => lt (fst x) (fst y) = true) (cont s).
Proof.
  intros s (W & _). unfold cont, k_leaves. destruct (k_head K D s) as [[h t]|]; [|constructor].
  apply (ok_srt K D lt lt_irr lt_trans lt_neg h t). apply W.
Qed.
Lemma wf_room : forall h (t : blk K D (S h)), 2 <= length t -> 
  (length t = 2 -> child_n K (A := K * child K D h) t 0 = MIN_NBLK -> child_n K (A := K * child K D h) t 1 = MIN_NBLK -> False) -> room K D true (S h) t.
Proof. intros h t A B. split; assumption. Qed.

(* ---- the calls ---- *)
Lemma split_head_ok : forall h (t : blk K D h), ok h t -> length t = MAX_NBLK ->
  exists t1, split_head K D t = Ok t1 /\ ok (S h) t1 /\ length t1 = 2 /\ fl (S h) t1 = fl h t.
Proof.
  intros h t O L. destruct (split_blk_ok K (child K D h) t L) as (l & r & kl & kr & S0 & E & Ll & Lr & Kl & Kr).
  unfold split_head. rewrite S0, Kl, Kr. eexists. split; [reflexivity|].
  assert (O' : ok h (l ++ r)) by (rewrite <- E; exact O). pose proof (ok_app K D lt h l r O') as (Ol & Or).
  split; [|split; [reflexivity|]].
  - split.
    + constructor; [split; [cbn [snd]; unfold MIN_NBLK, MAX_NBLK; lia|exact Ol]|]. constructor; [|constructor].
      split; [cbn [snd]; unfold MIN_NBLK, MAX_NBLK; lia|exact Or].
    + cbn [ord]. split; [apply bounded_of; [exact lt_irr|exact Kl]|]. split; [|split; [apply bounded_of; [exact lt_irr|exact Kr]|split; [intros x []|exact Logic.I]]].
      intros x I. rewrite flat_1 in I. apply (cut_lt K D lt h l r kl O' Kl x I).
  - rewrite fl_S. rewrite flat_cons, flat_1. rewrite <- fl_app. f_equal. symmetry. exact E.
Qed.
Lemma skipn_here : forall (A : Type) (a b : list A), skipn (length a) (a ++ b) = b.
Proof. intros. rewrite skipn_app, Nat.sub_diag, skipn_all. reflexivity. Qed.

Lemma insert_ok : forall s q d, wf s -> exists rv it s', ksl_insert K D lt s q d = Ok (rv, it, s') /\ wf s' /\
  s_step K D lt (cont s) (KInsert q d) (AnsIt rv (rest K D s' it)) (cont s').
Proof.
  intros s q d (W & N).
  assert (G : forall h (t : blk K D h), ok h t -> (h = 0 \/ 2 <= length t) -> length t < MAX_NBLK -> fl h t = cont s ->
    exists rv it s', match insert_loop K D lt h q d t with
      | Ok (true, it, t') => Ok (0%Z, it, mk_ksl K D (Some (existT _ h t')) (S (k_n K D s)))
      | Ok (false, _, t') => Ok (KSL_EINVAL, ksl_end K D (mk_ksl K D (Some (existT _ h t')) (k_n K D s)), mk_ksl K D (Some (existT _ h t')) (k_n K D s))
      | Err e => Err e | Abort => Abort end = Ok (rv, it, s') /\ wf s' /\
      s_step K D lt (cont s) (KInsert q d) (AnsIt rv (rest K D s' it)) (cont s')).
  { intros h t O Nt Lt E. destruct (insert_loop_ok K D lt lt_irr lt_trans lt_neg h q d t O) as (f & it & t' & -> & O' & L' & _ & R).
    { destruct Nt as [Nt|Nt]; [left; exact Nt|right; intros ->; cbn in Nt; lia]. }
    { exact Lt. }
    destruct f.
    - destruct R as (s1 & s2 & E1 & E2 & Q1 & Q2 & At). eexists _, _, _. split; [reflexivity|].
      assert (W' : wf (mk_ksl K D (Some (existT _ h t')) (S (k_n K D s)))).
      { split; [cbn [k_head]; split; [exact O'|]; split; [destruct Nt; [left; assumption|right; lia]|lia]|].
        rewrite fl_cont. cbn [k_n]. rewrite N, <- E, E1, E2, !app_length. cbn [length]. lia. }
      split; [exact W'|]. rewrite (in_place _ _ _ At). change (leaves K D h t') with (k_leaves K D (mk_ksl K D (Some (existT _ h t')) (S (k_n K D s)))).
      rewrite (wf_rest _ _ W') by (rewrite fl_cont, E2, app_length; lia). rewrite fl_cont, E2, skipn_here.
      apply sp_insert; [rewrite <- E; exact E1|exact Q1|exact Q2].
    - destruct R as (E2 & x & I & X1 & X2). eexists _, _, _. split; [reflexivity|].
      assert (W' : wf (mk_ksl K D (Some (existT _ h t')) (k_n K D s))).
      { split; [cbn [k_head]; split; [exact O'|]; split; [destruct Nt; [left; assumption|right; lia]|lia]|].
        rewrite fl_cont. cbn [k_n]. rewrite N, <- E, E2. reflexivity. }
      split; [exact W'|]. rewrite (wf_end _ W'), fl_cont, E2, E. apply sp_insert_dup. exists x. split; [rewrite <- E; exact I|split; assumption]. }
  unfold ksl_insert. cbv zeta. unfold cont, k_leaves in G. destruct (k_head K D s) as [[h t]|] eqn:Eh.
  - destruct W as (O & Nt & Lt). destruct (Nat.eqb_spec (length t) MAX_NBLK) as [Mx|Mx].
    + destruct (split_head_ok h t O Mx) as (t1 & -> & O1 & L1 & F1). unfold cont, k_leaves. rewrite Eh. apply (G (S h) t1); [exact O1|right; lia|unfold MAX_NBLK; lia|exact F1].
    + unfold cont, k_leaves. rewrite Eh. apply (G h t); [exact O|exact Nt|lia|reflexivity].
  - unfold cont, k_leaves. rewrite Eh. apply (G 0 []); [constructor|left; reflexivity|cbn; unfold MAX_NBLK; lia|reflexivity].
Qed.

Lemma remove_ok : forall s q, wf s -> exists rv o s', ksl_remove K D lt s q = Ok (rv, o, s') /\ wf s' /\
  s_step K D lt (cont s) (KRemove q) (match o with Some it => AnsIt rv (rest K D s' it) | None => AnsNoIt rv end) (cont s') /\
  ((exists it, o = Some it) \/ cont s = []).
Proof.
  intros s q (W & N).
  assert (G : forall h (t : blk K D h), ok h t -> room K D true h t -> length t <= MAX_NBLK -> fl h t = cont s ->
    exists rv o s', match remove_loop K D lt h true q t with
      | Ok (true, it, t') => Ok (0%Z, Some (onward K D (mk_ksl K D (Some (existT _ h t')) (k_n K D s - 1)) it), mk_ksl K D (Some (existT _ h t')) (k_n K D s - 1))
      | Ok (false, _, t') => Ok (KSL_EINVAL, Some (ksl_end K D (mk_ksl K D (Some (existT _ h t')) (k_n K D s))), mk_ksl K D (Some (existT _ h t')) (k_n K D s))
      | Err e => Err e | Abort => Abort end = Ok (rv, o, s') /\ wf s' /\
      s_step K D lt (cont s) (KRemove q) (match o with Some it => AnsIt rv (rest K D s' it) | None => AnsNoIt rv end) (cont s') /\
      ((exists it, o = Some it) \/ cont s = [])).
  { intros h t O Rm Lt E. destruct (remove_loop_ok K D lt lt_irr lt_trans lt_neg h true q t O Rm) as (f & it & t' & -> & O' & L' & H2 & _ & R).
    destruct f.
    - destruct R as (s1 & x & s2 & E1 & E2 & Q1 & Q2 & At). eexists _, _, _. split; [reflexivity|].
      set (s' := mk_ksl K D (Some (existT _ h t')) (k_n K D s - 1)).
      assert (Cs : cont s' = s1 ++ s2) by (unfold s'; rewrite fl_cont; exact E2).
      assert (W' : wf s').
      { split; [cbn [s' k_head]; split; [exact O'|]; split; [exact H2|lia]|]. rewrite Cs. cbn [s' k_n]. rewrite N, <- E, E1, !app_length. cbn [length]. lia. }
      split; [exact W'|]. split; [|left; eexists; reflexivity]. change (leaves K D h t') with (k_leaves K D s') in At.
      rewrite (onward_place s' it _ (wf_fine s' W') At). rewrite (wf_rest _ _ W') by (rewrite Cs, app_length; lia). rewrite Cs, skipn_here.
      apply (sp_remove K D lt (cont s) q s1 x s2); [rewrite <- E; exact E1|split; assumption].
    - destruct R as (E2 & X). eexists _, _, _. split; [reflexivity|].
      assert (W' : wf (mk_ksl K D (Some (existT _ h t')) (k_n K D s))).
      { split; [cbn [k_head]; split; [exact O'|]; split; [exact H2|lia]|]. rewrite fl_cont. cbn [k_n]. rewrite N, <- E, E2. reflexivity. }
      split; [exact W'|]. split; [|left; eexists; reflexivity]. rewrite (wf_end _ W'), fl_cont, E2, E. apply sp_remove_none.
      intros (x & I & X1 & X2). rewrite <- E in I. destruct (X x I); congruence. }
  unfold ksl_remove. cbv zeta. unfold cont, k_leaves in G. destruct (k_head K D s) as [[h t]|] eqn:Eh.
  - unfold cont, k_leaves. rewrite Eh. destruct W as (O & Nt & Lt). destruct h as [|h].
    + apply (G 0 t); [exact O|exact Logic.I|exact Lt|reflexivity].
    + destruct Nt as [Nt|Nt]; [discriminate Nt|].
      destruct ((length t =? 2) && (child_n K (A := K * child K D h) t 0 =? MIN_NBLK) && (child_n K (A := K * child K D h) t 1 =? MIN_NBLK)) eqn:C.
      * apply andb_true_iff in C. destruct C as (C & C3). apply andb_true_iff in C. destruct C as (C1 & C2). apply Nat.eqb_eq in C1, C2, C3.
        destruct t as [|[kx cx] [|[ky cy] [|z r]]]; try discriminate C1.
        cbn in C2, C3. destruct (merge_ok K D lt lt_irr lt_trans lt_neg h [] [] kx ky cx cy O C2 C3) as (k & Em & _ & _ & O').
        cbn [app] in O'.
        assert (Oc : ok h (@app (K * child K D h) cx cy)) by (destruct O' as (F & _); pose proof (Forall_inv F) as Gd; apply Gd).
        assert (Lc : length (@app (K * child K D h) cx cy) = 30) by (rewrite app_length, C2, C3; reflexivity).
        cbn [nth_error]. 
        rewrite Em. cbn iota. apply (G h (@app (K * child K D h) cx cy)).
        -- exact Oc.
        -- destruct h; [exact Logic.I|]. split; [unfold KslModel.blk in *; lia|]. intros Z. exfalso. unfold KslModel.blk in *. lia.
        -- unfold KslModel.blk in *. rewrite Lc. unfold MAX_NBLK. lia.
        -- change (concat (leaves K D (S h) [(kx, cx); (ky, cy)])) with (fl (S h) [(kx, cx); (ky, cy)]). rewrite fl_S, flat_cons, flat_1. apply fl_app.
      * apply (G (S h) t); [exact O| |exact Lt|reflexivity].
        split; [exact Nt|]. intros A1 A2 A3. rewrite A1, A2, A3 in C. discriminate C.
  - eexists _, _, _. split; [reflexivity|]. assert (Cs : cont s = []) by (unfold cont, k_leaves; rewrite Eh; reflexivity).
    split; [split; [rewrite Eh; exact Logic.I|exact N]|]. split; [|right; exact Cs]. apply sp_remove_empty. exact Cs.
Qed.

Lemma srt_uniq : forall (s1 s2 r1 r2 : list (K * D)) x y q, StronglySorted (fun x y => lt (fst x) (fst y) = true) (s1 ++ x :: s2) ->
  s1 ++ x :: s2 = r1 ++ y :: r2 -> same K lt (fst x) q -> same K lt (fst y) q -> s1 = r1 /\ x = y /\ s2 = r2.
Proof.
  induction s1 as [|z s1 IH]; intros s2 r1 r2 x y q S E (X1 & X2) (Y1 & Y2).
  - destruct r1 as [|w r1]; cbn [app] in E; injection E as -> E; [auto|exfalso].
    inversion S as [|u v _ F]; subst. rewrite Forall_forall in F. assert (A : lt (fst w) (fst y) = true) by (apply F; rewrite ?E; apply in_or_app; right; left; reflexivity).
    destruct (lt_neg _ q _ A); congruence.
  - destruct r1 as [|w r1]; cbn [app] in E; injection E as -> E.
    + exfalso. inversion S as [|u v _ F]; subst. rewrite Forall_forall in F. assert (A : lt (fst y) (fst x) = true) by (apply F; apply in_or_app; right; left; reflexivity).
      destruct (lt_neg _ q _ A); congruence.
    + inversion S as [|u v S1 _]; subst. destruct (IH s2 r1 r2 x y q S1 E (conj X1 X2) (conj Y1 Y2)) as (-> & -> & ->). auto.
Qed.
Lemma remove_hint_ok : forall s n, wf s -> n < length (cont s) ->
  exists q d rv it s', it_node K D s (nth_it K D s n) = Ok (q, d) /\ ksl_remove_hint K D lt s (nth_it K D s n) q = Ok (rv, Some it, s') /\ wf s' /\
  s_step K D lt (cont s) (KRemoveHint n) (AnsIt rv (rest K D s' it)) (cont s').
Proof.
  intros s n W L. rewrite (nth_it_place s n W) by lia.
  destruct (nth_error (cont s) n) as [[q d]|] eqn:Nx; [|apply nth_error_None in Nx; lia].
  exists q, d. rewrite (node_place s n (q, d) Nx).
  destruct (nth_error_split _ _ Nx) as (s1 & s2 & Es & Ln).
  destruct (find_leaf _ _ L) as (pre & l & post & i & E & Li & En). rewrite E, En, place_in by exact Li. cbn [fst snd].
  unfold ksl_remove_hint. pose proof W as (Wh & N). cbn [fst snd].
  destruct (k_head K D s) as [[h t]|] eqn:Eh; [|exfalso; unfold k_leaves in E; rewrite Eh in E; destruct pre; discriminate E].
  assert (El : leaves K D h t = pre ++ l :: post) by (unfold k_leaves in E; rewrite Eh in E; exact E).
  rewrite El, nth_pre. destruct (Nat.leb_spec (length l) MIN_NBLK) as [Sm|Bg].
  - destruct (remove_ok s q W) as (rv & o & s' & Er & W' & St & [(it & ->)|Z]); [|rewrite Z in L; cbn in L; lia].
    rewrite Er. exists rv, it, s'. split; [reflexivity|]. split; [reflexivity|]. split; [exact W'|].
    inversion St as [| |q0 r1 x r2 Er1 Sx Ea1 Ea2 Ea3|q0 Ab| | | | | |]; subst.
    + rewrite Er1 in Es. pose proof (wf_sorted s W) as Srt. rewrite Er1 in Srt.
      destruct (srt_uniq r1 _ s1 s2 x (q, d) q Srt Es Sx) as (Ha & _ & _); [split; apply lt_irr|]. subst r1.
      apply (sp_remove_hint K D lt (cont s) _ s1 x _); [exact Er1|exact En].
    + exfalso. apply Ab. exists (q, d). split; [rewrite Es; apply in_or_app; right; left; reflexivity|split; apply lt_irr].
  - destruct (Nat.ltb_spec i (length l)); [|lia].
    destruct (nth_error l i) as [x|] eqn:Nl; [|apply nth_error_None in Nl; lia].
    destruct (nth_error_split _ _ Nl) as (l1 & l2 & El2 & Ll). subst l i.
    destruct (remove_at_ok K D lt lt_irr lt_trans lt_neg h t pre l1 x l2 post (proj1 Wh) El Bg) as (O' & Lv & Sz & _).
    set (t' := remove_at K D h (length pre) (length l1) t) in *. set (s' := mk_ksl K D (Some (existT _ h t')) (k_n K D s - 1)).
    assert (Cs : cont s = concat pre ++ l1 ++ x :: l2 ++ concat post).
    { unfold cont. rewrite E, concat_app. cbn [concat]. rewrite <- app_assoc. reflexivity. }
    assert (Cs' : cont s' = concat pre ++ l1 ++ l2 ++ concat post).
    { unfold cont. change (k_leaves K D s') with (leaves K D h t'). rewrite Lv, concat_app. cbn [concat]. rewrite <- app_assoc. reflexivity. }
    assert (W' : wf s').
    { split; [cbn [s' k_head]; split; [exact O'|]|cbn [s' k_n]; rewrite N, Cs, Cs', !app_length; cbn [length]; rewrite !app_length; lia].
      destruct Wh as (_ & Nt & Lt). destruct h as [|h]; [split; [left; reflexivity|lia]|]. rewrite Sz. auto. }
    eexists _, _, _. split; [reflexivity|]. split; [reflexivity|]. split; [exact W'|].
    assert (At : at_off (k_leaves K D s') (length pre, length l1) (length (concat pre) + length l1)).
    { exists pre, (l1 ++ l2), post. cbn [fst snd]. split; [exact Lv|]. rewrite app_length. split; [reflexivity|]. split; [lia|reflexivity]. }
    rewrite (onward_place s' _ _ (wf_fine s' W') At), (wf_rest s' _ W') by (rewrite Cs', !app_length; lia).
    rewrite Cs'. rewrite <- (app_length (concat pre) l1). rewrite (app_assoc (concat pre) l1), skipn_here.
    rewrite app_length. eapply (sp_remove_hint K D lt (cont s) _ (concat pre ++ l1) x (l2 ++ concat post)); [rewrite Cs, <- app_assoc; reflexivity|].
    apply app_length.
Qed.
Lemma lower_bound_ok : forall s p, wf s -> (forall x y, lt y x = false -> p y = true -> p x = true) ->
  exists it, ksl_lower_bound K D s p = Ok it /\ s_step K D lt (cont s) (KLower p) (AnsIt 0 (rest K D s it)) (cont s).
Proof.
  intros s p W An. unfold ksl_lower_bound. pose proof W as (Wh & N). destruct (k_head K D s) as [[h t]|] eqn:Eh.
  - destruct Wh as (O & Nt & _). destruct (lower_ok K D lt lt_irr lt_trans lt_neg h p t An O) as (it & s1 & s2 & -> & E & P1 & P2 & At).
    { destruct Nt as [Nt|Nt]; [left; exact Nt|right; intros ->; cbn in Nt; lia]. }
    assert (Lv : leaves K D h t = k_leaves K D s) by (unfold k_leaves; rewrite Eh; reflexivity). rewrite Lv in At.
    assert (Cs : cont s = s1 ++ s2) by (unfold cont; rewrite <- Lv; exact E).
    eexists. split; [reflexivity|]. rewrite (onward_place s it _ (wf_fine s W) At), (wf_rest s _ W) by (rewrite Cs, app_length; lia).
    rewrite Cs at 2. rewrite skipn_here. apply (sp_lower K D lt (cont s) p s1 s2); assumption.
  - assert (Lv : k_leaves K D s = []) by (unfold k_leaves; rewrite Eh; reflexivity). eexists. split; [reflexivity|].
    assert (Cs : cont s = []) by (unfold cont; rewrite Lv; reflexivity).
    assert (R : rest K D s (0, 0) = []).
    { change (0, 0) with (ksl_begin K D s). fold (seen K D s). rewrite (wf_seen s W). exact Cs. }
    rewrite R. apply (sp_lower K D lt (cont s) p [] []); [exact Cs|intros x []|intros x []].
Qed.
Lemma update_ok : forall s old new, wf s -> op_ok K D lt (cont s) (KUpdate old new) ->
  exists s', ksl_update_key K D lt s old new = Ok s' /\ wf s' /\ s_step K D lt (cont s) (KUpdate old new) AnsVoid (cont s').
Proof.
  intros s old new W (Le & s1 & x & s2 & E & Sx & Nx). unfold ksl_update_key. pose proof W as (Wh & N).
  destruct (k_head K D s) as [[h t]|] eqn:Eh; [|exfalso; unfold cont, k_leaves in E; rewrite Eh in E; destruct s1; discriminate E].
  assert (Ef : fl h t = s1 ++ x :: s2) by (rewrite <- E; unfold cont, k_leaves; rewrite Eh; reflexivity).
  assert (Q : keq K lt (fst x) old = true) by (apply keq_iff; exact Sx). destruct Wh as (O & Nt & Lt).
  destruct (update_loop_ok K D lt lt_irr lt_trans lt_neg h old new t s1 x s2 O Ef Q Le Nx) as (t' & -> & O' & L' & _ & F' & _).
  eexists. split; [reflexivity|]. split.
  - split; [cbn [k_head]; split; [exact O'|]; rewrite L'; split; assumption|]. rewrite fl_cont. cbn [k_n]. rewrite N, E, F', !app_length. reflexivity.
  - rewrite fl_cont, F'. apply sp_update; assumption.
Qed.

Lemma step_ok : forall s o, wf s -> op_ok K D lt (cont s) o ->
  exists a s', kstep K D lt s o = Ok (a, s') /\ wf s' /\ s_step K D lt (cont s) o a (cont s').
Proof.
  intros s o W P. destruct o as [q d|q|n|p|old new| |]; cbn [kstep].
  - destruct (insert_ok s q d W) as (rv & it & s' & -> & W' & St). eauto.
  - destruct (remove_ok s q W) as (rv & [it|] & s' & -> & W' & St & _); eauto.
  - destruct (remove_hint_ok s n W P) as (q & d & rv & it & s' & -> & -> & W' & St). eauto.
  - destruct (lower_bound_ok s p W P) as (it & -> & St). eauto.
  - destruct (update_ok s old new W P) as (s' & -> & W' & St). eauto.
  - eexists _, _. split; [reflexivity|]. split; [exact W|]. unfold ksl_len. rewrite (proj2 W). apply sp_len.
  - eexists _, _. split; [reflexivity|]. split; [split; [exact Logic.I|reflexivity]|]. apply sp_clear.
Qed.
Lemma wf_init : wf (ksl_init K D).
Proof. split; [exact Logic.I|reflexivity]. Qed.
Lemma run_ok : forall ops s l0 pre r0, wf s -> cont s = l0 -> s_run K D lt [] pre r0 l0 -> legal K D lt (pre ++ ops) ->
  exists r s', krun K D lt s ops = Ok (r, s') /\ wf s' /\ s_run K D lt l0 ops r (cont s').
Proof.
  induction ops as [|o ops IH]; intros s l0 pre r0 W Cs R Lg.
  - exists [], s. split; [reflexivity|]. split; [exact W|]. rewrite Cs. constructor.
  - destruct (step_ok s o W) as (a & s1 & Es & W1 & St).
    { rewrite Cs. apply (Lg pre o ops r0 l0 eq_refl R). }
    assert (R1 : s_run K D lt [] (pre ++ [o]) (r0 ++ [a]) (cont s1)).
    { rewrite Cs in St. clear -R St. induction R as [l|l o' a' l1 ops' r l2 S R IH]; [cbn [app]; econstructor; [exact St|constructor]|].
      cbn [app]. econstructor; [exact S|]. apply IH. exact St. }
    destruct (IH s1 (cont s1) (pre ++ [o]) (r0 ++ [a]) W1 eq_refl R1) as (r & s' & Er & W' & Rr).
    { rewrite <- app_assoc. exact Lg. }
    exists (a :: r), s'. cbn [krun]. rewrite Es, Er. split; [reflexivity|]. split; [exact W'|]. econstructor; [rewrite <- Cs; exact St|exact Rr].
Qed.
Lemma reach_ok : forall ops, legal K D lt ops ->
  exists r s, krun K D lt (ksl_init K D) ops = Ok (r, s) /\ wf s /\ s_run K D lt [] ops r (cont s).
Proof. intros ops Lg. apply (run_ok ops (ksl_init K D) [] [] []); [apply wf_init|reflexivity|constructor|exact Lg]. Qed.
End H.
