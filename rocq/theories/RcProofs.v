From Coq Require Import ZArith List Bool Lia Arith.
From Verif Require Import RcModel RcSpec.
Import ListNotations.
Open Scope Z_scope.

Lemma is_buf_range n p : 0 <= is_buf n p <= 1.
Proof. destruct p; cbn; try lia. destruct (Nat.eqb n n0); lia. Qed.
Lemma count_app n a b : count n (a ++ b) = count n a + count n b.
Proof. induction a; cbn; lia. Qed.
Lemma count_nonneg n l : 0 <= count n l.
Proof. induction l; cbn; [lia|]. pose proof (is_buf_range n a). lia. Qed.
Lemma is_buf_self n : is_buf n (Buf n) = 1.
Proof. cbn. rewrite Nat.eqb_refl. lia. Qed.
Lemma in_count n l : In (Buf n) l -> 0 < count n l.
Proof.
  induction l; cbn; [tauto|]. intros [-> | H].
  - rewrite is_buf_self. pose proof (count_nonneg n l). lia.
  - pose proof (is_buf_range n a). specialize (IHl H). lia.
Qed.
Lemma count_in n l : 0 < count n l -> In (Buf n) l.
Proof.
  induction l; cbn; [lia|]. intros H. destruct a; cbn in H; auto.
  destruct (Nat.eqb n n0) eqn:E; [apply Nat.eqb_eq in E; subst; auto|]. right. apply IHl. lia.
Qed.

Definition eqc (a b : list ptr) := forall n, count n a = count n b.
Definition ok (h : heap) (L : list ptr) : Prop := forall n,
  match nth_error h n with
  | Some (Some c) => ref c = count n L /\ 0 < count n L
  | _ => count n L = 0
  end.
Lemma ok_ext h a b : eqc a b -> ok h a -> ok h b.
Proof. intros E H n. specialize (H n). rewrite <- (E n). exact H. Qed.

Definition has (p : ptr) (L : list ptr) : Prop :=
  match p with Null => False | Static => True | Buf n => 0 < count n L end.
Lemma in_has p L : In p L -> p <> Null -> has p L.
Proof. destruct p; cbn; intros; auto. apply in_count; auto. Qed.
Lemma has_sub p a b : has p a -> (forall n, count n a <= count n b) -> has p b.
Proof. destruct p; cbn; intros; auto. specialize (H0 n). lia. Qed.

(* buffers alive before and after keep their bytes, save those in W; none comes back to life *)
Definition pres (W : list ptr) (h h' : heap) : Prop :=
  (length h <= length h')%nat /\
  forall n c', (n < length h)%nat -> at_cell n h' = Some c' ->
    exists c, at_cell n h = Some c /\ (count n W = 0 -> text c' = text c).
Lemma pres_refl W h : pres W h h.
Proof. split; [lia|]. intros n c' _ H. exists c'. auto. Qed.
Lemma pres_trans W a b c : pres W a b -> pres W b c -> pres W a c.
Proof.
  intros [L1 H1] [L2 H2]. split; [lia|]. intros n c' Hn Hc.
  destruct (H2 n c') as (x & Hx & Tx); [lia|auto|].
  destruct (H1 n x) as (y & Hy & Ty); [lia|auto|]. exists y. split; auto.
  intros Hw. rewrite Tx, Ty; auto.
Qed.
Lemma pres_weak W W' h h' : (forall n, 0 < count n W -> 0 < count n W') -> pres W h h' ->
  pres W' h h'.
Proof.
  intros Hw [L H]. split; auto. intros n c' Hn Hc. destruct (H n c' Hn Hc) as (c & Hc2 & Ht).
  exists c. split; auto. intros Hz. apply Ht. pose proof (count_nonneg n W).
  destruct (Z.eq_dec (count n W) 0) as [|Hnz]; auto. specialize (Hw n). lia.
Qed.

Definition tri {A} (W L : list ptr) (m : M A) (post : A -> list ptr -> Prop) : Prop :=
  forall h, ok h L -> exists x h' L', m h = Some (x, h') /\ ok h' L' /\ post x L' /\ pres W h h'.

Lemma tri_ret {A} W L (x : A) (post : A -> list ptr -> Prop) : post x L -> tri W L (ret x) post.
Proof. intros P h O. exists x, h, L. auto using pres_refl. Qed.
Lemma tri_bind {A B} W L (m : M A) (f : A -> M B) P1 P2 :
  tri W L m P1 -> (forall x L1, P1 x L1 -> tri W L1 (f x) P2) -> tri W L (bind m f) P2.
Proof.
  intros Hm Hf h O. destruct (Hm h O) as (x & h1 & L1 & E1 & O1 & Q1 & R1).
  destruct (Hf x L1 Q1 h1 O1) as (y & h2 & L2 & E2 & O2 & Q2 & R2).
  exists y, h2, L2. unfold bind. rewrite E1. repeat split; auto; eapply pres_trans; eauto.
Qed.
Lemma tri_post {A} W L (m : M A) (P P' : A -> list ptr -> Prop) :
  tri W L m P -> (forall x L', P x L' -> P' x L') -> tri W L m P'.
Proof. intros H I h O. destruct (H h O) as (x & h' & L' & ? & ? & ? & ?). exists x, h', L'. auto. Qed.
Lemma tri_ext {A} W L L0 (m : M A) P : eqc L0 L -> tri W L0 m P -> tri W L m P.
Proof. intros E H h O. apply H. eapply ok_ext; [|exact O]. intros n. symmetry. apply E. Qed.

Lemma nth_put n m c (h : heap) :
  nth_error (put n c h) m =
  if Nat.eqb m n then (match nth_error h n with Some _ => Some c | None => None end)
  else nth_error h m.
Proof.
  revert n m. induction h; intros [|n] [|m]; cbn; auto.
  destruct (Nat.eqb m n); auto.
Qed.
Lemma length_put n c h : length (put n c h) = length h.
Proof. revert n. induction h; intros [|n]; cbn; auto. Qed.
Lemma at_put n m c h :
  at_cell m (put n c h) =
  if Nat.eqb m n then (match nth_error h n with Some _ => c | None => None end) else at_cell m h.
Proof.
  unfold at_cell. rewrite nth_put. destruct (Nat.eqb m n) eqn:E; auto.
  destruct (nth_error h n); auto. destruct c; auto.
Qed.
Lemma at_nth n h c : at_cell n h = Some c -> nth_error h n = Some (Some c).
Proof. unfold at_cell. destruct (nth_error h n) as [[x|]|]; congruence. Qed.
Lemma ok_at h L n : ok h L -> 0 < count n L -> exists c, at_cell n h = Some c /\ ref c = count n L.
Proof.
  intros O P. specialize (O n). unfold at_cell. destruct (nth_error h n) as [[x|]|]; try lia.
  exists x. tauto.
Qed.
Lemma pres_put W h n c c' : at_cell n h = Some c -> (count n W = 0 -> text c' = text c) ->
  pres W h (put n (Some c') h).
Proof.
  intros A T. split; [rewrite length_put; lia|]. intros m x Hm. rewrite at_put.
  destruct (Nat.eqb m n) eqn:E.
  - apply Nat.eqb_eq in E. subst. rewrite (at_nth _ _ _ A). intros [= <-]. eauto.
  - intros H. exists x. auto.
Qed.
Lemma pres_free W h n : pres W h (put n None h).
Proof.
  split; [rewrite length_put; lia|]. intros m x Hm. rewrite at_put.
  destruct (Nat.eqb m n) eqn:E.
  - destruct (nth_error h n); discriminate.
  - intros H. exists x. auto.
Qed.

Lemma tri_incref W L p : has p L -> tri W L (incref p) (fun _ L' => eqc L' (p :: L)).
Proof.
  intros H h O. destruct p as [| |n]; [destruct H| |]; cbn [has] in H.
  - exists tt, h, L. split; [reflexivity|]. split; [exact O|]. split; [|apply pres_refl].
    intros m. reflexivity.
  - destruct (ok_at _ _ _ O H) as (c & A & R). cbn [incref]. rewrite A.
    exists tt, (put n (Some (mk_cell (ref c + 1) (text c))) h), (Buf n :: L).
    split; [reflexivity|]. split; [|split; [intros m; reflexivity|]].
    + intros m. specialize (O m). rewrite nth_put. cbn [count]. cbn [is_buf].
      destruct (Nat.eqb m n) eqn:E.
      * apply Nat.eqb_eq in E. subst. rewrite (at_nth _ _ _ A). cbn [ref]. lia.
      * destruct (nth_error h m) as [[x|]|]; lia.
    + apply pres_put with (c := c); auto.
Qed.
Lemma tri_decref W L R p : eqc L (p :: R) -> tri W L (decref p) (fun _ L' => eqc L' R).
Proof.
  intros E h O. destruct p as [| |n].
  - exists tt, h, L. split; [reflexivity|]. split; [exact O|]. split; [|apply pres_refl].
    intros m. rewrite (E m). reflexivity.
  - exists tt, h, L. split; [reflexivity|]. split; [exact O|]. split; [|apply pres_refl].
    intros m. rewrite (E m). reflexivity.
  - pose proof (E n) as En. cbn [count] in En. rewrite is_buf_self in En.
    pose proof (count_nonneg n R) as Hr.
    destruct (ok_at h L n O) as (c & A & Rc); [lia|]. cbn [decref]. rewrite A.
    destruct (ref c <=? 0) eqn:E0; [apply Z.leb_le in E0; lia|].
    destruct (ref c - 1 =? 0) eqn:E1.
    + apply Z.eqb_eq in E1. exists tt, (put n None h), R. split; [reflexivity|].
      split; [|split; [intros m; reflexivity|apply pres_free]].
      intros m. pose proof (O m) as Om. rewrite nth_put. pose proof (E m) as Em.
      cbn [count is_buf] in Em. destruct (Nat.eqb m n) eqn:Emn; try rewrite Emn in Em.
      * apply Nat.eqb_eq in Emn. subst. destruct (nth_error h n); lia.
      * destruct (nth_error h m) as [[x|]|]; lia.
    + apply Z.eqb_neq in E1. exists tt, (put n (Some (mk_cell (ref c - 1) (text c))) h), R.
      split; [reflexivity|].
      split; [|split; [intros m; reflexivity|apply pres_put with (c := c); auto]].
      intros m. pose proof (O m) as Om. rewrite nth_put. pose proof (E m) as Em.
      cbn [count is_buf] in Em. destruct (Nat.eqb m n) eqn:Emn; try rewrite Emn in Em.
      * apply Nat.eqb_eq in Emn. subst. rewrite (at_nth _ _ _ A) in *. cbn [ref]. lia.
      * destruct (nth_error h m) as [[x|]|]; lia.
Qed.
Lemma tri_touch W L p : has p L -> tri W L (touch p) (fun _ L' => L' = L).
Proof.
  intros H h O. destruct p as [| |n]; [destruct H| |]; cbn [has] in H.
  - exists tt, h, L. auto using pres_refl.
  - destruct (ok_at _ _ _ O H) as (c & A & R). cbn [touch]. rewrite A.
    exists tt, h, L. auto using pres_refl.
Qed.
Lemma tri_store W L n bs : 0 < count n L -> 0 < count n W ->
  tri W L (store (Buf n) bs) (fun _ L' => L' = L).
Proof.
  intros H Hw h O. destruct (ok_at _ _ _ O H) as (c & A & R). cbn [store]. rewrite A.
  exists tt, (put n (Some (mk_cell (ref c) (text c ++ bs))) h), L. split; [reflexivity|].
  split; [|split; [reflexivity|apply pres_put with (c := c); auto; intros; lia]].
  intros m. pose proof (O m) as Om. rewrite nth_put. destruct (Nat.eqb m n) eqn:Emn; auto.
  apply Nat.eqb_eq in Emn. subst. rewrite (at_nth _ _ _ A) in *. cbn [ref]. lia.
Qed.
Lemma tri_new W L b src : tri W L (rcbuf_new b src) (fun p L' =>
  if b then exists n, p = Buf n /\ count n L = 0 /\ L' = Buf n :: L else p = Null /\ L' = L).
Proof.
  intros h O. unfold rcbuf_new. destruct b.
  - exists (Buf (length h)), (h ++ [Some (mk_cell 1 src)]), (Buf (length h) :: L).
    assert (C0 : count (length h) L = 0).
    { specialize (O (length h)). rewrite (proj2 (nth_error_None h (length h))) in O; auto. }
    split; [reflexivity|]. split; [|split; [exists (length h); auto|]].
    + intros m. pose proof (O m) as Om. cbn [count is_buf].
      destruct (Nat.eqb m (length h)) eqn:E.
      * apply Nat.eqb_eq in E. subst. rewrite nth_error_app2 by lia. rewrite Nat.sub_diag.
        rewrite C0. cbn. lia.
      * apply Nat.eqb_neq in E. destruct (Nat.lt_ge_cases m (length h)).
        -- rewrite nth_error_app1 by lia. destruct (nth_error h m) as [[x|]|]; lia.
        -- rewrite (proj2 (nth_error_None _ m)); [|rewrite app_length; cbn; lia].
           rewrite (proj2 (nth_error_None h m)) in Om by lia. lia.
    + split; [rewrite app_length; lia|]. intros n c' Hn. unfold at_cell.
      rewrite nth_error_app1 by lia. intros H. exists c'. auto.
  - exists Null, h, L. auto using pres_refl.
Qed.

(* counting by arithmetic *)
Ltac cnt0 := repeat (rewrite count_app in * || cbn [count] in * ).
Ltac spec_all n := repeat match goal with
  | E : eqc _ _ |- _ => let F := fresh "F" in pose proof (E n) as F; clear E end.
Ltac nn n := repeat match goal with
  | |- context [count n ?l] => match goal with K : 0 <= count n l |- _ => fail 1 | _ =>
        pose proof (count_nonneg n l) end
  | _ : context [count n ?l] |- _ => match goal with K : 0 <= count n l |- _ => fail 1 | _ =>
        pose proof (count_nonneg n l) end
  | |- context [is_buf n ?l] => match goal with K : 0 <= is_buf n l <= 1 |- _ => fail 1 | _ =>
        pose proof (is_buf_range n l) end
  | _ : context [is_buf n ?l] |- _ => match goal with K : 0 <= is_buf n l <= 1 |- _ => fail 1 | _ =>
        pose proof (is_buf_range n l) end
  end.
Ltac eqcs := let n := fresh "n" in intros n; spec_all n; cnt0; nn n; lia.

(* tables *)
Definition full (t : tabl) : Prop := Forall (fun e => fst e <> Null /\ snd e <> Null) t.
Lemma of_table_app a b : of_table (a ++ b) = of_table a ++ of_table b.
Proof. unfold of_table. apply flat_map_app. Qed.
Lemma has_ne p L a : p <> Null -> (forall n, count n [p] <= count n L) -> a = p -> has a L.
Proof.
  intros H E ->. destruct p as [| |n]; cbn; auto. specialize (E n). cbn in E.
  rewrite Nat.eqb_refl in E. lia.
Qed.
Ltac hass := match goal with |- has ?p _ =>
  apply (has_ne p); [assumption|let n := fresh "n" in intros n; spec_all n; cnt0; nn n; lia|reflexivity] end.

Lemma tri_entry_free W L R a b : eqc L (a :: b :: R) ->
  tri W L (entry_free (a, b)) (fun _ L' => eqc L' R).
Proof.
  intros E. unfold entry_free. cbn [fst snd].
  eapply tri_bind. { apply tri_decref with (R := a :: R). eqcs. }
  intros [] L1 E1. apply tri_decref. eqcs.
Qed.
Definition prefix_of (a b : tabl) : Prop := exists c, b = a ++ c.
Lemma tri_evict1 W L t X : full t -> eqc L (of_table t ++ X) ->
  tri W L (evict1 t) (fun t' L' => full t' /\ prefix_of t' t /\ eqc L' (of_table t' ++ X)).
Proof.
  intros F E. unfold evict1. destruct (rev t) as [|[a b] r] eqn:Er.
  - apply tri_ret. split; auto. split; auto. exists []. rewrite app_nil_r. auto.
  - assert (Et : t = rev r ++ [(a, b)]).
    { rewrite <- (rev_involutive t), Er. reflexivity. }
    rewrite Et in F. apply Forall_app in F. destruct F as [F1 F2].
    inversion F2 as [|x l [Ha Hb] _]; subst x l. cbn [fst snd] in *.
    assert (E2 : eqc L (a :: b :: of_table (rev r) ++ X)).
    { rewrite Et, of_table_app in E. cbn [of_table flat_map fst snd List.app] in E. eqcs. }
    clear E. eapply tri_bind. { apply tri_touch. hass. }
    intros [] L1 ->. eapply tri_bind. { apply tri_touch. hass. }
    intros [] L1 ->. eapply tri_bind. { apply tri_entry_free. exact E2. }
    intros [] L1 E1. apply tri_ret. split; auto. split; [exists [(a, b)]; auto|auto].
Qed.
Lemma prefix_trans a b c : prefix_of a b -> prefix_of b c -> prefix_of a c.
Proof. intros [x ->] [y ->]. exists (x ++ y). rewrite app_assoc. auto. Qed.
Lemma prefix_count a b n : prefix_of a b -> count n (of_table a) <= count n (of_table b).
Proof. intros [x ->]. rewrite of_table_app, count_app. pose proof (count_nonneg n (of_table x)). lia. Qed.
Lemma tri_evict W k : forall L t X, full t -> eqc L (of_table t ++ X) ->
  tri W L (evict k t) (fun t' L' => full t' /\ prefix_of t' t /\ eqc L' (of_table t' ++ X)).
Proof.
  induction k; intros L t X F E; cbn [evict].
  - apply tri_ret. split; auto. split; auto. exists []. rewrite app_nil_r. auto.
  - eapply tri_bind. { apply tri_evict1 with (X := X); eauto. }
    intros t1 L1 (F1 & P1 & E1). eapply tri_post. { apply IHk with (X := X); eauto. }
    cbn beta. intros t2 L2 (F2 & P2 & E2). split; auto. split; auto. eapply prefix_trans; eauto.
Qed.

(* what an insertion does to the table *)
Definition grown (t t' : tabl) (name value : ptr) : Prop :=
  forall n, count n (of_table t') <= is_buf n name + is_buf n value + count n (of_table t).
Lemma tri_dtable_add W L t name value c X :
  full t -> name <> Null -> value <> Null ->
  eqc L (of_table t ++ X) -> has name X -> has value X ->
  tri W L (dtable_add t name value c) (fun x L' =>
    full (fst x) /\ grown t (fst x) name value /\ eqc L' (of_table (fst x) ++ X)).
Proof.
  intros F N1 N2 E H1 H2. unfold dtable_add.
  assert (S : forall n, count n X <= count n L). { intros n. spec_all n. cnt0. nn n. lia. }
  eapply tri_bind. { apply tri_touch. eapply has_sub; [exact H1|exact S]. }
  intros [] L1 ->. eapply tri_bind. { apply tri_touch. eapply has_sub; [exact H2|exact S]. }
  intros [] L1 ->. eapply tri_bind. { apply tri_evict with (X := X); eauto. }
  intros t1 L1 (F1 & P1 & E1).
  assert (G0 : grown t t1 name value).
  { intros n. pose proof (prefix_count _ _ n P1). nn n. lia. }
  destruct (ch_m1 c); cbn [negb].
  2:{ apply tri_ret. cbn [fst]. auto. }
  assert (S1 : forall n, count n X <= count n L1). { intros n. clear E. spec_all n. cnt0. nn n. lia. }
  eapply tri_bind. { apply tri_incref. eapply has_sub; [exact H1|exact S1]. }
  intros [] L2 E2. eapply tri_bind.
  { apply tri_incref. eapply has_sub; [exact H2|]. intros n. specialize (S1 n). clear E E1.
    spec_all n. cnt0. nn n. lia. }
  intros [] L3 E3. destruct (ch_m2 c); cbn [negb].
  - apply tri_ret. cbn [fst]. split; [constructor; auto|]. split.
    + intros n. pose proof (prefix_count _ _ n P1). cbn [of_table flat_map List.app fst snd count].
      fold (of_table t1). lia.
    + cbn [of_table flat_map List.app fst snd]. fold (of_table t1). clear E. eqcs.
  - eapply tri_bind. { apply tri_entry_free with (R := of_table t1 ++ X). clear E. eqcs. }
    intros [] L4 E4. apply tri_ret. cbn [fst]. auto.
Qed.

(* the parsers *)
Definition owns_name (r : rst) : Prop :=
  match r_op r with OpLiteral => exists n, r_name r = Buf n | _ => r_name r = Null end.
Definition shape (r : rst) : Prop :=
  match r_at r with
  | AtPrefix | AtOp => r_name r = Null /\ r_value r = Null
  | AtIndex => r_name r = Null /\ r_value r = Null /\ r_op r <> OpLiteral
  | AtNameLen => r_name r = Null /\ r_value r = Null /\ r_op r = OpLiteral
  | AtName => (exists n, r_name r = Buf n) /\ r_value r = Null /\ r_op r = OpLiteral
  | AtValueLen => r_value r = Null /\ owns_name r
  | AtValue => (exists n, r_value r = Buf n) /\ owns_name r
  end.
Definition loose (r : rst) : Prop :=
  match r_at r with AtPrefix | AtOp => r_name r = Null /\ r_value r = Null | _ => True end.
Lemma shape_loose r : shape r -> loose r.
Proof. unfold shape, loose. destruct (r_at r); tauto. Qed.

(* references move from the parser's hands P to the shared ones A, never back *)
Definition mv (L P A P' A' : list ptr) : Prop := forall n,
  (count n P' = 0 \/ (count n P' = count n P /\ count n A' <= count n A)
   \/ (count n L = 0 /\ count n P' = 1 /\ count n A' = 0))
  /\ (0 < count n A' -> 0 < count n A \/ 0 < count n P).

Definition strings_post (L : list ptr) (r : rst) (X : list ptr) (x : rst * bool * bool)
  (L' : list ptr) : Prop :=
  let '(r', bad, complete) := x in
  eqc L' (of_parser r' ++ X) /\ loose r' /\ (bad = false -> shape r') /\
  (complete = true -> r' = r /\ bad = false /\ r_at r = AtValue) /\
  (forall n, count n (of_parser r') = count n (of_parser r)
             \/ (count n L = 0 /\ count n (of_parser r') = 1)).

Lemma strings_same L r X bad : eqc L (of_parser r ++ X) -> shape r ->
  strings_post L r X (r, bad, false) L.
Proof. intros E S. repeat split; auto using shape_loose; discriminate. Qed.

Lemma tri_strings W L r c X : shape r -> eqc L (of_parser r ++ X) ->
  (forall n, count n (of_parser r) <= count n W) ->
  tri W L (strings r c) (strings_post L r X).
Proof.
  intros S E Hw. unfold strings. destruct (r_at r) eqn:Ea;
    try (apply tri_ret; apply strings_same; assumption).
  - destruct (ch_more c); [apply tri_ret; apply strings_same; assumption|].
    destruct (ch_err c); [apply tri_ret; apply strings_same; assumption|].
    unfold shape in S. rewrite Ea in S. destruct S as (S1 & S2 & S3).
    eapply tri_bind. { apply tri_new. } intros p L1 H. destruct (ch_m3 c).
    + destruct H as (n & -> & F & ->). eapply tri_bind.
      { apply tri_touch. cbn [has count]. rewrite is_buf_self. pose proof (count_nonneg n L). lia. }
      intros [] L1 ->. apply tri_ret. unfold strings_post, loose, shape, of_parser in *.
      cbn [with_name goto r_at r_name r_value r_op]. rewrite S1, S2 in *.
      repeat split; auto; try discriminate; eauto.
      * intros m. specialize (E m). cnt0. cbn [is_buf] in *. lia.
      * intros m. cbn [count is_buf]. destruct (Nat.eqb m n) eqn:Em; [|auto].
        apply Nat.eqb_eq in Em. subst. right. split; auto.
    + destruct H as (-> & ->). apply tri_ret. unfold strings_post, loose, shape, of_parser in *.
      cbn [with_name goto r_at r_name r_value r_op]. rewrite S1, S2 in *.
      repeat split; auto; discriminate.
  - pose proof S as S0. unfold shape in S. rewrite Ea in S. destruct S as ((n & S1) & S2 & S3).
    assert (Hn : 0 < count n (of_parser r)).
    { unfold of_parser. rewrite S1. cbn [count]. rewrite is_buf_self.
      pose proof (is_buf_range n (r_value r)). lia. }
    eapply tri_bind.
    { rewrite S1. apply tri_store. { rewrite (E n), count_app. nn n. lia. }
      specialize (Hw n). lia. }
    intros [] L1 ->.
    destruct (ch_err c); [apply tri_ret; apply strings_same; assumption|].
    destruct (ch_more c); [apply tri_ret; apply strings_same; assumption|].
    apply tri_ret. unfold strings_post, loose, shape, owns_name, of_parser in *.
    cbn [goto r_at r_name r_value r_op]. rewrite S3. repeat split; auto; try discriminate. eauto.
  - destruct (ch_more c); [apply tri_ret; apply strings_same; assumption|].
    destruct (ch_err c); [apply tri_ret; apply strings_same; assumption|].
    unfold shape in S. rewrite Ea in S. destruct S as (S1 & S2).
    eapply tri_bind. { apply tri_new. } intros p L1 H. destruct (ch_m3 c).
    + destruct H as (n & -> & F & ->). eapply tri_bind.
      { apply tri_touch. cbn [has count]. rewrite is_buf_self. pose proof (count_nonneg n L). lia. }
      intros [] L1 ->. apply tri_ret. unfold strings_post, loose, shape, of_parser in *.
      cbn [with_value goto r_at r_name r_value r_op]. rewrite S1 in *.
      repeat split; auto; try discriminate; eauto.
      * intros m. specialize (E m). cnt0. cbn [is_buf] in *. lia.
      * intros m. cbn [count is_buf]. destruct (Nat.eqb m n) eqn:Em; [|auto].
        apply Nat.eqb_eq in Em. subst. right. split; auto. specialize (E n). cnt0. nn n. lia.
    + destruct H as (-> & ->). apply tri_ret. unfold strings_post, loose, shape, of_parser in *.
      cbn [with_name goto r_at r_name r_value r_op]. rewrite S1 in *.
      repeat split; auto; discriminate.
  - pose proof S as S0. unfold shape in S. rewrite Ea in S. destruct S as ((n & S1) & S2).
    assert (Hn : 0 < count n (of_parser r)).
    { unfold of_parser. rewrite S1. cbn [count]. rewrite is_buf_self.
      pose proof (is_buf_range n (r_name r)). lia. }
    eapply tri_bind.
    { rewrite S1. apply tri_store. { rewrite (E n), count_app. nn n. lia. }
      specialize (Hw n). lia. }
    intros [] L1 ->.
    destruct (ch_err c); [apply tri_ret; apply strings_same; assumption|].
    destruct (ch_more c); [apply tri_ret; apply strings_same; assumption|].
    apply tri_ret. unfold strings_post. split; auto. split; auto using shape_loose.
Qed.

(* one of the insertions *)
Definition add_post (L : list ptr) (r : rst) (t : tabl) (X : list ptr) (d : dec) (L' : list ptr)
  : Prop :=
  let '(r', t', bad) := d in
  eqc L' (of_parser r' ++ of_table t' ++ X) /\ r_at r' = r_at r /\ full t' /\
  (bad = false -> r_name r' = Null /\ r_value r' = Null) /\
  mv L (of_parser r) (of_table t) (of_parser r') (of_table t').
Lemma mv_same L P A : mv L P A P A.
Proof. intros n. split; [right; left; lia|auto]. Qed.
Lemma mv_zero L P A P' A' : (forall n, count n P' = 0) ->
  (forall n, 0 < count n A' -> 0 < count n A + count n P) -> mv L P A P' A'.
Proof.
  intros H1 H2 n. specialize (H1 n). specialize (H2 n). split; [auto|]. nn n. lia.
Qed.
Lemma add_same L r t X : eqc L (of_parser r ++ of_table t ++ X) -> full t ->
  add_post L r t X (r, t, true) L.
Proof. intros. repeat split; auto; discriminate || apply mv_same. Qed.
Lemma in_table n t i a b : nth_error t i = Some (a, b) ->
  is_buf n a + is_buf n b <= count n (of_table t).
Proof.
  revert i. induction t as [|[x y] t IH]; intros [|i] H; try discriminate.
  - injection H as -> ->. cbn [of_table flat_map List.app fst snd count]. fold (of_table t).
    nn n. lia.
  - specialize (IH i H). cbn [of_table flat_map List.app fst snd count]. fold (of_table t).
    nn n. lia.
Qed.
Lemma full_nth t i a b : full t -> nth_error t i = Some (a, b) -> a <> Null /\ b <> Null.
Proof.
  intros F H. apply nth_error_In in H. unfold full in F. rewrite Forall_forall in F.
  apply (F _ H).
Qed.
Lemma buf_null n : is_buf n Null = 0. Proof. reflexivity. Qed.
Lemma buf_static n : is_buf n Static = 0. Proof. reflexivity. Qed.
Ltac nums n := spec_all n; cnt0; rewrite ?buf_null, ?buf_static in *; nn n; lia.
Ltac eqs := let n := fresh "n" in intros n; nums n.
(* a pointer found in the list *)
Ltac here := match goal with |- has ?p _ =>
  apply (has_ne p); [first [assumption|discriminate|congruence]|
                     let n := fresh "n" in intros n; nums n|reflexivity] end.

Lemma tri_static_add W L r t c X : full t -> r_name r = Null -> r_value r <> Null ->
  eqc L (of_parser r ++ of_table t ++ X) ->
  tri W L (static_add r t c) (add_post L r t X).
Proof.
  intros F N V E0. pose proof E0 as E. unfold static_add, of_parser in E |- *. rewrite N in E.
  eapply tri_bind. { apply tri_touch. here. } intros [] L1 ->.
  destruct (ch_err c); [apply tri_ret; apply add_same; auto|].
  eapply tri_bind.
  { apply tri_dtable_add with (X := r_value r :: X); auto; try discriminate.
    - clear E0. eqs.
    - exact Logic.I.
    - here. }
  intros [t' b] L1 (F1 & G & E1). cbn [fst] in *. eapply tri_bind.
  { apply tri_decref with (R := of_table t' ++ X). clear E0 E. eqs. }
  intros [] L2 E2. cbv beta in E2. apply tri_ret. unfold add_post, of_parser.
  cbn [with_value r_name r_value r_at]. rewrite N.
  split; [clear E0 E E1; eqs|]. split; auto. split; auto. split; auto. apply mv_zero.
  - intros n. cbn. lia.
  - intros n. specialize (G n). clear E0 E E1 E2. nums n.
Qed.
Lemma tri_dynamic_add W L r t c X : full t -> r_name r = Null -> r_value r <> Null ->
  eqc L (of_parser r ++ of_table t ++ X) ->
  tri W L (dynamic_add r t c) (add_post L r t X).
Proof.
  intros F N V E0. pose proof E0 as E. unfold dynamic_add, of_parser in E |- *. rewrite N in E.
  destruct (nth_error t (ch_i c)) as [[name v]|] eqn:Ei;
    [|apply tri_ret; apply add_same; auto].
  destruct (full_nth _ _ _ _ F Ei) as [Nn Nv].
  pose proof (fun n => in_table n _ _ _ _ Ei) as HT.
  eapply tri_bind.
  { apply tri_touch. apply (has_ne name); auto. intros n. specialize (HT n). clear E0. nums n. }
  intros [] L1 ->. eapply tri_bind. { apply tri_touch. here. } intros [] L1 ->.
  destruct (ch_err c); [apply tri_ret; apply add_same; auto|].
  eapply tri_bind.
  { apply tri_incref. apply (has_ne name); auto. intros n. specialize (HT n). clear E0. nums n. }
  intros [] L1 E1. cbv beta in E1. eapply tri_bind.
  { apply tri_dtable_add with (X := name :: r_value r :: X); auto.
    - clear E0. eqs.
    - clear E0 E E1. here.
    - clear E0 E E1. here. }
  intros [t' b] L2 (F1 & G & E2). cbn [fst] in *. eapply tri_bind.
  { apply tri_decref with (R := name :: of_table t' ++ X). clear E0 E E1. eqs. }
  intros [] L3 E3. cbv beta in E3. eapply tri_bind.
  { apply tri_decref with (R := of_table t' ++ X). exact E3. }
  intros [] L4 E4. cbv beta in E4. apply tri_ret. unfold add_post, of_parser.
  cbn [with_value r_name r_value r_at]. rewrite N.
  split; [clear E0 E E1 E2 E3; eqs|]. split; auto. split; auto. split; auto. apply mv_zero.
  - intros n. cbn. lia.
  - intros n. specialize (G n). specialize (HT n). clear E0 E E1 E2 E3 E4. nums n.
Qed.
Lemma tri_duplicate_add W L r t c X : full t -> r_name r = Null -> r_value r = Null ->
  eqc L (of_parser r ++ of_table t ++ X) ->
  tri W L (duplicate_add r t c) (add_post L r t X).
Proof.
  intros F N V E0. pose proof E0 as E. unfold duplicate_add, of_parser in E |- *. rewrite N, V in E.
  destruct (nth_error t (ch_i c)) as [[name v]|] eqn:Ei;
    [|apply tri_ret; apply add_same; auto].
  destruct (full_nth _ _ _ _ F Ei) as [Nn Nv].
  pose proof (fun n => in_table n _ _ _ _ Ei) as HT.
  eapply tri_bind.
  { apply tri_touch. apply (has_ne name); auto. intros n. specialize (HT n). clear E0. nums n. }
  intros [] L1 ->. eapply tri_bind.
  { apply tri_touch. apply (has_ne v); auto. intros n. specialize (HT n). clear E0. nums n. }
  intros [] L1 ->.
  destruct (ch_err c); [apply tri_ret; apply add_same; auto|].
  eapply tri_bind.
  { apply tri_incref. apply (has_ne name); auto. intros n. specialize (HT n). clear E0. nums n. }
  intros [] L1 E1. cbv beta in E1. eapply tri_bind.
  { apply tri_incref. apply (has_ne v); auto. intros n. specialize (HT n). clear E0. nums n. }
  intros [] L1' E1'. cbv beta in E1'. eapply tri_bind.
  { apply tri_dtable_add with (X := v :: name :: X); auto.
    - clear E0. eqs.
    - clear E0 E E1 E1'. here.
    - clear E0 E E1 E1'. here. }
  intros [t' b] L2 (F1 & G & E2). cbn [fst] in *. eapply tri_bind.
  { apply tri_decref with (R := name :: of_table t' ++ X). clear E0 E E1 E1'. eqs. }
  intros [] L3 E3. cbv beta in E3. eapply tri_bind.
  { apply tri_decref with (R := of_table t' ++ X). exact E3. }
  intros [] L4 E4. cbv beta in E4. apply tri_ret. unfold add_post, of_parser. rewrite N, V.
  split; [clear E0 E E1 E1' E2 E3; eqs|]. split; auto. split; auto. split; auto. apply mv_zero.
  - intros n. cbn. lia.
  - intros n. specialize (G n). specialize (HT n). clear E0 E E1 E1' E2 E3 E4. nums n.
Qed.
Lemma tri_literal_add W L r t c X : full t -> r_name r <> Null -> r_value r <> Null ->
  eqc L (of_parser r ++ of_table t ++ X) ->
  tri W L (literal_add r t c) (add_post L r t X).
Proof.
  intros F N V E0. pose proof E0 as E. unfold literal_add, of_parser in E |- *.
  eapply tri_bind. { apply tri_touch. clear E0. here. } intros [] L1 ->.
  eapply tri_bind. { apply tri_touch. clear E0. here. } intros [] L1 ->.
  destruct (ch_err c); [apply tri_ret; apply add_same; auto|].
  eapply tri_bind.
  { apply tri_dtable_add with (X := r_name r :: r_value r :: X); auto.
    - clear E0. eqs.
    - clear E0 E. here.
    - clear E0 E. here. }
  intros [t' b] L1 (F1 & G & E1). cbn [fst] in *. eapply tri_bind.
  { apply tri_decref with (R := r_name r :: of_table t' ++ X). clear E0 E. eqs. }
  intros [] L2 E2. cbv beta in E2. eapply tri_bind.
  { apply tri_decref with (R := of_table t' ++ X). exact E2. }
  intros [] L3 E3. cbv beta in E3. apply tri_ret. unfold add_post, of_parser.
  cbn [with_value with_name r_name r_value r_at].
  split; [clear E0 E E1 E2; eqs|]. split; auto. split; auto. split; auto. apply mv_zero.
  - intros n. cbn. lia.
  - intros n. specialize (G n). clear E0 E E1 E2 E3. nums n.
Qed.

(* a round of the encoder stream *)
Definition es_post (L : list ptr) (r : rst) (t : tabl) (X : list ptr) (d : dec) (L' : list ptr)
  : Prop :=
  let '(r', t', bad) := d in
  eqc L' (of_parser r' ++ of_table t' ++ X) /\ loose r' /\ (bad = false -> shape r') /\ full t' /\
  mv L (of_parser r) (of_table t) (of_parser r') (of_table t').
Lemma es_same L r t X bad : eqc L (of_parser r ++ of_table t ++ X) -> full t -> shape r ->
  es_post L r t X (r, t, bad) L.
Proof. intros. repeat split; auto using shape_loose; apply mv_same. Qed.
Lemma after_add_post L r t X d L' : (r_at r <> AtPrefix /\ r_at r <> AtOp) ->
  add_post L r t X d L' -> es_post L r t X (after_add d) L'.
Proof.
  destruct d as [[r' t'] bad]. intros Ha (E & R & F & N & V). unfold after_add. destruct bad.
  - repeat split; auto; try discriminate; try apply V.
    unfold loose. rewrite R. destruct (r_at r); tauto.
  - destruct (N eq_refl) as [N1 N2].
    assert (C : forall n, count n (of_parser r') = 0).
    { intros n. unfold of_parser. rewrite N1, N2. reflexivity. }
    unfold es_post. cbn [reset of_parser r_name r_value loose shape r_at].
    split. { intros n. rewrite (E n), !count_app, C. reflexivity. }
    split; auto. split; [cbn; auto|]. split; auto. intros n. destruct (V n) as [_ V2].
    split; [left; reflexivity|exact V2].
Qed.

Lemma tri_es_round W L r t c c2 X : shape r -> full t ->
  eqc L (of_parser r ++ of_table t ++ X) -> (forall n, count n (of_parser r) <= count n W) ->
  tri W L (es_round r t c c2) (es_post L r t X).
Proof.
  intros S F E Hw. unfold es_round.
  assert (STR : (r_at r = AtNameLen \/ r_at r = AtName \/ r_at r = AtValueLen \/ r_at r = AtValue) ->
    tri W L (bind (strings r c) (fun x => let '(r', bad, complete) := x in
      if bad then ret (r', t, true) else if negb complete then ret (r', t, false) else
      bind (match r_op r with
            | OpLiteral => literal_add r t c2
            | _ => if r_dyn r then dynamic_add r t c2 else static_add r t c2
            end) (fun d => ret (after_add d)))) (es_post L r t X)).
  { intros HA. eapply tri_bind. { apply tri_strings with (X := of_table t ++ X); auto. }
    intros [[r' bad] complete] L1 (E1 & Lo & Sh & Co & Ct).
    assert (MV : mv L (of_parser r) (of_table t) (of_parser r') (of_table t)).
    { intros n. split; [|auto]. destruct (Ct n) as [Cn | [Cn1 Cn2]]; [right; left; lia|].
      right; right. split; auto. split; auto. clear E1. nums n. }
    destruct bad; [apply tri_ret; repeat split; auto; try discriminate; apply MV|].
    destruct complete; cbn [negb]; [|apply tri_ret; repeat split; auto; apply MV].
    destruct (Co eq_refl) as (-> & _ & Ea). clear Co Sh Lo MV.
    assert (EL : eqc L1 L). { clear Ct. intros n. rewrite (E1 n), (E n). reflexivity. }
    apply tri_ext with (L0 := L). { intros n. rewrite (EL n). reflexivity. }
    unfold shape in S. rewrite Ea in S. destruct S as ((m & S1) & S2). unfold owns_name in S2.
    assert (Na : r_at r <> AtPrefix /\ r_at r <> AtOp) by (rewrite Ea; split; discriminate).
    assert (Nv : r_value r <> Null) by congruence.
    eapply tri_bind with (P1 := add_post L r t X).
    - destruct (r_op r); try (destruct (r_dyn r);
        [apply tri_dynamic_add; assumption|apply tri_static_add; assumption]).
      destruct S2 as [k Sk]. apply tri_literal_add; auto. congruence.
    - intros d L2 H. apply tri_ret. apply after_add_post; auto. }
  destruct (r_at r) eqn:Ea; try (apply STR; tauto); clear STR.
  - apply tri_ret. apply es_same; auto.
  - apply tri_ret. unfold es_post. pose proof S as S0. unfold shape in S. rewrite Ea in S. destruct S as (S1 & S2).
    set (r' := match ch_op c with 0%nat => _ | _ => _ end).
    assert (H : r_name r' = Null /\ r_value r' = Null /\ loose r' /\ shape r').
    { unfold r', with_op, loose, shape. destruct (ch_op c) as [|[|[|k]]];
        cbn [r_at r_name r_value r_op]; repeat split; auto; discriminate. }
    destruct H as (R1 & R2 & R3 & R4).
    assert (C : of_parser r' = of_parser r). { unfold of_parser. congruence. }
    rewrite C. repeat split; auto; apply mv_same.
  - destruct (ch_more c); [apply tri_ret; apply es_same; auto|].
    destruct (ch_err c); [apply tri_ret; apply es_same; auto|].
    unfold shape in S. rewrite Ea in S. destruct S as (S1 & S2 & S3).
    assert (Z0 : forall n, count n (of_parser r) = 0).
    { intros n. unfold of_parser. rewrite S1, S2. reflexivity. }
    assert (VL : forall (Hx : r_op r <> OpLiteral), tri W L (ret (goto AtValueLen r, t, false)) (es_post L r t X)).
    { intros _. apply tri_ret. unfold es_post, loose, shape, owns_name, of_parser in *.
      cbn [goto r_at r_name r_value r_op]. repeat split; auto; try apply mv_same.
      destruct (r_op r); congruence. }
    destruct (r_op r) eqn:Eo; try (apply VL; discriminate).
    + eapply tri_bind. { apply tri_evict with (X := of_parser r ++ X); auto. eqs. }
      intros t' L1 (F1 & P1 & E1). apply tri_ret. unfold es_post.
      split. { intros n. rewrite (E1 n), !count_app, Z0. cbn. lia. }
      split; [cbn; auto|]. split; [cbn; auto|]. split; auto. apply mv_zero.
      * intros n. reflexivity.
      * intros n. pose proof (prefix_count _ _ n P1). nn n. lia.
    + eapply tri_bind. { apply tri_duplicate_add with (X := X); eauto. }
      intros d L1 H. apply tri_ret. apply after_add_post; auto. rewrite Ea. split; discriminate.
    + contradiction.
Qed.

(* a round of a request stream *)
Definition emitted (e : option (ptr * ptr)) : list ptr :=
  match e with Some (n, v) => [n; v] | None => [] end.
Definition rs_post (L : list ptr) (r : rst) (t : tabl) (X : list ptr) (x : req) (L' : list ptr)
  : Prop :=
  let '(r', bad, e) := x in
  eqc L' (of_parser r' ++ emitted e ++ of_table t ++ X) /\ loose r' /\ (bad = false -> shape r') /\
  ~ In Null (emitted e) /\
  mv L (of_parser r) (of_table t) (of_parser r') (emitted e ++ of_table t).
Lemma rs_same L r t X bad : eqc L (of_parser r ++ of_table t ++ X) -> shape r ->
  rs_post L r t X (r, bad, None) L.
Proof. intros. repeat split; auto using shape_loose; apply mv_same || (cbn; tauto). Qed.
Lemma rs_moved L L' r r' t X : eqc L (of_parser r ++ of_table t ++ X) -> eqc L' L ->
  of_parser r' = of_parser r -> shape r' ->
  rs_post L r t X (r', false, None) L'.
Proof.
  intros E E' P S. unfold rs_post. rewrite P. cbn [emitted List.app].
  split; [intros n; rewrite (E' n); apply E|].
  repeat split; auto using shape_loose; apply mv_same || (cbn; tauto).
Qed.
Lemma rs_fail L r t X : eqc L (of_parser r ++ of_table t ++ X) -> loose r ->
  rs_post L r t X (r, true, None) L.
Proof. intros. repeat split; auto; try discriminate; apply mv_same || (cbn; tauto). Qed.
Lemma emit_post L L' r t X n v : eqc L' ([n; v] ++ of_table t ++ X) -> n <> Null -> v <> Null ->
  (forall k, 0 < is_buf k n + is_buf k v -> 0 < count k (of_table t) + count k (of_parser r)) ->
  rs_post L r t X (reset AtOp, false, Some (n, v)) L'.
Proof.
  intros E N V K. unfold rs_post. split; [exact E|]. split; [cbn; auto|]. split; [cbn; auto|].
  split. { intros [H | [H | H]]; auto. } apply mv_zero; [intros k; reflexivity|].
  intros k. specialize (K k). cbn [emitted]. clear E. nums k.
Qed.
Lemma tri_rs_round W L r t c c2 X : shape r -> full t ->
  eqc L (of_parser r ++ of_table t ++ X) -> (forall n, count n (of_parser r) <= count n W) ->
  tri W L (rs_round r t c c2) (rs_post L r t X).
Proof.
  intros S F E Hw. unfold rs_round.
  assert (STR : (r_at r = AtNameLen \/ r_at r = AtName \/ r_at r = AtValueLen \/ r_at r = AtValue) ->
    tri W L (bind (strings r c) (fun x => let '(r', bad, complete) := x in
      if bad then ret (r', true, None) else if negb complete then ret (r', false, None) else
      match r_op r with
      | OpLiteral => emit_literal r
      | _ => emit_indexed_name r t c2
      end)) (rs_post L r t X)).
  { intros HA. eapply tri_bind. { apply tri_strings with (X := of_table t ++ X); auto. }
    intros [[r' bad] complete] L1 (E1 & Lo & Sh & Co & Ct).
    assert (MV : mv L (of_parser r) (of_table t) (of_parser r') (of_table t)).
    { intros n. split; [|auto]. destruct (Ct n) as [Cn | [Cn1 Cn2]]; [right; left; lia|].
      right; right. split; auto. split; auto. clear E1. nums n. }
    destruct bad.
    { apply tri_ret. split; [exact E1|]. split; [exact Lo|]. split; [discriminate|].
      split; [cbn; tauto|exact MV]. }
    destruct complete; cbn [negb].
    2:{ apply tri_ret. split; [exact E1|]. split; [exact Lo|]. split; [exact Sh|].
      split; [cbn; tauto|exact MV]. }
    destruct (Co eq_refl) as (-> & _ & Ea). clear Co Sh MV.
    assert (EL : eqc L1 L). { clear Ct. intros n. rewrite (E1 n), (E n). reflexivity. }
    apply tri_ext with (L0 := L). { intros n. rewrite (EL n). reflexivity. } clear EL E1 Ct L1.
    unfold shape in S. rewrite Ea in S. destruct S as ((m & S1) & S2). unfold owns_name in S2.
    assert (Nv : r_value r <> Null) by congruence.
    assert (LIT : forall k, r_name r = Buf k -> tri W L (emit_literal r) (rs_post L r t X)).
    { intros k Sk. unfold emit_literal. eapply tri_bind.
      { apply tri_touch. rewrite Sk. cbn [has].
        unfold of_parser in E. rewrite Sk in E. pose proof (is_buf_self k). nums k. }
      intros [] L1 ->. apply tri_ret. apply emit_post; auto; [congruence|].
      intros j. unfold of_parser. cbn [count]. nn j. lia. }
    assert (IDX : r_name r = Null -> tri W L (emit_indexed_name r t c2) (rs_post L r t X)).
    { intros Sn. pose proof E as E0. unfold of_parser in E0. rewrite Sn in E0.
      unfold emit_indexed_name. destruct (r_dyn r).
      - destruct (ch_err c2); [apply tri_ret; apply rs_fail; auto|].
        destruct (nth_error t (ch_i c2)) as [[name v]|] eqn:Ei;
          [|apply tri_ret; apply rs_fail; auto].
        destruct (full_nth _ _ _ _ F Ei) as [Nn _].
        pose proof (fun n => in_table n _ _ _ _ Ei) as HT.
        eapply tri_bind.
        { apply tri_incref. apply (has_ne name); auto. intros n. specialize (HT n). clear E. nums n. }
        intros [] L1 E1. cbv beta in E1. apply tri_ret. apply emit_post; auto.
        + clear E. eqs.
        + intros j. specialize (HT j). unfold of_parser. clear E E0 E1. nums j.
      - apply tri_ret. apply emit_post; auto; try discriminate;
          first [solve [intros j; unfold of_parser; clear E E0; nums j]|clear E; eqs]. }
    destruct (r_op r); try (apply IDX; exact S2). destruct S2 as [k Sk]. apply (LIT k Sk). }
  destruct (r_at r) eqn:Ea; try (apply STR; tauto); clear STR.
  - destruct (ch_more c); [apply tri_ret; apply rs_same; auto|].
    destruct (ch_err c); [apply tri_ret; apply rs_same; auto|].
    unfold shape in S. rewrite Ea in S. destruct S as (S1 & S2).
    apply tri_ret. apply rs_moved; auto; try (intros n; reflexivity).
    + destruct (ch_dyn c); unfold of_parser; cbn [reset goto r_name r_value]; congruence.
    + destruct (ch_dyn c); unfold shape; cbn [reset goto r_name r_value r_at]; auto.
  - destruct (ch_err c); [apply tri_ret; apply rs_same; auto|].
    unfold shape in S. rewrite Ea in S. destruct S as (S1 & S2).
    apply tri_ret. apply rs_moved; auto; try (intros n; reflexivity).
    + destruct (ch_op c) as [|[|k]]; reflexivity.
    + destruct (ch_op c) as [|[|k]]; unfold shape; cbn [with_op r_name r_value r_at r_op];
        repeat split; auto; discriminate.
  - destruct (ch_more c); [apply tri_ret; apply rs_same; auto|].
    destruct (ch_err c); [apply tri_ret; apply rs_same; auto|].
    pose proof (shape_loose _ S) as Lo.
    unfold shape in S. rewrite Ea in S. destruct S as (S1 & S2 & S3).
    assert (VL : tri W L (ret (goto AtValueLen r, false, None)) (rs_post L r t X)).
    { apply tri_ret. apply rs_moved; auto; try (intros n; reflexivity).
      unfold shape, owns_name. cbn [goto r_name r_value r_at r_op].
      destruct (r_op r); auto. congruence. }
    destruct (r_op r) eqn:Eo; try apply VL. clear VL.
    pose proof E as E0. unfold of_parser in E0. rewrite S1, S2 in E0.
    unfold emit_indexed. destruct (r_dyn r).
    + destruct (nth_error t (ch_i c2)) as [[name v]|] eqn:Ei;
        [|apply tri_ret; apply rs_fail; auto].
      destruct (full_nth _ _ _ _ F Ei) as [Nn Nv].
      pose proof (fun n => in_table n _ _ _ _ Ei) as HT.
      eapply tri_bind.
      { apply tri_incref. apply (has_ne name); auto. intros n. specialize (HT n). clear E. nums n. }
      intros [] L1 E1. cbv beta in E1. eapply tri_bind.
      { apply tri_incref. apply (has_ne v); auto. intros n. specialize (HT n). clear E. nums n. }
      intros [] L2 E2. cbv beta in E2. apply tri_ret. apply emit_post; auto.
      * clear E. eqs.
      * intros j. specialize (HT j). unfold of_parser. clear E E0 E1 E2. nums j.
    + apply tri_ret. apply emit_post; auto; try discriminate;
        first [solve [intros j; unfold of_parser; clear E E0; nums j]|clear E; eqs].
Qed.

(* the callback *)
Lemma tri_keep W L b p : has p L ->
  tri W L (keep b p) (fun own L' => eqc L' (own ++ L) /\ (forall n, count n own <= is_buf n p) /\
                                    (p <> Null -> ~ In Null own)).
Proof.
  intros H. unfold keep. destruct b.
  - eapply tri_bind. { apply tri_incref. exact H. } intros [] L1 E. cbv beta in E. apply tri_ret.
    split; [eqs|]. split; [intros n; cbn; lia|]. intros N [K | []]. auto.
  - apply tri_ret. split; [intros n; reflexivity|]. split; [intros n; cbn; apply is_buf_range|].
    intros _ [].
Qed.
Lemma tri_on_header W L e kn kv R : eqc L (emitted e ++ R) -> ~ In Null (emitted e) ->
  tri W L (on_header e kn kv) (fun own L' => eqc L' (own ++ R) /\ ~ In Null own /\
    (forall n, 0 < count n own -> 0 < count n (emitted e))).
Proof.
  intros E N. unfold on_header. destruct e as [[name value]|].
  2:{ apply tri_ret. repeat split; auto. }
  cbn [emitted] in *.
  assert (N1 : name <> Null) by (intros ->; apply N; cbn; auto).
  assert (N2 : value <> Null) by (intros ->; apply N; cbn; auto).
  eapply tri_bind. { apply tri_touch. here. } intros [] L1 ->.
  eapply tri_bind. { apply tri_touch. here. } intros [] L1 ->.
  eapply tri_bind. { apply tri_keep. here. } intros a L1 (E1 & C1 & M1). cbv beta in E1.
  eapply tri_bind.
  { apply tri_keep. apply (has_ne value); auto. intros n. specialize (C1 n). nums n. }
  intros b L2 (E2 & C2 & M2). cbv beta in E2.
  eapply tri_bind. { apply tri_decref with (R := value :: a ++ b ++ R). eqs. }
  intros [] L3 E3. cbv beta in E3.
  eapply tri_bind. { apply tri_decref with (R := a ++ b ++ R). exact E3. }
  intros [] L4 E4. cbv beta in E4. apply tri_ret. split.
  - clear E E1 E2 E3. eqs.
  - split. { rewrite in_app_iff. intros [H | H]; [apply M1 in H|apply M2 in H]; auto. }
    intros n. specialize (C1 n). specialize (C2 n). clear E E1 E2 E3 E4. nums n.
Qed.

(* the encoder's insertions, with the encoder's table t and everything else X *)
Definition enc_post (L : list ptr) (t : tabl) (X : list ptr) (x : tabl * bool) (L' : list ptr)
  : Prop :=
  eqc L' (of_table (fst x) ++ X) /\ full (fst x) /\
  forall n, 0 < count n (of_table (fst x)) -> 0 < count n (of_table t) \/ count n L = 0.
Lemma enc_same L t X b : eqc L (of_table t ++ X) -> full t -> enc_post L t X (t, b) L.
Proof. intros. repeat split; auto. Qed.
Lemma tri_enc_static W L t src c X : full t -> eqc L (of_table t ++ X) ->
  tri W L (enc_static_add t src c) (enc_post L t X).
Proof.
  intros F E. unfold enc_static_add. eapply tri_bind. { apply tri_new. }
  intros p L1 H. destruct (ch_m3 c); cbn [negb].
  2:{ destruct H as [-> ->]. apply tri_ret. apply enc_same; auto. }
  destruct H as (n & -> & F0 & ->). eapply tri_bind.
  { apply tri_dtable_add with (X := Buf n :: X); auto; try discriminate.
    - eqs.
    - exact Logic.I.
    - cbn [has count]. rewrite is_buf_self. nn n. lia. }
  intros [t' b] L1 (F1 & G & E1). cbn [fst] in *. eapply tri_bind.
  { apply tri_decref with (R := of_table t' ++ X). clear E. eqs. }
  intros [] L2 E2. cbv beta in E2. apply tri_ret. unfold enc_post. cbn [fst].
  split; auto. split; auto. intros m. specialize (G m). intros Hm. cbn [is_buf] in G.
  destruct (Nat.eqb m n) eqn:Em; [apply Nat.eqb_eq in Em; subst; auto|]. left. lia.
Qed.
Lemma tri_enc_dynamic W L t src c X : full t -> eqc L (of_table t ++ X) ->
  tri W L (enc_dynamic_add t src c) (enc_post L t X).
Proof.
  intros F E. unfold enc_dynamic_add.
  destruct (nth_error t (ch_i c)) as [[name v]|] eqn:Ei; [|apply tri_ret; apply enc_same; auto].
  destruct (full_nth _ _ _ _ F Ei) as [Nn _]. pose proof (fun n => in_table n _ _ _ _ Ei) as HT.
  eapply tri_bind. { apply tri_new. } intros p L1 H. destruct (ch_m3 c); cbn [negb].
  2:{ destruct H as [-> ->]. apply tri_ret. apply enc_same; auto. }
  destruct H as (n & -> & F0 & ->). eapply tri_bind.
  { apply tri_incref. apply (has_ne name); auto. intros m. specialize (HT m). nums m. }
  intros [] L1 E1. cbv beta in E1. eapply tri_bind.
  { apply tri_dtable_add with (X := name :: Buf n :: X); auto; try discriminate.
    - eqs.
    - clear E E1. here.
    - cbn [has count]. rewrite is_buf_self. clear E E1. nn n. lia. }
  intros [t' b] L2 (F1 & G & E2). cbn [fst] in *. eapply tri_bind.
  { apply tri_decref with (R := name :: of_table t' ++ X). clear E E1. eqs. }
  intros [] L3 E3. cbv beta in E3. eapply tri_bind.
  { apply tri_decref with (R := of_table t' ++ X). exact E3. }
  intros [] L4 E4. cbv beta in E4. apply tri_ret. unfold enc_post. cbn [fst].
  split; auto. split; auto. intros m. specialize (G m). specialize (HT m). intros Hm.
  cbn [is_buf] in G.
  destruct (Nat.eqb m n) eqn:Em; [apply Nat.eqb_eq in Em; subst; auto|]. left.
  clear E E1 E2 E3 E4. nums m.
Qed.
Lemma tri_enc_duplicate W L t c X : full t -> eqc L (of_table t ++ X) ->
  tri W L (enc_duplicate_add t c) (enc_post L t X).
Proof.
  intros F E. unfold enc_duplicate_add.
  destruct (nth_error t (ch_i c)) as [[name v]|] eqn:Ei; [|apply tri_ret; apply enc_same; auto].
  destruct (full_nth _ _ _ _ F Ei) as [Nn Nv]. pose proof (fun n => in_table n _ _ _ _ Ei) as HT.
  eapply tri_bind.
  { apply tri_incref. apply (has_ne name); auto. intros m. specialize (HT m). nums m. }
  intros [] L1 E1. cbv beta in E1. eapply tri_bind.
  { apply tri_incref. apply (has_ne v); auto. intros m. specialize (HT m). nums m. }
  intros [] L1' E1'. cbv beta in E1'. eapply tri_bind.
  { apply tri_dtable_add with (X := v :: name :: X); auto.
    - eqs.
    - clear E E1 E1'. here.
    - clear E E1 E1'. here. }
  intros [t' b] L2 (F1 & G & E2). cbn [fst] in *. eapply tri_bind.
  { apply tri_decref with (R := v :: of_table t' ++ X). clear E E1 E1'. eqs. }
  intros [] L3 E3. cbv beta in E3. eapply tri_bind.
  { apply tri_decref with (R := of_table t' ++ X). exact E3. }
  intros [] L4 E4. cbv beta in E4. apply tri_ret. unfold enc_post. cbn [fst].
  split; auto. split; auto. intros m. specialize (G m). specialize (HT m). intros Hm. left.
  clear E E1 E1' E2 E3 E4. nums m.
Qed.
Lemma tri_enc_literal W L t a b c X : full t -> eqc L (of_table t ++ X) ->
  tri W L (enc_literal_add t a b c) (enc_post L t X).
Proof.
  intros F E. unfold enc_literal_add. eapply tri_bind. { apply tri_new. }
  intros p L1 H. destruct (ch_m3 c); cbn [negb].
  2:{ destruct H as [-> ->]. apply tri_ret. apply enc_same; auto. }
  destruct H as (n & -> & F0 & ->). eapply tri_bind. { apply tri_new. }
  intros p L1 H. destruct (ch_m4 c); cbn [negb].
  2:{ destruct H as [-> ->]. eapply tri_bind.
      { apply tri_decref with (R := L). intros m. reflexivity. }
      intros [] L1 E1. cbv beta in E1. apply tri_ret. unfold enc_post. cbn [fst].
      split; [eqs|]. split; auto. }
  destruct H as (n' & -> & F0' & ->). eapply tri_bind.
  { apply tri_dtable_add with (X := Buf n' :: Buf n :: X); auto; try discriminate.
    - eqs.
    - cbn [has count]. rewrite is_buf_self. clear E. nn n. lia.
    - cbn [has count]. rewrite is_buf_self. clear E. nn n'. lia. }
  intros [t' bb] L2 (F1 & G & E2). cbn [fst] in *. eapply tri_bind.
  { apply tri_decref with (R := Buf n :: of_table t' ++ X). clear E. eqs. }
  intros [] L3 E3. cbv beta in E3. eapply tri_bind.
  { apply tri_decref with (R := of_table t' ++ X). exact E3. }
  intros [] L4 E4. cbv beta in E4. apply tri_ret. unfold enc_post. cbn [fst].
  split; auto. split; auto. intros m. specialize (G m). intros Hm. cbn [is_buf] in G.
  assert (F0n : count n' L = 0). { clear - F0'. cbn [count] in F0'. nn n'. lia. }
  destruct (Nat.eqb m n) eqn:Em; [apply Nat.eqb_eq in Em; subst; auto|].
  destruct (Nat.eqb m n') eqn:Em'; [apply Nat.eqb_eq in Em'; subst; auto|]. left. lia.
Qed.

(* deletion *)
Lemma tri_context_free W t : forall L X, eqc L (of_table t ++ X) ->
  tri W L (context_free t) (fun _ L' => eqc L' X).
Proof.
  induction t as [|[a b] t IH]; intros L X E; cbn [context_free].
  - apply tri_ret. exact E.
  - cbn [of_table flat_map List.app fst snd] in E. fold (of_table t) in E.
    eapply tri_bind. { apply tri_entry_free with (R := of_table t ++ X). exact E. }
    intros [] L1 E1. apply IH. exact E1.
Qed.
Lemma tri_read_state_free W L r X : eqc L (of_parser r ++ X) ->
  tri W L (read_state_free r) (fun _ L' => eqc L' X).
Proof.
  intros E. unfold read_state_free, of_parser in *.
  eapply tri_bind. { apply tri_decref with (R := r_name r :: X). eqs. }
  intros [] L1 E1. cbv beta in E1. apply tri_decref. exact E1.
Qed.

(* the whole state *)
Definition parsers (s : st) : list ptr := of_parser (d_rst s) ++ flat_map of_context (scs s).
Definition excl (P Q : list ptr) : Prop := forall n,
  0 < count n P -> count n P = 1 /\ count n Q = 0.
Record inv (s : st) : Prop := {
  i_ok : ok (hp s) (holders s);
  i_excl : excl (parsers s) (of_table (d_tab s) ++ of_table (e_tab s) ++ app s);
  i_d : full (d_tab s);
  i_e : full (e_tab s);
  i_rst : loose (d_rst s) /\ (d_bad s = false -> shape (d_rst s));
  i_ctx : forall i r, ctx_of s i = Some r -> loose r /\ (d_bad s = false -> shape r);
  i_app : ~ In Null (app s);
  i_dead : d_alive s = false -> d_rst s = reset AtOp /\ d_tab s = [];
  i_edead : e_alive s = false -> e_tab s = []
}.

Lemma excl_mv L P A P' A' PX QX PP QQ PP' QQ' :
  eqc L (P ++ A ++ PX ++ QX) ->
  eqc PP (P ++ PX) -> eqc QQ (A ++ QX) -> eqc PP' (P' ++ PX) -> eqc QQ' (A' ++ QX) ->
  excl PP QQ -> mv L P A P' A' -> excl PP' QQ'.
Proof.
  intros E E1 E2 E3 E4 X V n. specialize (X n). destruct (V n) as [V1 V2]. clear V.
  specialize (E n). specialize (E1 n). specialize (E2 n). specialize (E3 n). specialize (E4 n).
  rewrite !count_app in *. rewrite E1, E2 in X. rewrite E3, E4. clear E1 E2 E3 E4. nn n. lia.
Qed.

Lemma count_set_nth n l i r c : nth_error l i = Some (Some r) ->
  count n (flat_map of_context (set_nth i c l)) + count n (of_parser r) =
  count n (flat_map of_context l) + count n (of_context c).
Proof.
  revert i. induction l as [|x l IH]; intros [|i] H; try discriminate.
  - injection H as ->. cbn [set_nth flat_map of_context]. rewrite !count_app. lia.
  - cbn [set_nth flat_map]. rewrite !count_app. specialize (IH i H). lia.
Qed.
Lemma ctx_set s i j (r r0 : rst) c (l := set_nth i c (scs s)) : ctx_of s i = Some r0 ->
  match nth_error l j with Some (Some x) => Some x | _ => None end = Some r ->
  (c = Some r /\ i = j) \/ ctx_of s j = Some r.
Proof.
  unfold ctx_of, l. clear l. intros _. generalize (scs s). intros l. revert i j.
  induction l as [|x l IH]; intros i j H.
  - destruct i; destruct j; discriminate.
  - destruct i as [|i]; destruct j as [|j]; cbn [set_nth nth_error] in *; auto.
    + destruct c; [injection H as ->; auto|discriminate].
    + destruct (IH i j H) as [[? ?] | ?]; [left; split; auto|auto].
Qed.
Lemma ctx_nth s i r : ctx_of s i = Some r -> nth_error (scs s) i = Some (Some r).
Proof. unfold ctx_of. destruct (nth_error (scs s) i) as [[x|]|]; congruence. Qed.

Lemma finish_tri {A} W (m : M A) s f (post : A -> list ptr -> Prop) :
  ok (hp s) (holders s) -> tri W (holders s) m post ->
  exists x h' L', finish m s f = Some (f h' x) /\ ok h' L' /\ post x L' /\ pres W (hp s) h'.
Proof.
  intros O T. destruct (T _ O) as (x & h' & L' & E & O' & Q & R). exists x, h', L'.
  unfold finish. rewrite E. auto.
Qed.

Definition good (s s' : st) : Prop := inv s' /\ pres (parsers s) (hp s) (hp s').
Ltac unf := unfold holders, parsers, set_dec, set_req, set_enc, set_app in *;
  cbn [hp d_rst d_tab d_bad d_alive scs e_tab e_alive app] in *.

Lemma step_es s c c2 : inv s -> d_alive s = true -> d_bad s = false ->
  exists s', finish (es_round (d_rst s) (d_tab s) c c2) s (fun h d => set_dec h d s) = Some s' /\
             good s s'.
Proof.
  intros I Al Ba. destruct I as [O X Fd Fe [R1 R2] C N D1 D2].
  specialize (R2 Ba).
  set (Y := flat_map of_context (scs s) ++ of_table (e_tab s) ++ app s).
  destruct (finish_tri (parsers s) _ s (fun h d => set_dec h d s) _ O
    (tri_es_round (parsers s) (holders s) (d_rst s) (d_tab s) c c2 Y R2 Fd
       ltac:(unfold holders, Y; eqs) ltac:(unfold parsers; intros n; nums n)))
    as (x & h' & L' & E & O' & Q & P).
  destruct x as [[r' t'] bad]. destruct Q as (E1 & Lo & Sh & F' & V).
  eexists. split; [exact E|]. split; [|exact P]. constructor; unf; auto.
  - eapply ok_ext; [|exact O']. unfold Y in E1. eqs.
  - eapply excl_mv with (PX := flat_map of_context (scs s)) (QX := of_table (e_tab s) ++ app s);
      [| | | | |exact X|exact V]; eqs.
  - split; auto. intros B. apply Sh. apply orb_false_iff in B. tauto.
  - intros i r H. destruct (C i r H) as [H1 H2]. split; auto.
  - intros K. congruence.
Qed.

Lemma step_req s i r {A} (m : M A) (prj : A -> rst * bool * list ptr) :
  inv s -> d_alive s = true -> d_bad s = false -> ctx_of s i = Some r ->
  (forall L X, eqc L (of_parser r ++ of_table (d_tab s) ++ X) -> shape r -> full (d_tab s) ->
     tri (parsers s) L m (fun x L' => let '(r', bad, own) := prj x in
       eqc L' (of_parser r' ++ own ++ of_table (d_tab s) ++ X) /\ loose r' /\
       (bad = false -> shape r') /\ ~ In Null own /\
       mv L (of_parser r) (of_table (d_tab s)) (of_parser r') (own ++ of_table (d_tab s)))) ->
  exists s', finish m s (fun h x => let '(r', bad, own) := prj x in set_req h i r' bad own s)
             = Some s' /\ good s s'.
Proof.
  intros I Al Ba Cx T. destruct I as [O X Fd Fe [R1 R2] C N D1 D2].
  destruct (C i r Cx) as [Rl Rs]. specialize (Rs Ba).
  pose proof (fun n (c : option rst) => count_set_nth n (scs s) i r c (ctx_nth _ _ _ Cx)) as CS.
  set (Z0 := flat_map of_context (set_nth i None (scs s))).
  assert (CP : forall n, count n (flat_map of_context (scs s)) = count n (of_parser r) + count n Z0).
  { intros n. specialize (CS n None). unfold Z0. cbn in CS |- *. lia. }
  assert (CN : forall n r', count n (flat_map of_context (set_nth i (Some r') (scs s)))
                            = count n (of_parser r') + count n Z0).
  { intros n r'. pose proof (CS n (Some r')). pose proof (CS n None). unfold Z0.
    cbn [of_context count] in *. lia. }
  clear CS.
  set (Y := of_parser (d_rst s) ++ Z0 ++ of_table (e_tab s) ++ app s).
  destruct (finish_tri (parsers s) m s
    (fun h x => let '(r', bad, own) := prj x in set_req h i r' bad own s) _ O
    (T (holders s) Y ltac:(unfold holders, Y; intros n; specialize (CP n); nums n) Rs Fd))
    as (x & h' & L' & E & O' & Q & P).
  destruct (prj x) as [[r' bad] own]. destruct Q as (E1 & Lo & Sh & Nn & V).
  eexists. split; [exact E|]. split; [|exact P]. constructor; unf; auto.
  - eapply ok_ext; [|exact O']. unfold Y in E1. intros n. specialize (CN n r'). nums n.
  - eapply excl_mv with (PX := of_parser (d_rst s) ++ Z0) (QX := of_table (e_tab s) ++ app s);
      [| | | | |exact X|exact V]; intros n; specialize (CP n); specialize (CN n r'); nums n.
  - intros j r1 H. unfold ctx_of in H. cbn [scs] in H.
    destruct (ctx_set s i j r1 r (Some r') Cx H) as [[[= <-] <-] | K].
    + split; auto. intros B. apply Sh. apply orb_false_iff in B. tauto.
    + destruct (C j r1 K) as [H1 H2]. split; auto.
  - rewrite in_app_iff. tauto.
Qed.

Lemma step_enc s (m : M (tabl * bool)) : inv s -> e_alive s = true ->
  (forall L X, full (e_tab s) -> eqc L (of_table (e_tab s) ++ X) ->
     tri (parsers s) L m (enc_post L (e_tab s) X)) ->
  exists s', finish m s (fun h x => set_enc h (fst x) s) = Some s' /\ good s s'.
Proof.
  intros I Al T. destruct I as [O X Fd Fe R C N D1 D2].
  set (Y := parsers s ++ of_table (d_tab s) ++ app s).
  destruct (finish_tri (parsers s) m s (fun h x => set_enc h (fst x) s) _ O
    (T (holders s) Y Fe ltac:(unfold holders, Y, parsers; eqs)))
    as ([t' b] & h' & L' & E & O' & Q & P). cbn [fst] in *. destruct Q as (E1 & F1 & K).
  eexists. split; [exact E|]. split; [|exact P]. cbn [fst] in *. constructor; unf; auto.
  - eapply ok_ext; [|exact O']. unfold Y, parsers in E1. eqs.
  - intros n Hn. destruct (X n Hn) as [X1 X2]. split; auto. specialize (K n).
    clear E1. nums n.
  - congruence.
Qed.

Lemma count_reset n a : count n (of_parser (reset a)) = 0.
Proof. reflexivity. Qed.
Lemma count_empty n : count n (of_table []) = 0.
Proof. reflexivity. Qed.
Lemma remove1_count n p l : In p l -> count n (remove1 p l) + is_buf n p = count n l.
Proof.
  induction l as [|x l IH]; [intros []|]; intros [H | H].
  - subst x. cbn [remove1]. destruct p; cbn [count]; try (cbn; lia). rewrite Nat.eqb_refl. lia.
  - cbn [remove1]. specialize (IH H). destruct x, p; cbn [count] in *; try (cbn in *; lia).
    destruct (Nat.eqb n0 n1) eqn:E; [apply Nat.eqb_eq in E; subst; lia|]. cbn [count]. lia.
Qed.
Lemma remove1_in p q l : In q (remove1 p l) -> In q l.
Proof.
  induction l as [|x l IH]; cbn [remove1]; auto. destruct x, p; cbn [In]; try tauto.
  destruct (Nat.eqb n n0); cbn [In]; tauto.
Qed.

Theorem step_good s o : inv s -> lawful s o -> exists s', step s o = Some s' /\ good s s'.
Proof.
  intros I La.
  assert (SAME : good s s) by (split; [exact I|apply pres_refl]).
  destruct o; cbn [step].
  - destruct (d_alive s) eqn:Al; cbn [negb orb]; [|eauto].
    destruct (d_bad s) eqn:Ba; [eauto|]. apply step_es; auto.
  - eexists. split; [reflexivity|]. split; [|apply pres_refl].
    destruct I as [O X Fd Fe R C N D1 D2].
    assert (CE : forall n, count n (flat_map of_context (scs s ++ [Some (reset AtPrefix)]))
                           = count n (flat_map of_context (scs s))).
    { intros n. rewrite flat_map_app, count_app. cbn. lia. }
    constructor; unf; auto.
    + eapply ok_ext; [|exact O]. intros n. specialize (CE n). nums n.
    + intros n. specialize (CE n). specialize (X n). unfold parsers in X. nums n.
    + intros i r H. unfold ctx_of in H. cbn [scs] in H.
      destruct (Nat.lt_ge_cases i (length (scs s))) as [L | L].
      * rewrite nth_error_app1 in H by auto. apply (C i r). exact H.
      * rewrite nth_error_app2 in H by auto. destruct (i - length (scs s))%nat as [|[|k]];
          try discriminate. injection H as <-. split; cbn; auto.
  - destruct (d_alive s) eqn:Al; cbn [negb orb]; [|eauto].
    destruct (d_bad s) eqn:Ba; [eauto|]. destruct (ctx_of s i) as [r|] eqn:Cx; [|eauto].
    destruct (step_req s i r (rs_round r (d_tab s) c c2)
      (fun x => let '(r', bad, e) := x in (r', bad, emitted e)) I Al Ba Cx) as (s' & E & G).
    + intros L X E S F. eapply tri_post.
      * apply tri_rs_round with (X := X); auto. intros n. unfold parsers. rewrite count_app.
        pose proof (count_set_nth n (scs s) i r None (ctx_nth _ _ _ Cx)) as K.
        cbn [of_context count] in K. nn n. lia.
      * intros [[r' bad] e] L' H. exact H.
    + exists s'. split; [|exact G]. rewrite <- E. unfold finish.
      destruct (rs_round r (d_tab s) c c2 (hp s)) as [[[[r' bad] e] h]|]; reflexivity.
  - destruct (d_alive s) eqn:Al; cbn [negb orb]; [|eauto].
    destruct (d_bad s) eqn:Ba; [eauto|]. destruct (ctx_of s i) as [r|] eqn:Cx; [|eauto].
    apply (step_req s i r
      (bind (rs_round r (d_tab s) c c2) (fun x => let '(r', bad, e) := x in
         bind (on_header e keep_name keep_value) (fun own => ret (r', bad, own))))
      (fun x => x) I Al Ba Cx).
    intros L X E S F. eapply tri_bind.
    { apply tri_rs_round with (X := X); auto. intros n. unfold parsers. rewrite count_app.
      pose proof (count_set_nth n (scs s) i r None (ctx_nth _ _ _ Cx)) as K.
      cbn [of_context count] in K. nn n. lia. }
    intros [[r' bad] e] L1 (E1 & Lo & Sh & Nn & V). eapply tri_bind.
    { apply tri_on_header with (R := of_parser r' ++ of_table (d_tab s) ++ X); auto. clear E. eqs. }
    intros own L2 (E2 & N2 & C2). apply tri_ret.
    split; [clear E E1; eqs|]. split; auto. split; auto. split; auto.
    intros n. destruct (V n) as [V1 V2]. specialize (C2 n). clear E E1 E2 V. nums n.
  - destruct (ctx_of s i) as [r|] eqn:Cx; [|eauto].
    eexists. split; [reflexivity|]. split; [|apply pres_refl]. cbn [lawful] in La. rewrite Cx in La.
    destruct I as [O X Fd Fe R C N D1 D2]. destruct (C i r Cx) as [Lo _].
    assert (C0 : forall n, count n (of_parser r) = 0).
    { intros n. unfold loose in Lo. unfold of_parser.
      destruct La as [K | K]; rewrite K in Lo; destruct Lo as [-> ->]; reflexivity. }
    assert (CE : forall n, count n (flat_map of_context (set_nth i (Some (reset AtPrefix)) (scs s)))
                           = count n (flat_map of_context (scs s))).
    { intros n. pose proof (count_set_nth n (scs s) i r (Some (reset AtPrefix)) (ctx_nth _ _ _ Cx)) as K.
      rewrite C0 in K. cbn [of_context reset of_parser r_name r_value count is_buf] in K. lia. }
    constructor; unf; auto.
    + eapply ok_ext; [|exact O]. intros n. specialize (CE n). nums n.
    + intros n. specialize (CE n). specialize (X n). unfold parsers in X. nums n.
    + intros j r1 H. unfold ctx_of in H. cbn [scs] in H.
      destruct (ctx_set s i j r1 r (Some (reset AtPrefix)) Cx H) as [[[= <-] <-] | K].
      * split; cbn; auto.
      * apply C in K. exact K.
  - destruct (ctx_of s i) as [r|] eqn:Cx; [|eauto].
    destruct I as [O X Fd Fe R C N D1 D2].
    pose proof (fun n => count_set_nth n (scs s) i r None (ctx_nth _ _ _ Cx)) as CS.
    set (Z0 := flat_map of_context (set_nth i None (scs s))) in *.
    edestruct (finish_tri (parsers s) (read_state_free r) s) as (x & h' & L' & E & O' & Q & P);
      [exact O| |eexists; split; [exact E|]].
    { apply tri_read_state_free with (X := of_parser (d_rst s) ++ Z0 ++ of_table (d_tab s) ++
        of_table (e_tab s) ++ app s).
      intros n. specialize (CS n). cbn [of_context count] in CS. unfold holders. nums n. }
    cbv beta in Q. split; [|exact P]. constructor; unf; auto.
    + eapply ok_ext; [|exact O']. fold Z0. eqs.
    + intros n. specialize (CS n). specialize (X n). fold Z0. cbn [of_context count] in CS.
      unfold parsers in X. clear Q. nums n.
    + intros j r1 H. unfold ctx_of in H. cbn [scs] in H.
      destruct (ctx_set s i j r1 r None Cx H) as [[K _] | K]; [discriminate|]. apply C in K. exact K.
  - destruct (d_alive s) eqn:Al; cbn [negb]; [|eauto].
    destruct I as [O X Fd Fe R C N D1 D2].
    edestruct (finish_tri (parsers s) (bind (read_state_free (d_rst s)) (fun _ => context_free (d_tab s))) s)
      as (x & h' & L' & E & O' & Q & P); [exact O| |eexists; split; [exact E|]].
    { eapply tri_bind.
      - apply tri_read_state_free with (X := flat_map of_context (scs s) ++ of_table (d_tab s) ++
          of_table (e_tab s) ++ app s). unfold holders. eqs.
      - intros [] L1 E1. cbv beta in E1. apply tri_context_free with
          (X := flat_map of_context (scs s) ++ of_table (e_tab s) ++ app s). eqs. }
    cbv beta in Q. split; [|exact P]. constructor; unf; auto.
    + eapply ok_ext; [|exact O']. intros n. pose proof (count_reset n AtOp). pose proof (count_empty n). nums n.
    + intros n. specialize (X n). pose proof (count_reset n AtOp). pose proof (count_empty n).
      unfold parsers in X. clear Q. nums n.
    + constructor.
    + split; cbn; auto.
  - destruct (e_alive s) eqn:Al; cbn [negb]; [|eauto]. apply step_enc; auto.
    intros. apply tri_enc_static; auto.
  - destruct (e_alive s) eqn:Al; cbn [negb]; [|eauto]. apply step_enc; auto.
    intros. apply tri_enc_dynamic; auto.
  - destruct (e_alive s) eqn:Al; cbn [negb]; [|eauto]. apply step_enc; auto.
    intros. apply tri_enc_duplicate; auto.
  - destruct (e_alive s) eqn:Al; cbn [negb]; [|eauto]. apply step_enc; auto.
    intros. apply tri_enc_literal; auto.
  - destruct (e_alive s) eqn:Al; cbn [negb]; [|eauto].
    destruct (step_enc s (bind (evict k (e_tab s)) (fun t => ret (t, true))) I Al) as (s' & E & G).
    + intros L X F E. eapply tri_bind. { apply tri_evict with (X := X); eauto. }
      intros t' L1 (F1 & P1 & E1). apply tri_ret. split; auto. split; auto. cbn [fst].
      intros n Hn. left. pose proof (prefix_count _ _ n P1). lia.
    + exists s'. split; [|exact G]. rewrite <- E. unfold finish, bind, ret.
      destruct (evict k (e_tab s) (hp s)) as [[t h]|]; reflexivity.
  - destruct (e_alive s) eqn:Al; cbn [negb]; [|eauto].
    destruct I as [O X Fd Fe R C N D1 D2].
    edestruct (finish_tri (parsers s) (context_free (e_tab s)) s)
      as (x & h' & L' & E & O' & Q & P); [exact O| |eexists; split; [exact E|]].
    { apply tri_context_free with (X := parsers s ++ of_table (d_tab s) ++ app s).
      unfold holders, parsers. eqs. }
    cbv beta in Q. split; [|exact P]. constructor; unf; auto.
    + eapply ok_ext; [|exact O']. intros n. pose proof (count_empty n). nums n.
    + intros n. specialize (X n). pose proof (count_empty n). unfold parsers in X. clear Q. nums n.
    + constructor.
  - cbn [lawful] in La. destruct I as [O X Fd Fe R C N D1 D2].
    assert (Np : p <> Null) by (intros ->; auto).
    edestruct (finish_tri (parsers s) (incref p) s)
      as (x & h' & L' & E & O' & Q & P); [exact O| |eexists; split; [exact E|]].
    { apply tri_incref. apply in_has; auto. unfold holders. rewrite !in_app_iff. auto. }
    cbv beta in Q. split; [|exact P]. constructor; unf; auto.
    + eapply ok_ext; [|exact O']. eqs.
    + intros n Hn. destruct (X n Hn) as [X1 X2]. split; auto.
      assert (K : is_buf n p <= count n (app s)).
      { clear - La. induction (app s) as [|y l IH]; [destruct La|]; destruct La as [-> | H]; cbn [count].
        - nn n. lia.
        - specialize (IH H). nn n. lia. }
      clear Q. nums n.
    + intros [K | K]; auto.
  - cbn [lawful] in La. destruct I as [O X Fd Fe R C N D1 D2].
    edestruct (finish_tri (parsers s) (decref p) s)
      as (x & h' & L' & E & O' & Q & P); [exact O| |eexists; split; [exact E|]].
    { apply tri_decref with (R := parsers s ++ of_table (d_tab s) ++ of_table (e_tab s) ++
        remove1 p (app s)). intros n. pose proof (remove1_count n p _ La).
      unfold holders, parsers. nums n. }
    cbv beta in Q. split; [|exact P]. constructor; unf; auto.
    + eapply ok_ext; [|exact O']. unfold parsers in Q. eqs.
    + intros n Hn. destruct (X n Hn) as [X1 X2]. split; auto.
      pose proof (remove1_count n p _ La). clear Q. nums n.
    + intros K. apply remove1_in in K. auto.
Qed.

Lemma inv_init : inv init.
Proof.
  constructor.
  - intros n. destruct n; reflexivity.
  - intros n H. cbn in H. lia.
  - constructor.
  - constructor.
  - split; [|intros _]; split; reflexivity.
  - intros i r H. unfold ctx_of in H. destruct i; discriminate.
  - intros [].
  - discriminate.
  - discriminate.
Qed.
Lemma reach_inv s : reach s -> inv s.
Proof.
  induction 1; [apply inv_init|]. destruct (step_good s o IHreach H0) as (t & E & G & _).
  rewrite E in H1. injection H1 as <-. exact G.
Qed.
Lemma reach_step_ok s o : reach s -> lawful s o -> step s o <> None.
Proof. intros R La. destruct (step_good s o (reach_inv _ R) La) as (t & E & _). congruence. Qed.
Lemma reach_counts s n : reach s ->
  match nth_error (hp s) n with
  | Some (Some c) => ref c = count n (holders s) /\ 0 < count n (holders s)
  | _ => count n (holders s) = 0
  end.
Proof. intros R. apply (i_ok _ (reach_inv _ R)). Qed.
Lemma none_count n l : (forall i (r : rst), nth_error l i <> Some (Some r)) ->
  count n (flat_map of_context l) = 0.
Proof.
  induction l as [|x l IH]; intros H; [reflexivity|]. cbn [flat_map]. rewrite count_app, IH.
  - destruct x as [r|]; [|reflexivity]. exfalso. apply (H 0%nat r). reflexivity.
  - intros i r. apply (H (S i) r).
Qed.
Lemma gone_empty s n : reach s -> all_gone s -> content s n = None.
Proof.
  intros R (D & E & C & A). pose proof (reach_inv _ R) as I. pose proof (reach_counts s n R) as K.
  destruct (i_dead _ I D) as [D1 D2]. pose proof (i_edead _ I E) as E1.
  assert (Z : count n (holders s) = 0).
  { unfold holders. rewrite D1, D2, E1, A, !count_app, none_count; [reflexivity|].
    intros i r H. specialize (C i). unfold ctx_of in C. rewrite H in C. discriminate. }
  unfold content. destruct (nth_error (hp s) n) as [[c|]|]; auto. lia.
Qed.
Lemma app_alive s n : inv s -> In (Buf n) (app s) ->
  exists c, nth_error (hp s) n = Some (Some c) /\ count n (parsers s) = 0.
Proof.
  intros I H. apply in_count in H. pose proof (i_ok _ I n) as O. pose proof (i_excl _ I n) as X.
  unfold holders in O. fold (parsers s) in O. rewrite !count_app in *.
  assert (Q : 0 < count n (parsers s) + (count n (of_table (d_tab s)) + (count n (of_table (e_tab s)) +
    count n (app s)))) by (nn n; lia).
  destruct (nth_error (hp s) n) as [[c|]|]; try (exfalso; lia). exists c. split; auto.
  pose proof (count_nonneg n (parsers s)). destruct (Z.eq_dec (count n (parsers s)) 0); auto.
  exfalso. nn n. lia.
Qed.
Lemma kept s s' n : reach s -> keeping n s s' ->
  reach s' /\ In (Buf n) (app s') /\ content s n <> None /\ content s' n = content s n.
Proof.
  intros R K. induction K as [s H|s o s1 s2 K IH La E H].
  - split; [exact R|]. split; [exact H|]. split; [|reflexivity].
    destruct (app_alive s n (reach_inv _ R) H) as (c & Hc & _). unfold content. rewrite Hc. discriminate.
  - destruct (IH R) as (R1 & H1 & N & C). pose proof (reach_step _ _ _ R1 La E) as R2.
    split; [exact R2|]. split; [exact H|]. split; [exact N|]. rewrite <- C.
    destruct (step_good s1 o (reach_inv _ R1) La) as (t & Et & _ & P). rewrite E in Et.
    injection Et as <-.
    destruct (app_alive s1 n (reach_inv _ R1) H1) as (c1 & Hc1 & Z1).
    destruct (app_alive s2 n (reach_inv _ R2) H) as (c2 & Hc2 & _).
    destruct P as [_ P]. destruct (P n c2) as (x & Hx & Tx).
    + apply nth_error_Some. congruence.
    + unfold at_cell. rewrite Hc2. reflexivity.
    + apply at_nth in Hx. rewrite Hc1 in Hx. injection Hx as <-.
      unfold content. rewrite Hc1, Hc2, Tx; auto.
Qed.

(* runs, for the examples *)
Fixpoint run (s : st) (l : list op) : option st :=
  match l with [] => Some s | o :: r => match step s o with Some s' => run s' r | None => None end end.
Definition same_ptr (p q : ptr) : bool :=
  match p, q with
  | Null, Null | Static, Static => true
  | Buf n, Buf m => Nat.eqb n m
  | _, _ => false
  end.
Definition lawfulb (s : st) (o : op) : bool :=
  match o with
  | OIncref p | ODecref p => existsb (same_ptr p) (app s)
  | OContextReset i =>
      match ctx_of s i with
      | Some r => match r_at r with AtOp | AtPrefix => true | _ => false end
      | None => true
      end
  | _ => true
  end.
Lemma lawfulb_ok s o : lawfulb s o = true -> lawful s o.
Proof.
  destruct o; cbn; auto.
  - destruct (ctx_of s i); auto. destruct (r_at r); auto; discriminate.
  - intros H. apply existsb_exists in H. destruct H as (q & H & E).
    destruct p, q; try discriminate; auto. cbn in E. apply Nat.eqb_eq in E. subst. auto.
  - intros H. apply existsb_exists in H. destruct H as (q & H & E).
    destruct p, q; try discriminate; auto. cbn in E. apply Nat.eqb_eq in E. subst. auto.
Qed.
Fixpoint run_lawful (s : st) (l : list op) : option st :=
  match l with
  | [] => Some s
  | o :: r => if lawfulb s o then match step s o with Some s' => run_lawful s' r | None => None end
              else None
  end.
Lemma run_reach l : forall s s', reach s -> run_lawful s l = Some s' -> reach s'.
Proof.
  induction l as [|o l IH]; intros s s' R H; cbn [run_lawful] in H.
  - injection H as <-. exact R.
  - destruct (lawfulb s o) eqn:La; [|discriminate]. destruct (step s o) as [s1|] eqn:E; [|discriminate].
    apply (IH s1); auto. eapply reach_step; eauto. apply lawfulb_ok. exact La.
Qed.
