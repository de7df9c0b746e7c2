(* Proofs about the B+ tree: every operation does to the sequence of (key, data) pairs what it should
   do, keeps the order of the keys and the sizes of the blocks, and fails no assertion. *)
From Verif Require Import Base KslModel.
From Coq Require Import Lia Sorted Permutation.
Open Scope nat_scope.

Section P.
Variables (K D : Type) (lt : K -> K -> bool).
Hypothesis lt_irr : forall x, lt x x = false.
Hypothesis lt_trans : forall x y z, lt x y = true -> lt y z = true -> lt x z = true.
Hypothesis lt_neg : forall x y z, lt x z = true -> lt x y = true \/ lt y z = true.

Notation blk := (blk K D).
Notation leaves := (leaves K D).
Notation ch h := (child K D (S h)).
Notation len h c := (length (A := K * child K D h) c).
Notation lk h c := (lastk (A := child K D h) K c).
Notation ap h a b := (@app (K * child K D h) a b).
Definition le (x y : K) : Prop := lt y x = false.
Lemma le_refl : forall x, le x x. Proof. exact lt_irr. Qed.
Lemma lt_le : forall x y, lt x y = true -> le x y.
Proof. intros x y H. unfold le. destruct (lt y x) eqn:E; [|reflexivity]. rewrite <- (lt_irr x). symmetry. exact (lt_trans _ _ _ H E). Qed.
Lemma le_lt_trans : forall x y z, le x y -> lt y z = true -> lt x z = true.
Proof. unfold le. intros x y z A B. destruct (lt_neg y x z B) as [H|H]; congruence. Qed.
Lemma lt_le_trans : forall x y z, lt x y = true -> le y z -> lt x z = true.
Proof. unfold le. intros x y z A B. destruct (lt_neg x z y A) as [H|H]; congruence. Qed.
Lemma le_trans : forall x y z, le x y -> le y z -> le x z.
Proof. unfold le. intros x y z A B. destruct (lt z x) eqn:E; [|reflexivity]. destruct (lt_neg z y x E) as [H|H]; congruence. Qed.

(* ---- lists ---- *)
Lemma nth_mid : forall (A : Type) (a b : list A) x, nth_error (a ++ x :: b) (length a) = Some x.
Proof. intros. rewrite nth_error_app2 by lia. rewrite Nat.sub_diag. reflexivity. Qed.
Lemma nth_mid2 : forall (A : Type) (a b : list A) x y, nth_error (a ++ x :: y :: b) (S (length a)) = Some y.
Proof. intros. rewrite nth_error_app2 by lia. replace (S (length a) - length a) with 1 by lia. reflexivity. Qed.
Lemma firstn_mid : forall (A : Type) (a b : list A), firstn (length a) (a ++ b) = a.
Proof. intros. rewrite firstn_app, Nat.sub_diag, firstn_all. cbn [firstn]. apply app_nil_r. Qed.
Lemma put_mid : forall (A : Type) (a m b : list A) xs, put (a ++ m ++ b) (length a) (length m) xs = a ++ xs ++ b.
Proof.
  intros. unfold put. rewrite firstn_mid. f_equal. f_equal.
  rewrite app_assoc, <- app_length. rewrite skipn_app, Nat.sub_diag, skipn_all. reflexivity.
Qed.
Lemma put_1 : forall (A : Type) (a b : list A) x xs, put (a ++ x :: b) (length a) 1 xs = a ++ xs ++ b.
Proof. intros. apply (put_mid A a [x] b xs). Qed.
Lemma put_2 : forall (A : Type) (a b : list A) x y xs, put (a ++ x :: y :: b) (length a) 2 xs = a ++ xs ++ b.
Proof. intros. apply (put_mid A a [x; y] b xs). Qed.
Lemma put_0 : forall (A : Type) (a b : list A) xs, put (a ++ b) (length a) 0 xs = a ++ xs ++ b.
Proof. intros. apply (put_mid A a [] b xs). Qed.
Lemma nth_split' : forall (A : Type) (l : list A) i x, nth_error l i = Some x -> exists a b, l = a ++ x :: b /\ length a = i.
Proof. intros. destruct (nth_error_split l i H) as (a & b & -> & <-). eauto. Qed.

Lemma search_split : forall (A : Type) (p : K -> bool) (l : list (K * A)),
  (search K p l = length l /\ Forall (fun x => p (fst x) = true) l) \/
  exists a k c b, l = a ++ (k, c) :: b /\ search K p l = length a /\ Forall (fun x => p (fst x) = true) a /\ p k = false.
Proof.
  intros A p l. induction l as [|[k c] l IH]; [left; split; [reflexivity|constructor]|].
  cbn [search]. destruct (p k) eqn:E.
  - destruct IH as [(S0 & F)|(a & k' & c' & b & -> & S0 & F & N)].
    + left. rewrite S0. split; [reflexivity|]. constructor; assumption.
    + right. exists ((k, c) :: a), k', c', b. rewrite S0. split; [reflexivity|]. split; [reflexivity|]. split; [constructor; assumption|exact N].
  - right. exists [], k, c, l. auto.
Qed.
Lemma search_nth : forall (A : Type) (p : K -> bool) (l : list (K * A)), search K p l <> length l -> search K p l < length l.
Proof. intros A p l N. destruct (search_split A p l) as [(H & _)|(a & k & c & b & E & H & _)]; [contradiction|]. rewrite H, E, app_length. cbn [length]. lia. Qed.

Lemma lastk_snoc : forall (A : Type) (a : list (K * A)) x, lastk K (a ++ [x]) = Some (fst x).
Proof. induction a as [|y a IH]; intros [k c]; [reflexivity|]. cbn [app lastk]. destruct y. destruct (a ++ [(k, c)]) eqn:E; [destruct a; discriminate E|]. rewrite <- E, IH. reflexivity. Qed.
Lemma lastk_app : forall (A : Type) (a b : list (K * A)), b <> [] -> lastk K (a ++ b) = lastk K b.
Proof.
  intros A a b N. destruct (exists_last N) as (b' & x & ->). rewrite app_assoc, !lastk_snoc. reflexivity.
Qed.
Lemma lastk_some : forall (A : Type) (l : list (K * A)), l <> [] -> exists l' k c, l = l' ++ [(k, c)] /\ lastk K l = Some k.
Proof. intros A l N. destruct (exists_last N) as (l' & [k c] & ->). exists l', k, c. rewrite lastk_snoc. auto. Qed.

(* ---- contents and order ---- *)
Definition fl (h : nat) (t : blk h) : list (K * D) := concat (leaves h t).
Definition flat (h : nat) (t : blk (S h)) : list (K * D) := concat (map (fun n => fl h (snd n)) t).
Lemma fl_S : forall h (t : blk (S h)), fl (S h) t = flat h t.
Proof.
  intros h t. unfold fl, flat. cbn [KslModel.leaves]. induction t as [|n t IH]; [reflexivity|].
  cbn [map concat]. rewrite concat_app. rewrite IH. reflexivity.
Qed.
Lemma fl_0 : forall t : blk 0, fl 0 t = t.
Proof. intros. unfold fl. cbn [KslModel.leaves concat]. apply app_nil_r. Qed.
Lemma flat_app : forall h a b, flat h (a ++ b) = flat h a ++ flat h b.
Proof. intros. unfold flat. rewrite map_app, concat_app. reflexivity. Qed.
Lemma flat_cons : forall h k (c : ch h) (b : blk (S h)), flat h ((k, c) :: b) = fl h c ++ flat h b.
Proof. reflexivity. Qed.
Lemma leaves_app : forall h (a b : blk (S h)), leaves (S h) (a ++ b) = leaves (S h) a ++ leaves (S h) b.
Proof. intros. cbn [KslModel.leaves]. rewrite map_app, concat_app. reflexivity. Qed.
Lemma leaves_cons : forall h k (c : ch h) (b : blk (S h)), leaves (S h) ((k, c) :: b) = leaves h c ++ leaves (S h) b.
Proof. reflexivity. Qed.

Definition bounded {A : Type} (B : K) (c : list (K * A)) : Prop := forall k, lastk K c = Some k -> le k B.
Fixpoint ord (h : nat) (t : blk (S h)) : Prop :=
  match t with
  | [] => True
  | (k, c) :: r => bounded (A := child K D h) k c /\ (forall x, In x (flat h r) -> lt k (fst x) = true) /\ ord h r
  end.
Fixpoint ok (h : nat) : blk h -> Prop :=
  match h return blk h -> Prop with
  | O => fun t => StronglySorted (fun x y => lt (fst x) (fst y) = true) t
  | S h' => fun t => Forall (fun n : K * child K D (S h') => MIN_NBLK <= length (A := K * child K D h') (snd n) <= MAX_NBLK /\ ok h' (snd n)) t /\ ord h' t
  end.
Definition good (h : nat) (n : K * child K D (S h)) : Prop := MIN_NBLK <= len h (snd n) <= MAX_NBLK /\ ok h (snd n).

Lemma ord_app : forall h a b, ord h (a ++ b) <-> ord h a /\ ord h b /\ (forall n x, In n a -> In x (flat h b) -> lt (fst n) (fst x) = true).
Proof.
  intros h a b. induction a as [|[k c] a IH]; cbn [app ord].
  - split; [intros H; split; [exact I|]; split; [exact H|]; intros n x []|tauto].
  - rewrite IH. clear IH. split.
    + intros (B & L & Oa & Ob & X). rewrite flat_app in L. split; [split; [exact B|]; split; [|exact Oa]|].
      * intros x J. apply L. apply in_or_app. left. exact J.
      * split; [exact Ob|]. intros n x [<-|J] Y; [cbn [fst]; apply L; apply in_or_app; right; exact Y|exact (X n x J Y)].
    + intros ((B & L & Oa) & Ob & X). split; [exact B|]. split.
      * intros x J. rewrite flat_app in J. apply in_app_or in J. destruct J as [J|J]; [exact (L x J)|].
        apply (X (k, c) x); [left; reflexivity|exact J].
      * split; [exact Oa|]. split; [exact Ob|]. intros n x J Y. apply (X n x); [right; exact J|exact Y].
Qed.

Lemma good_ne : forall h n, good h n -> snd n <> [].
Proof. intros h n ((A & _) & _) E. rewrite E in A. cbn in A. unfold MIN_NBLK in A. lia. Qed.
(* a block that is not empty has content *)
Lemma fl_ne : forall h (t : blk h), ok h t -> t <> [] -> fl h t <> [].
Proof.
  induction h as [|h IH]; intros t O N.
  - rewrite fl_0. exact N.
  - rewrite fl_S. destruct t as [|[k c] r]; [contradiction|]. cbn [ok] in O. destruct O as (F & _).
    inversion F as [|x y G _]; subst. rewrite flat_cons. intros E. apply app_eq_nil in E. destruct E as (E & _).
    revert E. apply (IH c); [apply G|apply (good_ne h (k, c) G)].
Qed.
(* the last key of a block bounds its content *)
Lemma last_bounds : forall h (t : blk h) B, ok h t -> bounded B t -> forall x, In x (fl h t) -> le (fst x) B.
Proof.
  induction h as [|h IH]; intros t B O Bd x I.
  - rewrite fl_0 in I. cbn [ok] in O. destruct t as [|y t']; [destruct I|].
    assert (N : y :: t' <> []) by discriminate. destruct (exists_last N) as (l' & z & E). rewrite E in *.
    assert (Z : le (fst z) B) by (apply Bd; apply lastk_snoc).
    apply in_app_or in I. destruct I as [I|[<-|[]]]; [|exact Z].
    apply (le_trans _ (fst z)); [|exact Z]. apply lt_le.
    clear -O I. induction l' as [|w l' IHl]; [destruct I|]. cbn [app] in O. inversion O as [|u v O1 O2]; subst.
    destruct I as [->|I]; [|exact (IHl O1 I)]. rewrite Forall_forall in O2. apply O2. apply in_or_app. right. left. reflexivity.
  - rewrite fl_S in I. cbn [ok] in O. destruct O as (F & Or).
    destruct t as [|n t0]; [destruct I|]. assert (N : n :: t0 <> []) by discriminate.
    destruct (exists_last N) as (t' & [k c] & E). rewrite E in *. clear E n t0 N.
    assert (Z : le k B) by (apply Bd; rewrite lastk_snoc; reflexivity).
    rewrite flat_app in I. apply Forall_app in F. destruct F as (F1 & F2). inversion F2 as [|u v G _]; subst.
    apply ord_app in Or. destruct Or as (O1 & O2 & O3). cbn [ord] in O2. destruct O2 as (Bc & _ & _).
    apply in_app_or in I. destruct I as [I|I].
    + assert (Ne : fl h c <> []) by (apply fl_ne; [apply G|apply (good_ne h (k, c) G)]).
      destruct (fl h c) as [|y ys] eqn:Ey; [contradiction|].
      assert (Y : In y (fl h c)) by (rewrite Ey; left; reflexivity).
      apply (le_trans _ (fst y)).
      * unfold flat in I. apply in_concat in I. destruct I as (l & L1 & L2). apply in_map_iff in L1. destruct L1 as (n & <- & Jn).
        rewrite Forall_forall in F1. specialize (F1 n Jn).
        assert (Bn : bounded (fst n) (snd n)).
        { clear -O1 Jn. induction t' as [|[k' c'] t' IHt]; [destruct Jn|]. cbn [ord] in O1. destruct O1 as (A & _ & C).
          destruct Jn as [<-|Jn]; [exact A|exact (IHt C Jn)]. }
        apply (le_trans _ (fst n)); [apply (IH (snd n) (fst n)); [apply F1|exact Bn|exact L2]|].
        apply lt_le. apply O3; [exact Jn|]. rewrite flat_cons. apply in_or_app. left. exact Y.
      * apply (le_trans _ k); [|exact Z]. apply (IH c k); [apply G|exact Bc|exact Y].
    + rewrite flat_cons in I. change (flat h []) with (@nil (K * D)) in I. rewrite app_nil_r in I.
      apply (le_trans _ k); [|exact Z]. apply (IH c k); [apply G|exact Bc|exact I].
Qed.
Lemma node_bounds : forall h t n x, Forall (good h) t -> ord h t -> In n t -> In x (fl h (snd n)) -> le (fst x) (fst n).
Proof.
  intros h t n x F O I X. rewrite Forall_forall in F. apply (last_bounds h (snd n)); [apply F; exact I| |exact X].
  clear -O I. induction t as [|[k c] t IH]; [destruct I|]. cbn [ord] in O. destruct O as (A & _ & C).
  destruct I as [<-|I]; [exact A|exact (IH C I)].
Qed.
Lemma node_bounded : forall h t n, ord h t -> In n t -> bounded (A := child K D h) (fst n) (snd n).
Proof.
  intros h t n O I. induction t as [|[k c] t IH]; [destruct I|]. cbn [ord] in O. destruct O as (A & _ & C).
  destruct I as [<-|I]; [exact A|exact (IH C I)].
Qed.
Lemma flat_in : forall h t x, In x (flat h t) -> exists n, In n t /\ In x (fl h (snd n)).
Proof. intros h t x I. unfold flat in I. apply in_concat in I. destruct I as (l & L1 & L2). apply in_map_iff in L1. destruct L1 as (n & <- & J). eauto. Qed.
Lemma in_flat : forall h t n x, In n t -> In x (fl h (snd n)) -> In x (flat h t).
Proof. intros h t n x I J. unfold flat. apply in_concat. exists (fl h (snd n)). split; [|exact J]. apply in_map_iff. eauto. Qed.

(* the content is sorted *)
Definition srt (l : list (K * D)) : Prop := StronglySorted (fun x y => lt (fst x) (fst y) = true) l.
Lemma srt_app : forall a b, srt (a ++ b) <-> srt a /\ srt b /\ forall x y, In x a -> In y b -> lt (fst x) (fst y) = true.
Proof.
  unfold srt. induction a as [|z a IH]; intros b; cbn [app].
  - split; [intros H; split; [constructor|]; split; [exact H|]; intros x y []|tauto].
  - split.
    + intros H. inversion H as [|u v H1 H2]; subst. apply IH in H1. destruct H1 as (A & B & C). apply Forall_app in H2. destruct H2 as (H2 & H3).
      split; [constructor; assumption|]. split; [exact B|]. intros x y [<-|I] J; [rewrite Forall_forall in H3; apply H3; exact J|exact (C x y I J)].
    + intros (A & B & C). inversion A as [|u v A1 A2]; subst. constructor.
      * apply IH. split; [exact A1|]. split; [exact B|]. intros x y I J. apply C; [right; exact I|exact J].
      * apply Forall_app. split; [exact A2|]. apply Forall_forall. intros y J. apply C; [left; reflexivity|exact J].
Qed.
Lemma ok_srt : forall h (t : blk h), ok h t -> srt (fl h t).
Proof.
  induction h as [|h IH]; intros t O.
  - rewrite fl_0. exact O.
  - rewrite fl_S. cbn [ok] in O. destruct O as (F & Or). induction t as [|[k c] t IHt]; [constructor|].
    rewrite flat_cons. pose proof (Forall_inv F) as G. pose proof Or as Or'. cbn [ord] in Or. destruct Or as (A & B & C).
    apply srt_app. split; [apply IH; apply G|]. split; [apply IHt; [exact (Forall_inv_tail F)|exact C]|].
    intros x y X Y. apply (le_lt_trans _ k); [|apply B; exact Y].
    apply (node_bounds h ((k, c) :: t) (k, c) x F Or'); [left; reflexivity|exact X].
Qed.

(* nodes in the middle of a block are replaced *)
Lemma replace_ok : forall h a xs b ys, ok (S h) (a ++ xs ++ b) -> Forall (good h) ys -> ord h ys ->
  (forall n x, In n a -> In x (flat h ys) -> lt (fst n) (fst x) = true) ->
  (forall n x, In n ys -> In x (flat h b) -> lt (fst n) (fst x) = true) ->
  ok (S h) (a ++ ys ++ b).
Proof.
  intros h a xs b ys O G Or Ha Hb. cbn [ok] in *. destruct O as (F & Or0).
  apply Forall_app in F. destruct F as (F1 & F). apply Forall_app in F. destruct F as (_ & F3).
  apply ord_app in Or0. destruct Or0 as (O1 & O2 & O3). apply ord_app in O2. destruct O2 as (_ & O4 & _).
  split.
  - apply Forall_app. split; [exact F1|]. apply Forall_app. split; assumption.
  - apply ord_app. split; [exact O1|]. split; [apply ord_app; auto|].
    intros n x I J. rewrite flat_app in J. apply in_app_or in J. destruct J as [J|J]; [exact (Ha n x I J)|].
    apply O3; [exact I|]. rewrite flat_app. apply in_or_app. right. exact J.
Qed.
Lemma parts : forall h a xs b, ok (S h) (a ++ xs ++ b) ->
  Forall (good h) xs /\ ord h xs /\ (forall n x, In n a -> In x (flat h xs) -> lt (fst n) (fst x) = true) /\
  (forall n x, In n xs -> In x (flat h b) -> lt (fst n) (fst x) = true) /\
  (forall n x, In n a -> In x (fl h (snd n)) -> le (fst x) (fst n)) /\ (forall n x, In n a -> In x (flat h b) -> lt (fst n) (fst x) = true).
Proof.
  intros h a xs b O. cbn [ok] in O. destruct O as (F & Or). apply Forall_app in F. destruct F as (F1 & F).
  apply Forall_app in F. destruct F as (F2 & F3). apply ord_app in Or. destruct Or as (O1 & O2 & O3).
  apply ord_app in O2. destruct O2 as (O4 & O5 & O6). split; [exact F2|]. split; [exact O4|]. split; [|split; [exact O6|split]].
  - intros n x I J. apply O3; [exact I|]. rewrite flat_app. apply in_or_app. left. exact J.
  - intros n x I J. apply (node_bounds h a n x F1 O1 I J).
  - intros n x I J. apply O3; [exact I|]. rewrite flat_app. apply in_or_app. right. exact J.
Qed.

(* ---- cutting a block in two, and joining two ---- *)
Lemma ok_app : forall h (a b : blk h), ok h (a ++ b) -> ok h a /\ ok h b.
Proof.
  intros [|h] a b O; cbn [ok] in *.
  - apply srt_app in O. tauto.
  - destruct O as (F & Or). apply Forall_app in F. apply ord_app in Or. tauto.
Qed.
Lemma fl_app : forall h (a b : blk h), fl h (a ++ b) = fl h a ++ fl h b.
Proof. intros [|h] a b; [rewrite !fl_0; reflexivity|rewrite !fl_S; apply flat_app]. Qed.
(* the last key of the left part is smaller than all of the right part *)
Lemma cut_lt : forall h (a b : blk h) k, ok h (a ++ b) -> lastk K a = Some k -> forall x, In x (fl h b) -> lt k (fst x) = true.
Proof.
  intros h a b k O L x I.
  assert (N : a <> []) by (intros ->; discriminate L).
  destruct (exists_last N) as (a' & n & E). rewrite E, lastk_snoc in L. injection L as <-.
  destruct h as [|h]; cbn [ok] in O.
  - rewrite fl_0 in I. apply srt_app in O. destruct O as (_ & _ & C). apply C; [|exact I]. rewrite E. apply in_or_app. right. left. reflexivity.
  - rewrite fl_S in I. destruct O as (_ & Or). apply ord_app in Or. destruct Or as (_ & _ & C). apply C; [|exact I].
    rewrite E. apply in_or_app. right. left. reflexivity.
Qed.
Lemma join_ok : forall h (a b : blk h) ka, ok h a -> ok h b -> bounded ka a ->
  (forall x, In x (fl h b) -> lt ka (fst x) = true) -> ok h (a ++ b).
Proof.
  intros h a b ka Oa Ob Ba H. destruct h as [|h]; cbn [ok] in *.
  - apply srt_app. split; [exact Oa|]. split; [exact Ob|]. intros x y I J. apply (le_lt_trans _ ka).
    + apply (last_bounds 0 a ka Oa Ba). rewrite fl_0. exact I.
    + apply H. rewrite fl_0. exact J.
  - destruct Oa as (Fa & Ra). destruct Ob as (Fb & Rb). split; [apply Forall_app; auto|]. apply ord_app. split; [exact Ra|]. split; [exact Rb|].
    intros n x I J. apply (le_lt_trans _ ka); [|apply H; rewrite fl_S; exact J].
    assert (N : a <> []) by (intros ->; destruct I). destruct (exists_last N) as (a' & m & E).
    assert (M : le (fst m) ka) by (apply Ba; rewrite E; apply lastk_snoc).
    rewrite E in I, Ra, Fa. apply in_app_or in I. destruct I as [I|[<-|[]]]; [|exact M].
    apply (le_trans _ (fst m)); [|exact M]. apply ord_app in Ra. destruct Ra as (_ & Rm & C).
    apply Forall_app in Fa. destruct Fa as (_ & Fm). pose proof (Forall_inv Fm) as Gm.
    assert (Ne : fl h (snd m) <> []) by (apply fl_ne; [apply Gm|apply (good_ne h m Gm)]).
    destruct (fl h (snd m)) as [|y ys] eqn:Ey; [contradiction|].
    assert (Y : In y (fl h (snd m))) by (rewrite Ey; left; reflexivity).
    apply lt_le. apply (lt_le_trans _ (fst y)).
    + apply C; [exact I|]. apply (in_flat h [m] m); [left; reflexivity|exact Y].
    + apply (node_bounds h [m] m y Fm Rm); [left; reflexivity|exact Y].
Qed.
Lemma bounded_of : forall (A : Type) (c : list (K * A)) k, lastk K c = Some k -> bounded k c.
Proof. intros A c k L k' L'. rewrite L in L'. injection L' as <-. apply le_refl. Qed.
Lemma lastk_ne : forall (A : Type) (c : list (K * A)) k, lastk K c = Some k -> c <> [].
Proof. intros A c k L ->. discriminate L. Qed.

(* ---- splitting ---- *)
Lemma split_blk_ok : forall (A : Type) (c : list (K * A)), length c = MAX_NBLK ->
  exists l r kl kr, split_blk c = Ok (l, r) /\ c = l ++ r /\ length l = 16 /\ length r = 15 /\ lastk K l = Some kl /\ lastk K r = Some kr.
Proof.
  intros A c L. unfold split_blk. rewrite L. change (MAX_NBLK / 2) with 15. change (MAX_NBLK - 15) with 16.
  set (l := firstn 16 c). set (r := skipn 16 c).
  assert (Ll : length l = 16) by (unfold l; rewrite firstn_length, L; reflexivity).
  assert (Lr : length r = 15) by (unfold r; rewrite skipn_length, L; reflexivity).
  rewrite Ll, Lr. change ((16 <? MIN_NBLK) || (15 <? MIN_NBLK)) with false. cbn iota.
  destruct (lastk_some A l) as (l' & kl & cl & _ & El); [intros E; rewrite E in Ll; discriminate Ll|].
  destruct (lastk_some A r) as (r' & kr & cr & _ & Er); [intros E; rewrite E in Lr; discriminate Lr|].
  exists l, r, kl, kr. split; [reflexivity|]. split; [symmetry; apply firstn_skipn|]. auto.
Qed.
Lemma split_node_ok : forall h (a b : blk (S h)) k (c : ch h), ok (S h) (a ++ (k, c) :: b) -> len h c = MAX_NBLK ->
  exists (l r : ch h) kl kr, split_node K D (a ++ (k, c) :: b) (length a) = Ok (a ++ (kl, l) :: (kr, r) :: b) /\
    c = @app (K * child K D h) l r /\ len h l = 16 /\ len h r = 15 /\ lk h l = Some kl /\ lk h r = Some kr /\ le kr k /\
    ok (S h) (a ++ (kl, l) :: (kr, r) :: b).
Proof.
  intros h a b k c O L. destruct (split_blk_ok (child K D h) c L) as (l & r & kl & kr & S0 & E & Ll & Lr & Kl & Kr).
  assert (Sp : split_node K D (a ++ (k, c) :: b) (length a) = Ok (a ++ (kl, l) :: (kr, r) :: b)).
  { unfold split_node. rewrite nth_mid, S0, Kl, Kr, put_1. reflexivity. }
  exists l, r, kl, kr. split; [exact Sp|]. split; [exact E|]. split; [exact Ll|]. split; [exact Lr|]. split; [exact Kl|]. split; [exact Kr|].
  destruct (parts h a [(k, c)] b O) as (G & Or & Ha & Hb & _). pose proof (Forall_inv G) as G1. destruct G1 as (_ & Oc). cbn [snd] in Oc.
  cbn [ord] in Or. destruct Or as (Bd & _). assert (KK : le kr k).
  { apply Bd. rewrite E, lastk_app; [exact Kr|apply (lastk_ne _ _ _ Kr)]. }
  split; [exact KK|]. rewrite E in Oc. pose proof (cut_lt h l r kl Oc Kl) as Cl. pose proof Oc as Oc'. apply ok_app in Oc'. destruct Oc' as (Ol & Or').
  apply (replace_ok h a [(k, c)] b [(kl, l); (kr, r)] O).
  - constructor; [split; [cbn [snd]; unfold MIN_NBLK, MAX_NBLK; lia|exact Ol]|].
    constructor; [split; [cbn [snd]; unfold MIN_NBLK, MAX_NBLK; lia|exact Or']|constructor].
  - cbn [ord]. split; [apply bounded_of; exact Kl|]. split; [|split; [apply bounded_of; exact Kr|split; [intros x []|exact Logic.I]]].
    intros x I. apply Cl. change (flat h [(kr, r)]) with (fl h r ++ []) in I. rewrite app_nil_r in I. exact I.
  - intros n x In1 Ix. apply (Ha n x In1). change (flat h [(k, c)]) with (fl h c ++ []). rewrite app_nil_r, E, fl_app.
    change (flat h [(kl, l); (kr, r)]) with (fl h l ++ fl h r ++ []) in Ix. rewrite app_nil_r in Ix. exact Ix.
  - intros n x In1 Ix. assert (Q : lt k (fst x) = true) by (apply (Hb (k, c) x); [left; reflexivity|exact Ix]).
    assert (R : lt kr (fst x) = true) by (apply (le_lt_trans _ k); assumption).
    destruct In1 as [<-|[<-|[]]]; cbn [fst]; [|exact R].
    assert (Ne : fl h r <> []) by (apply fl_ne; [exact Or'|apply (lastk_ne _ _ _ Kr)]).
    destruct (fl h r) as [|y ys] eqn:Ey; [contradiction|]. assert (Y : In y (fl h r)) by (rewrite Ey; left; reflexivity).
    rewrite <- Ey in Cl. apply (lt_trans _ (fst y)); [apply Cl; exact Y|]. apply (le_lt_trans _ kr); [|exact R].
    apply (last_bounds h r kr Or' (bounded_of _ _ _ Kr) y Y).
Qed.

(* ---- positions ---- *)
(* the iterator points into the leaf, with [n] elements before it *)
Definition at_off (ls : list (list (K * D))) (it : iter) (n : nat) : Prop :=
  exists pre l post, ls = pre ++ l :: post /\ fst it = length pre /\ snd it <= length l /\ n = length (concat pre) + snd it.
Lemma at_shift : forall a b ls it n lf i, at_off ls it n -> it = (lf, i) ->
  at_off (a ++ ls ++ b) (length a + lf, i) (length (concat a) + n).
Proof.
  intros a b ls it n lf i (pre & l & post & E & A & B & C) ->. cbn [fst snd] in *. exists (a ++ pre), l, (post ++ b).
  cbn [fst snd]. split; [rewrite E, <- !app_assoc; reflexivity|]. rewrite app_length, concat_app, app_length. split; [lia|]. split; [exact B|lia].
Qed.
(* the iterator points at an element of the leaf *)
Definition at_in (ls : list (list (K * D))) (it : iter) (n : nat) : Prop :=
  exists pre l post, ls = pre ++ l :: post /\ fst it = length pre /\ snd it < length l /\ n = length (concat pre) + snd it.
Lemma at_in_shift : forall a b ls it n lf i, at_in ls it n -> it = (lf, i) ->
  at_in (a ++ ls ++ b) (length a + lf, i) (length (concat a) + n).
Proof.
  intros a b ls it n lf i (pre & l & post & E & A & B & C) ->. cbn [fst snd] in *. exists (a ++ pre), l, (post ++ b).
  cbn [fst snd]. split; [rewrite E, <- !app_assoc; reflexivity|]. rewrite app_length, concat_app, app_length. split; [lia|]. split; [exact B|lia].
Qed.
Lemma leaves_mid : forall h (a : blk (S h)) k (c : ch h) b, leaves (S h) (a ++ (k, c) :: b) = leaves (S h) a ++ leaves h c ++ leaves (S h) b.
Proof. intros. rewrite leaves_app, leaves_cons. reflexivity. Qed.
Lemma before_mid : forall h (a b : blk (S h)), before K D h (a ++ b) (length a) = length (leaves (S h) a).
Proof. intros. unfold before, nleaves. rewrite firstn_mid. reflexivity. Qed.
Lemma flat_leaves : forall h (a : blk (S h)), concat (leaves (S h) a) = flat h a.
Proof. intros. apply fl_S. Qed.

(* ---- insertion ---- *)
(* [t'] is [t] with (q, d) put between the smaller and the greater keys; [it] points at it *)
Definition inserted (q : K) (d : D) (h : nat) (t t' : blk h) (it : iter) : Prop :=
  exists s1 s2, fl h t = s1 ++ s2 /\ fl h t' = s1 ++ (q, d) :: s2 /\
    (forall x, In x s1 -> lt (fst x) q = true) /\ (forall x, In x s2 -> lt q (fst x) = true) /\
    at_in (leaves h t') it (length s1).
Definition keeps_bound (q : K) {A : Type} (t t' : list (K * A)) : Prop := forall B, bounded B t -> le q B -> bounded B t'.

Lemma insert_last_ok : forall h q d (t : blk h), ok h t -> t <> [] -> length t < MAX_NBLK ->
  (forall k, lastk K t = Some k -> lt k q = true) ->
  exists t' it, insert_last K D h q d t = Ok (t', it) /\ ok h t' /\ length t <= length t' <= S (length t) /\
    inserted q d h t t' it /\ lastk K t' = Some q.
Proof.
  induction h as [|h IH]; intros q d t O N L Hq.
  - cbn [insert_last]. unfold insert_node. destruct (Nat.ltb_spec (length t) MAX_NBLK); [|lia].
    assert (Ep : put t (length t) 0 [(q, d)] = t ++ [(q, d)]).
    { rewrite <- (app_nil_r t) at 1. rewrite put_0. reflexivity. }
    rewrite Ep. exists (t ++ [(q, d)]), (0, length t). split; [reflexivity|].
    assert (All : forall x, In x t -> lt (fst x) q = true).
    { intros x I. destruct (lastk_some _ t N) as (l' & k & c & E & Lk). apply (le_lt_trans _ k); [|apply Hq; exact Lk].
      apply (last_bounds 0 t k O (bounded_of _ _ _ Lk)). rewrite fl_0. exact I. }
    split; [|split; [rewrite app_length; cbn [length]; lia|split; [|apply lastk_snoc]]].
    + cbn [ok]. apply srt_app. split; [exact O|]. split; [repeat constructor|]. intros x y I [<-|[]]. apply All. exact I.
    + exists t, []. rewrite !fl_0. split; [symmetry; apply app_nil_r|]. split; [reflexivity|]. split; [exact All|]. split; [intros x []|].
      exists [], (t ++ [(q, d)]), []. cbn [fst snd]. split; [reflexivity|]. split; [reflexivity|]. rewrite app_length. cbn [length]. split; [lia|reflexivity].
  - cbn [insert_last]. destruct (exists_last N) as (a & [k c] & E). subst t.
    assert (Li : length (a ++ [(k, c)]) - 1 = length a) by (rewrite app_length; cbn [length]; lia).
    rewrite Li, nth_mid. assert (Kq : lt k q = true) by (apply Hq; apply lastk_snoc).
    (* after a split the last node is still below q, and not full *)
    assert (St : exists (a1 : blk (S h)) k1 (c1 : ch h), (if len h c =? MAX_NBLK then split_node K D (a ++ [(k, c)]) (length a) else Ok (a ++ [(k, c)])) = Ok (a1 ++ [(k1, c1)]) /\
              ok (S h) (a1 ++ [(k1, c1)]) /\ le k1 k /\ len h c1 < MAX_NBLK /\ fl (S h) (a1 ++ [(k1, c1)]) = fl (S h) (a ++ [(k, c)]) /\
              length a <= length a1 <= S (length a)).
    { destruct (Nat.eqb_spec (len h c) MAX_NBLK) as [Mx|Mx].
      - destruct (split_node_ok h a [] k c O Mx) as (l & r & kl & kr & S0 & Ec & Ll & Lr & Kl & Kr & KK & O').
        exists (a ++ [(kl, l)]), kr, r. rewrite S0. rewrite <- app_assoc. cbn [app].
        split; [reflexivity|]. split; [exact O'|]. split; [exact KK|]. split; [rewrite Lr; unfold MAX_NBLK; lia|].
        split; [|rewrite app_length; cbn [length]; lia].
        rewrite !fl_S, !flat_app. f_equal. rewrite !flat_cons. change (flat h []) with (@nil (K * D)). rewrite !app_nil_r, Ec, fl_app. reflexivity.
      - exists a, k, c. split; [reflexivity|]. split; [exact O|]. split; [apply le_refl|]. split; [|split; [reflexivity|lia]].
        cbn [ok] in O. destruct O as (F & _). apply Forall_app in F. destruct F as (_ & F). pose proof (Forall_inv F) as ((_ & G) & _). cbn [snd] in G. lia. }
    destruct St as (a1 & k1 & c1 & St & O1 & K1 & L1 & F1 & La). unfold KslModel.blk in St |- *. rewrite St. clear St.
    assert (Li1 : length (a1 ++ [(k1, c1)]) - 1 = length a1) by (rewrite app_length; cbn [length]; lia).
    rewrite Li1, nth_mid. destruct (parts h a1 [(k1, c1)] [] O1) as (G & Or & Ha & _ & HaB & _).
    pose proof (Forall_inv G) as G1. cbn [ord] in Or. destruct Or as (Bd & _).
    destruct (IH q d c1) as (c2 & [lf i] & -> & O2 & L2 & (s1 & s2 & E1 & E2 & Q1 & Q2 & At) & Lk).
    + apply G1.
    + apply (good_ne h (k1, c1) G1).
    + exact L1.
    + intros k' Lk'. apply (le_lt_trans _ k1); [apply Bd; exact Lk'|]. apply (le_lt_trans _ k); assumption.
    + rewrite before_mid, put_1. cbn [app]. eexists _, _. split; [reflexivity|].
      assert (S2 : s2 = []).
      { destruct s2 as [|y s2]; [reflexivity|exfalso]. assert (Y : In y (fl h c1)) by (rewrite E1; apply in_or_app; right; left; reflexivity).
        assert (A1 : le (fst y) k1) by (apply (last_bounds h c1 k1); [apply G1|exact Bd|exact Y]).
        assert (A2 : lt q (fst y) = true) by (apply Q2; left; reflexivity).
        assert (A3 : lt k1 q = true) by (apply (le_lt_trans _ k); assumption).
        unfold le in A1. rewrite (lt_trans _ _ _ A3 A2) in A1. discriminate A1. }
      subst s2. rewrite app_nil_r in E1. split; [|split; [rewrite !app_length; cbn [length]; lia|split; [|apply lastk_snoc]]].
      * apply (replace_ok h a1 [(k1, c1)] [] [(q, c2)] O1).
        -- constructor; [|constructor]. split; [cbn [snd]; destruct G1 as ((X & _) & _); cbn [snd] in X; lia|exact O2].
        -- cbn [ord]. split; [apply bounded_of; exact Lk|]. split; [intros x []|exact Logic.I].
        -- intros n x I J. change (flat h [(q, c2)]) with (fl h c2 ++ []) in J. rewrite app_nil_r, E2 in J. apply in_app_or in J.
           destruct J as [J|[<-|[]]].
           ++ apply (Ha n x I). change (flat h [(k1, c1)]) with (fl h c1 ++ []). rewrite app_nil_r, E1. exact J.
           ++ cbn [fst]. (* keys before are below q *)
              assert (Ne : fl h c1 <> []) by (apply fl_ne; [apply G1|apply (good_ne h (k1, c1) G1)]).
              destruct (fl h c1) as [|y ys] eqn:Ey; [contradiction|]. apply (lt_trans _ (fst y)).
              ** apply (Ha n y I). change (flat h [(k1, c1)]) with (fl h c1 ++ []). rewrite app_nil_r, Ey. left. reflexivity.
              ** apply Q1. rewrite <- E1. left. reflexivity.
        -- intros n x _ [].
      * exists (flat h a1 ++ s1), []. rewrite <- F1. rewrite !fl_S, !flat_app, !flat_cons. change (flat h []) with (@nil (K * D)).
        rewrite !app_nil_r, E1, E2. rewrite <- app_assoc. split; [reflexivity|]. split; [reflexivity|]. split; [|split; [intros x []|]].
        -- intros x I. apply in_app_or in I. destruct I as [I|I]; [|apply Q1; exact I].
           apply flat_in in I. destruct I as (n & In1 & Ix). apply (le_lt_trans _ (fst n)); [apply (HaB n x In1 Ix)|].
           assert (Ne : fl h c1 <> []) by (apply fl_ne; [apply G1|apply (good_ne h (k1, c1) G1)]).
           destruct (fl h c1) as [|y ys] eqn:Ey; [contradiction|]. apply (lt_trans _ (fst y)).
           ++ apply (Ha n y In1). change (flat h [(k1, c1)]) with (fl h c1 ++ []). rewrite app_nil_r, Ey. left. reflexivity.
           ++ apply Q1. rewrite <- E1. left. reflexivity.
        -- rewrite leaves_mid, app_length. rewrite <- (flat_leaves h a1). eapply at_in_shift; [exact At|reflexivity].
Qed.

Lemma lastk_replace : forall (A : Type) (a b : list (K * A)) k c c', lastk K (a ++ (k, c') :: b) = lastk K (a ++ (k, c) :: b).
Proof.
  intros A a b k c c'. rewrite !lastk_app by discriminate.
  destruct b as [|x b]; [reflexivity|]. change ((k, c') :: x :: b) with ([(k, c')] ++ x :: b). change ((k, c) :: x :: b) with ([(k, c)] ++ x :: b).
  rewrite !lastk_app by discriminate. reflexivity.
Qed.
Lemma flat_1 : forall h k (c : ch h), flat h [(k, c)] = fl h c.
Proof. intros. unfold flat. cbn [map concat]. apply app_nil_r. Qed.
Lemma fl_mid : forall h (a b : blk (S h)) k (c : ch h), fl (S h) (a ++ (k, c) :: b) = flat h a ++ fl h c ++ flat h b.
Proof. intros. rewrite fl_S, flat_app, flat_cons. reflexivity. Qed.

(* the outcome of an insertion into a block *)
Definition ins_ok (q : K) (d : D) (h : nat) (t t' : blk h) (f : bool) (it : iter) : Prop :=
  if f then inserted q d h t t' it
  else fl h t' = fl h t /\ exists x, In x (fl h t) /\ lt (fst x) q = false /\ lt q (fst x) = false.
Lemma into_ok : forall h q d (a b : blk (S h)) k (c c' : ch h) f lf i,
  ok (S h) (a ++ (k, c) :: b) -> le q k -> (forall n, In n a -> lt (fst n) q = true) ->
  ok h c' -> MIN_NBLK <= len h c' <= MAX_NBLK -> keeps_bound q (A := child K D h) c c' ->
  ins_ok q d h c c' f (lf, i) ->
  ok (S h) (a ++ (k, c') :: b) /\
  ins_ok q d (S h) (a ++ (k, c) :: b) (a ++ (k, c') :: b) f (length (leaves (S h) a) + lf, i).
Proof.
  intros h q d a b k c c' f lf i O Q Ka Oc Sz Kb R.
  destruct (parts h a [(k, c)] b O) as (G & Or & Ha & Hb & HaB & Hab). pose proof (Forall_inv G) as G1.
  cbn [ord] in Or. destruct Or as (Bd & _).
  assert (Qb : forall x, In x (flat h b) -> lt q (fst x) = true).
  { intros x I. apply (le_lt_trans _ k); [exact Q|]. apply (Hb (k, c) x); [left; reflexivity|exact I]. }
  assert (Qa : forall x, In x (flat h a) -> lt (fst x) q = true).
  { intros x I. apply flat_in in I. destruct I as (n & I1 & I2). apply (le_lt_trans _ (fst n)); [apply (HaB n x I1 I2)|apply Ka; exact I1]. }
  assert (Cc : forall x, In x (fl h c') -> In x (fl h c) \/ x = (q, d)).
  { intros x I. unfold ins_ok in R. destruct f.
    - destruct R as (s1 & s2 & E1 & E2 & _). rewrite E2 in I. rewrite E1. apply in_app_or in I. destruct I as [I|[I|I]]; [left; apply in_or_app; auto|auto|left; apply in_or_app; auto].
    - destruct R as (E & _). rewrite E in I. auto. }
  split.
  - apply (replace_ok h a [(k, c)] b [(k, c')] O).
    + constructor; [|constructor]. split; assumption.
    + cbn [ord]. split; [apply Kb; [exact Bd|exact Q]|]. split; [intros x []|exact Logic.I].
    + intros n x I J. rewrite flat_1 in J. destruct (Cc x J) as [J1| ->]; [apply (Ha n x I); rewrite flat_1; exact J1|apply Ka; exact I].
    + intros n x [<-|[]] J. apply (Hb (k, c) x); [left; reflexivity|exact J].
  - unfold ins_ok in *. destruct f.
    + destruct R as (s1 & s2 & E1 & E2 & Q1 & Q2 & At). exists (flat h a ++ s1), (s2 ++ flat h b).
      rewrite !fl_mid, E1, E2. rewrite <- !app_assoc. split; [reflexivity|]. split; [reflexivity|]. split; [|split].
      * intros x I. apply in_app_or in I. destruct I as [I|I]; auto.
      * intros x I. apply in_app_or in I. destruct I as [I|I]; auto.
      * rewrite leaves_mid, app_length. rewrite <- (flat_leaves h a). eapply at_in_shift; [exact At|reflexivity].
    + destruct R as (E & x & I & X). rewrite !fl_mid, E. split; [reflexivity|]. exists x. split; [|exact X].
      apply in_or_app. right. apply in_or_app. left. exact I.
Qed.

Lemma insert_loop_ok : forall h q d (t : blk h), ok h t -> (h = 0 \/ t <> []) -> length t < MAX_NBLK ->
  exists f it t', insert_loop K D lt h q d t = Ok (f, it, t') /\ ok h t' /\ length t <= length t' <= S (length t) /\
    keeps_bound q t t' /\ ins_ok q d h t t' f it.
Proof.
  induction h as [|h IH]; intros q d t O N L.
  - cbn [insert_loop]. destruct (search_split _ (fun k => lt k q) t) as [(S0 & F)|(a & k & c & b & E & S0 & F & Nk)].
    + rewrite S0. replace (nth_error t (length t)) with (@None (K * child K D 0)) by (symmetry; apply nth_error_None; lia).
      unfold insert_node. destruct (Nat.ltb_spec (length t) MAX_NBLK); [|lia].
      assert (Ep : put t (length t) 0 [(q, d)] = t ++ [(q, d)]).
      { rewrite <- (app_nil_r t) at 1. rewrite put_0. reflexivity. }
      rewrite Ep. exists true, (0, length t), (t ++ [(q, d)]). split; [reflexivity|]. rewrite Forall_forall in F.
      split; [|split; [rewrite app_length; cbn [length]; lia|split]].
      * cbn [ok]. apply srt_app. split; [exact O|]. split; [repeat constructor|]. intros x y I [<-|[]]. apply F. exact I.
      * intros B _ Q k Lk. rewrite lastk_snoc in Lk. injection Lk as <-. exact Q.
      * exists t, []. rewrite !fl_0. split; [symmetry; apply app_nil_r|]. split; [reflexivity|]. split; [exact F|]. split; [intros x []|].
        exists [], (t ++ [(q, d)]), []. cbn [fst snd]. split; [reflexivity|]. split; [reflexivity|]. rewrite app_length. cbn [length]. split; [lia|reflexivity].
    + rewrite S0, E. cbn [child] in *. rewrite nth_mid. rewrite E in L. destruct (lt q k) eqn:Eq; cbn [negb].
      * unfold insert_node. assert (Lb : (len 0 (a ++ (k, c) :: b) <? MAX_NBLK) = true) by (apply Nat.ltb_lt; exact L).
        rewrite Lb, put_0. cbn [app]. exists true, (0, length a), (a ++ (q, d) :: (k, c) :: b). split; [reflexivity|].
        subst t. cbn [ok] in O. apply srt_app in O. destruct O as (Oa & Ob & C). rewrite Forall_forall in F.
        assert (Qb : forall x, In x ((k, c) :: b) -> lt q (fst x) = true).
        { intros x [<-|I]; [exact Eq|]. apply (lt_trans _ k); [exact Eq|]. inversion Ob as [|u v O1 O2]; subst. rewrite Forall_forall in O2. apply O2. exact I. }
        split; [|split; [rewrite !app_length; cbn [length]; lia|split]].
        -- cbn [ok]. apply srt_app. split; [exact Oa|]. split; [|].
           ++ constructor; [exact Ob|]. apply Forall_forall. exact Qb.
           ++ intros x y I [<-|J]; [apply F; exact I|apply C; assumption].
        -- intros B Bd _ k' Lk. apply Bd. rewrite <- Lk. rewrite !lastk_app by discriminate.
           change ((q, d) :: (k, c) :: b) with ([(q, d)] ++ (k, c) :: b). rewrite lastk_app by discriminate. reflexivity.
        -- exists a, ((k, c) :: b). rewrite !fl_0. split; [reflexivity|]. split; [reflexivity|]. split; [exact F|]. split; [exact Qb|].
           exists [], (a ++ (q, d) :: (k, c) :: b), []. cbn [fst snd]. split; [reflexivity|]. split; [reflexivity|]. rewrite app_length. cbn [length]. split; [lia|reflexivity].
      * exists false, (0, 0), t. rewrite <- E. split; [reflexivity|]. split; [exact O|]. split; [lia|]. split; [intros B Bd _; exact Bd|].
        split; [reflexivity|]. exists (k, c). rewrite fl_0, E. split; [apply in_or_app; right; left; reflexivity|]. auto.
  - destruct N as [N|N]; [discriminate N|]. cbn [insert_loop].
    destruct (search_split _ (fun k => lt k q) t) as [(S0 & F)|(a & k & c & b & E & S0 & F & Nk)].
    + rewrite S0, Nat.eqb_refl. destruct (insert_last_ok (S h) q d t O N L) as (t' & it & -> & O' & L' & In' & Lk).
      { intros k Lk. destruct (lastk_some _ t N) as (l' & k' & c' & E & Lk'). rewrite Lk' in Lk. injection Lk as <-.
        rewrite Forall_forall in F. apply (F (k', c')). rewrite E. apply in_or_app. right. left. reflexivity. }
      exists true, it, t'. split; [reflexivity|]. split; [exact O'|]. split; [exact L'|]. split; [|exact In'].
      intros B _ Q k Lk'. rewrite Lk in Lk'. injection Lk' as <-. exact Q.
    + rewrite S0. assert (Lt : length a <> length t) by (rewrite E, app_length; cbn [length]; lia).
      destruct (Nat.eqb_spec (length a) (length t)) as [X|_]; [contradiction|]. subst t. rewrite nth_mid. cbv zeta.
      rewrite Forall_forall in F. fold (le q k) in Nk.
      assert (St : exists (a1 b1 : blk (S h)) k1 (c1 : ch h),
         (if len h c =? MAX_NBLK
          then match split_node K D (a ++ (k, c) :: b) (length a) with
               | Ok t1 => match nth_error t1 (length a), nth_error t1 (S (length a)) with
                          | Some (k1, c1), Some (k2, c2) =>
                            if lt k1 q then Ok (put t1 (S (length a)) 1 [(if lt k2 q then q else k2, c2)], S (length a)) else Ok (t1, length a)
                          | _, _ => Abort
                          end
               | Err e => Err e
               | Abort => Abort
               end
          else Ok (a ++ (k, c) :: b, length a)) = Ok (a1 ++ (k1, c1) :: b1, length a1) /\
         ok (S h) (a1 ++ (k1, c1) :: b1) /\ fl (S h) (a1 ++ (k1, c1) :: b1) = fl (S h) (a ++ (k, c) :: b) /\
         le q k1 /\ (forall n, In n a1 -> lt (fst n) q = true) /\ len h c1 < MAX_NBLK /\
         length (a ++ (k, c) :: b) <= length (a1 ++ (k1, c1) :: b1) <= S (length (a ++ (k, c) :: b)) /\
         keeps_bound q (a ++ (k, c) :: b) (a1 ++ (k1, c1) :: b1)).
      { destruct (Nat.eqb_spec (len h c) MAX_NBLK) as [Mx|Mx].
        - destruct (split_node_ok h a b k c O Mx) as (l & r & kl & kr & Sp & Ec & Ll & Lr & Kl & Kr & KK & O').
          rewrite Sp, nth_mid, nth_mid2.
          assert (Fe : forall kr', fl (S h) (a ++ (kl, l) :: (kr', r) :: b) = fl (S h) (a ++ (k, c) :: b)).
          { intros kr'. rewrite !fl_mid, flat_cons, Ec, fl_app, <- !app_assoc. reflexivity. }
          destruct (lt kl q) eqn:Eq.
          + set (k2 := if lt kr q then q else kr).
            assert (E2 : put (a ++ (kl, l) :: (kr, r) :: b) (S (length a)) 1 [(k2, r)] = (a ++ [(kl, l)]) ++ (k2, r) :: b).
            { replace (a ++ (kl, l) :: (kr, r) :: b) with ((a ++ [(kl, l)]) ++ (kr, r) :: b) by (rewrite <- app_assoc; reflexivity).
              replace (S (length a)) with (length (a ++ [(kl, l)])) by (rewrite app_length; cbn [length]; lia). rewrite put_1. reflexivity. }
            rewrite E2. exists (a ++ [(kl, l)]), b, k2, r.
            assert (K2 : le kr k2) by (unfold k2; destruct (lt kr q) eqn:Z; [apply lt_le; exact Z|apply le_refl]).
            assert (K3 : le k2 k) by (unfold k2; destruct (lt kr q); assumption).
            split; [rewrite app_length; cbn [length]; rewrite Nat.add_1_r; reflexivity|]. split.
            * destruct (parts h a [(k, c)] b O) as (_ & _ & _ & Hb & _ & _).
              assert (O2 : ok (S h) ((a ++ [(kl, l)]) ++ [(kr, r)] ++ b)) by (rewrite <- app_assoc; exact O').
              destruct (parts h _ _ _ O2) as (G & Or & Ha & _).
              apply (replace_ok h (a ++ [(kl, l)]) [(kr, r)] b [(k2, r)] O2).
              -- constructor; [|constructor]. exact (Forall_inv G).
              -- cbn [ord] in *. destruct Or as (Bd & _). split; [|split; [intros x []|exact Logic.I]].
                 intros k' Lk. apply (le_trans _ kr); [apply Bd; exact Lk|exact K2].
              -- intros n x I J. apply (Ha n x I). exact J.
              -- intros n x [<-|[]] J. cbn [fst]. apply (le_lt_trans _ k); [exact K3|]. apply (Hb (k, c) x); [left; reflexivity|exact J].
            * split; [rewrite <- app_assoc; apply Fe|]. split; [unfold k2; destruct (lt kr q) eqn:Z; [apply le_refl|exact Z]|].
              split; [intros n I; apply in_app_or in I; destruct I as [I|[<-|[]]]; [apply F; exact I|exact Eq]|].
              split; [rewrite Lr; unfold MAX_NBLK; lia|]. split; [rewrite !app_length; cbn [length]; lia|].
              intros B Bd Q k' Lk. rewrite lastk_app in Lk by discriminate. destruct b as [|x b0].
              -- cbn [lastk] in Lk. injection Lk as <-. apply (le_trans _ k); [exact K3|]. apply Bd. apply lastk_snoc.
              -- apply Bd. rewrite <- Lk. change ((k2, r) :: x :: b0) with ([(k2, r)] ++ x :: b0).
                 change ((k, c) :: x :: b0) with ([(k, c)] ++ x :: b0). rewrite !lastk_app by discriminate. reflexivity.
          + exists a, ((kr, r) :: b), kl, l. split; [reflexivity|]. split; [exact O'|]. split; [apply Fe|]. split; [exact Eq|].
            split; [exact F|]. split; [rewrite Ll; unfold MAX_NBLK; lia|]. split; [rewrite !app_length; cbn [length]; lia|].
            intros B Bd Q k' Lk. rewrite lastk_app in Lk by discriminate.
            change ((kl, l) :: (kr, r) :: b) with ([(kl, l)] ++ (kr, r) :: b) in Lk. rewrite lastk_app in Lk by discriminate. destruct b as [|x b0].
            * cbn [lastk] in Lk. injection Lk as <-. apply (le_trans _ k); [exact KK|]. apply Bd. apply lastk_snoc.
            * apply Bd. rewrite <- Lk. change ((kr, r) :: x :: b0) with ([(kr, r)] ++ x :: b0).
              change ((k, c) :: x :: b0) with ([(k, c)] ++ x :: b0). rewrite !lastk_app by discriminate. reflexivity.
        - exists a, b, k, c. split; [reflexivity|]. split; [exact O|]. split; [reflexivity|]. split; [exact Nk|]. split; [exact F|].
          split; [|split; [lia|intros B Bd _; exact Bd]].
          destruct (parts h a [(k, c)] b O) as (G & _). pose proof (Forall_inv G) as ((_ & G1) & _). cbn [snd] in G1. lia. }
      destruct St as (a1 & b1 & k1 & c1 & St & O1 & F1 & K1 & Ka & L1 & La & Kb).
      unfold KslModel.blk in St |- *. rewrite St. clear St. rewrite nth_mid.
      destruct (parts h a1 [(k1, c1)] b1 O1) as (G & _). pose proof (Forall_inv G) as G1.
      destruct (IH q d c1) as (f & [lf i] & c2 & -> & O2 & L2 & Kb2 & R).
      { apply G1. }
      { right. apply (good_ne h (k1, c1) G1). }
      { exact L1. }
      rewrite before_mid, put_1. cbn [app].
      destruct (into_ok h q d a1 b1 k1 c1 c2 f lf i O1 K1 Ka O2) as (O3 & R3); [|exact Kb2|exact R|].
      { destruct G1 as ((G1 & _) & _). cbn [snd] in G1. unfold KslModel.blk in *. lia. }
      eexists _, _, _. split; [reflexivity|]. split; [exact O3|].
      assert (Le : len (S h) (a1 ++ (k1, c2) :: b1) = len (S h) (a1 ++ (k1, c1) :: b1)) by (rewrite !app_length; reflexivity).
      split; [rewrite <- Le in La; exact La|].
      split.
      * intros B Bd Q. specialize (Kb B Bd Q). intros k' Lk. apply Kb. rewrite <- Lk. apply lastk_replace.
      * unfold ins_ok in *. unfold inserted in *. rewrite F1 in R3. exact R3.
Qed.

(* ---- removal ---- *)
(* a prefix of a block ends at or before its bound *)
Lemma prefix_bounded : forall h (a b : blk h) B, ok h (a ++ b) -> bounded B (a ++ b) -> bounded B a.
Proof.
  intros h a b B O Bd k Lk. destruct b as [|x b]; [rewrite app_nil_r in Bd; exact (Bd k Lk)|].
  assert (Ne : fl h (x :: b) <> []) by (apply fl_ne; [apply (ok_app h a (x :: b) O)|discriminate]).
  destruct (fl h (x :: b)) as [|y ys] eqn:Ey; [contradiction|].
  assert (Y : In y (fl h (x :: b))) by (rewrite Ey; left; reflexivity).
  apply lt_le. apply (lt_le_trans _ (fst y)); [exact (cut_lt h a (x :: b) k O Lk y Y)|].
  apply (last_bounds h (a ++ x :: b) B O Bd). rewrite fl_app. apply in_or_app. right. exact Y.
Qed.
Lemma suffix_bounded : forall (A : Type) (a b : list (K * A)) B, bounded B (a ++ b) -> bounded B b.
Proof. intros A a b B Bd k Lk. apply Bd. rewrite lastk_app; [exact Lk|apply (lastk_ne _ _ _ Lk)]. Qed.

Lemma pair_ok : forall h (a b ys : blk (S h)) kx ky (cx cy : ch h), ok (S h) (a ++ (kx, cx) :: (ky, cy) :: b) ->
  Forall (good h) ys -> ord h ys -> flat h ys = fl h cx ++ fl h cy -> (forall n, In n ys -> le (fst n) ky) ->
  ok (S h) (a ++ ys ++ b).
Proof.
  intros h a b ys kx ky cx cy O G Or E Le.
  destruct (parts h a [(kx, cx); (ky, cy)] b O) as (_ & _ & Ha & Hb & _ & _).
  apply (replace_ok h a [(kx, cx); (ky, cy)] b ys O G Or).
  - intros n x I J. apply (Ha n x I). rewrite E in J. unfold flat. cbn [map concat snd]. rewrite app_nil_r. exact J.
  - intros n x I J. apply (le_lt_trans _ ky); [apply Le; exact I|]. apply (Hb (ky, cy) x); [right; left; reflexivity|exact J].
Qed.
Lemma pair_bounded : forall h (a b ys : blk (S h)) nx ky (cy : ch h) B, ys <> [] -> (forall n, In n ys -> le (fst n) ky) ->
  bounded B (a ++ nx :: (ky, cy) :: b) -> bounded B (a ++ ys ++ b).
Proof.
  intros h a b ys nx ky cy B N Le Bd k Lk. destruct b as [|x b].
  - destruct (exists_last N) as (ys' & z & ->). rewrite app_nil_r, app_assoc, lastk_snoc in Lk. injection Lk as <-.
    apply (le_trans _ ky); [apply Le; apply in_or_app; right; left; reflexivity|]. apply Bd.
    replace (a ++ [nx; (ky, cy)]) with ((a ++ [nx]) ++ [(ky, cy)]) by (rewrite <- app_assoc; reflexivity). apply lastk_snoc.
  - apply Bd. rewrite <- Lk. rewrite (app_assoc a ys). replace (a ++ nx :: (ky, cy) :: x :: b) with ((a ++ [nx; (ky, cy)]) ++ x :: b) by (rewrite <- app_assoc; reflexivity).
    rewrite !lastk_app by discriminate. reflexivity.
Qed.
(* the two nodes of a pair *)
Lemma pair_parts : forall h (a b : blk (S h)) kx ky (cx cy : ch h), ok (S h) (a ++ (kx, cx) :: (ky, cy) :: b) ->
  ok h cx /\ ok h cy /\ MIN_NBLK <= len h cx <= MAX_NBLK /\ MIN_NBLK <= len h cy <= MAX_NBLK /\
  bounded (A := child K D h) kx cx /\ bounded (A := child K D h) ky cy /\ (forall x, In x (fl h cy) -> lt kx (fst x) = true).
Proof.
  intros h a b kx ky cx cy O. destruct (parts h a [(kx, cx); (ky, cy)] b O) as (G & Or & _).
  pose proof (Forall_inv G) as (S1 & O1). pose proof (Forall_inv (Forall_inv_tail G)) as (S2 & O2). cbn [snd] in *.
  cbn [ord] in Or. destruct Or as (B1 & Lx & B2 & _). split; [exact O1|]. split; [exact O2|]. split; [exact S1|]. split; [exact S2|].
  split; [exact B1|]. split; [exact B2|]. intros x I. apply Lx. rewrite flat_1. exact I.
Qed.
Lemma fl_pos : forall h (c : ch h) x0 c0, ok h c -> c = (x0 :: c0 : blk h) -> exists y, In y (fl h c).
Proof.
  intros h c x0 c0 O E. assert (Ne : fl h c <> []) by (apply fl_ne; [exact O|rewrite E; discriminate]).
  destruct (fl h c) as [|y ys]; [contradiction|]. exists y. left. reflexivity.
Qed.
Lemma node_pos : forall h (c : blk h), ok h c -> MIN_NBLK <= length c -> exists y, In y (fl h c).
Proof.
  intros h c O L. assert (Ne : fl h c <> []) by (apply fl_ne; [exact O|intros ->; cbn in L; unfold MIN_NBLK in L; lia]).
  destruct (fl h c) as [|y ys]; [contradiction|]. exists y. left. reflexivity.
Qed.
Lemma half : forall a, a / 2 * 2 <= a <= a / 2 * 2 + 1.
Proof. intros a. pose proof (Nat.div_mod a 2). pose proof (Nat.mod_upper_bound a 2). lia. Qed.

Lemma pos_ne : forall (A : Type) (l : list A), 0 < length l -> l <> [].
Proof. intros A [|x l] H; [cbn in H; lia|discriminate]. Qed.

(* two neighbours become one *)
Lemma merge_ok : forall h (a b : blk (S h)) kx ky (cx cy : ch h), ok (S h) (a ++ (kx, cx) :: (ky, cy) :: b) ->
  len h cx = MIN_NBLK -> len h cy = MIN_NBLK ->
  exists k, merge K (A := child K D h) (kx, cx) (ky, cy) = Ok [(k, ap h cx cy)] /\ lt kx k = true /\ le k ky /\
    ok (S h) (a ++ [(k, ap h cx cy)] ++ b).
Proof.
  intros h a b kx ky cx cy O Lx Ly.
  destruct (pair_parts h a b kx ky cx cy O) as (Ox & Oy & Sx & Sy & Bx & By & Xy).
  assert (Om : ok h (ap h cx cy)) by (apply (join_ok h cx cy kx); assumption).
  assert (Ny : cy <> []) by (intros Z; rewrite Z in Ly; discriminate Ly).
  destruct (lastk_some (child K D h) cy Ny) as (y' & k & c' & Ey & Lk).
  assert (Lm : lk h (ap h cx cy) = Some k) by (rewrite lastk_app; assumption).
  exists k. unfold merge. cbn [snd]. rewrite Lm, Lx, Ly. change (MIN_NBLK + MIN_NBLK <? MAX_NBLK) with true. cbn iota.
  assert (Kk : le k ky) by (apply By; exact Lk).
  split; [reflexivity|]. split; [|split; [exact Kk|]].
  - destruct (node_pos h cy Oy) as (y & Y); [apply Sy|]. apply (lt_le_trans _ (fst y)); [apply Xy; exact Y|].
    apply (last_bounds h cy k Oy (bounded_of _ _ _ Lk) y Y).
  - apply (pair_ok h a b _ kx ky cx cy O).
    + constructor; [|constructor]. split; [|exact Om]. cbn [snd]. rewrite app_length, Lx, Ly. unfold MIN_NBLK, MAX_NBLK. lia.
    + cbn [ord]. split; [apply bounded_of; exact Lm|]. split; [intros x []|exact Logic.I].
    + rewrite flat_1. apply fl_app.
    + intros n [<-|[]]. exact Kk.
Qed.
(* nodes move from the right neighbour *)
Lemma shift_left_ok : forall h (a b : blk (S h)) kx ky (cx cy : ch h), ok (S h) (a ++ (kx, cx) :: (ky, cy) :: b) ->
  len h cx = MIN_NBLK -> MIN_NBLK < len h cy ->
  exists k (l r : ch h), shift_left K (A := child K D h) (kx, cx) (ky, cy) = Ok [(k, l); (ky, r)] /\ lt kx k = true /\ le k ky /\
    MIN_NBLK < len h l /\ fl h l ++ fl h r = fl h cx ++ fl h cy /\ (forall x, In x (fl h r) -> In x (fl h cy)) /\
    ok (S h) (a ++ [(k, l); (ky, r)] ++ b).
Proof.
  intros h a b kx ky cx cy O Lx Ly.
  destruct (pair_parts h a b kx ky cx cy O) as (Ox & Oy & Sx & Sy & Bx & By & Xy).
  unfold shift_left. cbn [fst snd]. rewrite Lx.
  pose proof (half (MIN_NBLK + len h cy + 1)) as Hf. set (m := (MIN_NBLK + len h cy + 1) / 2) in *.
  set (n := m - MIN_NBLK). assert (Sz : 0 < n /\ MIN_NBLK + n <= MAX_NBLK /\ MIN_NBLK + n <= len h cy) by (unfold n, MIN_NBLK, MAX_NBLK in *; lia).
  assert (C : (MIN_NBLK <? MAX_NBLK) && (MIN_NBLK <? len h cy) && (0 <? n) && (MIN_NBLK <=? MAX_NBLK - n) && (MIN_NBLK + n <=? len h cy) = true).
  { rewrite !andb_true_iff, !Nat.ltb_lt, !Nat.leb_le. unfold MIN_NBLK, MAX_NBLK in *. lia. }
  rewrite C. clear C. pose proof (@firstn_skipn (K * child K D h) n cy) as Ecy. set (f := @firstn (K * child K D h) n cy) in *. set (r := @skipn (K * child K D h) n cy) in *.
  assert (Lf : len h f = n) by (unfold f; rewrite firstn_length; lia). assert (Lr : len h r = len h cy - n) by (unfold r; apply skipn_length).
  clearbody f r. assert (Of : ok h f /\ ok h r) by (apply ok_app; rewrite Ecy; exact Oy). destruct Of as (Of & Or).
  assert (Ol : ok h (ap h cx f)).
  { apply (join_ok h cx f kx Ox Of Bx). intros x I. apply Xy. rewrite <- Ecy, fl_app. apply in_or_app. left. exact I. }
  assert (Nf : f <> []) by (apply (pos_ne (K * child K D h)); lia).
  destruct (lastk_some (child K D h) f Nf) as (f' & k & c' & Ef & Lk).
  assert (Lm : lk h (ap h cx f) = Some k) by (rewrite lastk_app; assumption).
  rewrite Lm. exists k, (ap h cx f), r. split; [reflexivity|].
  assert (Bf : bounded ky f) by (apply (prefix_bounded h f r ky); rewrite Ecy; assumption).
  assert (Kk : le k ky) by (apply Bf; exact Lk).
  split; [|split; [exact Kk|split; [rewrite app_length; lia|split; [|split]]]].
  - assert (Nef : fl h f <> []) by (apply fl_ne; assumption). destruct (fl h f) as [|y ys] eqn:Ey; [contradiction|].
    assert (Y : In y (fl h f)) by (rewrite Ey; left; reflexivity).
    apply (lt_le_trans _ (fst y)); [apply Xy; rewrite <- Ecy, fl_app; apply in_or_app; left; exact Y|].
    apply (last_bounds h f k Of (bounded_of _ _ _ Lk) y Y).
  - rewrite fl_app, <- app_assoc, <- fl_app, Ecy. reflexivity.
  - intros x I. rewrite <- Ecy, fl_app. apply in_or_app. right. exact I.
  - apply (pair_ok h a b _ kx ky cx cy O).
    + constructor; [split; [cbn [snd]; rewrite app_length, Lf; lia|exact Ol]|]. constructor; [split; [cbn [snd]; lia|exact Or]|constructor].
    + cbn [ord]. split; [apply bounded_of; exact Lm|]. split; [|split; [|split; [intros x []|exact Logic.I]]].
      * intros x I. rewrite flat_1 in I. apply (cut_lt h f r k); [rewrite Ecy; exact Oy|exact Lk|exact I].
      * apply (suffix_bounded _ f r). rewrite Ecy. exact By.
    + rewrite flat_cons, flat_1, fl_app, <- app_assoc, <- fl_app, Ecy. reflexivity.
    + intros n0 [<-|[<-|[]]]; [exact Kk|apply le_refl].
Qed.
(* nodes move from the left neighbour *)
Lemma shift_right_ok : forall h (a b : blk (S h)) kx ky (cx cy : ch h), ok (S h) (a ++ (kx, cx) :: (ky, cy) :: b) ->
  MIN_NBLK < len h cx -> len h cy = MIN_NBLK ->
  exists k (l r : ch h), shift_right K (A := child K D h) (kx, cx) (ky, cy) = Ok [(k, l); (ky, r)] /\ le k kx /\ le k ky /\
    MIN_NBLK < len h r /\ fl h l ++ fl h r = fl h cx ++ fl h cy /\
    ok (S h) (a ++ [(k, l); (ky, r)] ++ b).
Proof.
  intros h a b kx ky cx cy O Lx Ly.
  destruct (pair_parts h a b kx ky cx cy O) as (Ox & Oy & Sx & Sy & Bx & By & Xy).
  unfold shift_right. cbn [fst snd]. rewrite Ly.
  pose proof (half (len h cx + MIN_NBLK + 1)) as Hf. set (m := (len h cx + MIN_NBLK + 1) / 2) in *.
  set (n := m - MIN_NBLK). assert (Sz : 0 < n /\ MIN_NBLK + n <= MAX_NBLK /\ MIN_NBLK + n <= len h cx) by (unfold n, MIN_NBLK, MAX_NBLK in *; lia).
  assert (C : (MIN_NBLK <? len h cx) && (MIN_NBLK <? MAX_NBLK) && (0 <? n) && (MIN_NBLK + n <=? len h cx) && (MIN_NBLK <=? MAX_NBLK - n) = true).
  { rewrite !andb_true_iff, !Nat.ltb_lt, !Nat.leb_le. unfold MIN_NBLK, MAX_NBLK in *. lia. }
  rewrite C. clear C. pose proof (@firstn_skipn (K * child K D h) (len h cx - n) cx) as Ecx. set (f := @firstn (K * child K D h) (len h cx - n) cx) in *. set (r := @skipn (K * child K D h) (len h cx - n) cx) in *.
  assert (Lf : len h f = len h cx - n) by (unfold f; rewrite firstn_length; lia).
  assert (Lr : len h r = n) by (unfold r; rewrite skipn_length; lia).
  clearbody f r. assert (Of : ok h f /\ ok h r) by (apply ok_app; rewrite Ecx; exact Ox). destruct Of as (Of & Or).
  assert (Br : bounded kx r) by (apply (suffix_bounded _ f r); rewrite Ecx; exact Bx).
  assert (Om : ok h (ap h r cy)) by (apply (join_ok h r cy kx); assumption).
  assert (Nf : f <> []) by (apply (pos_ne (K * child K D h)); unfold MIN_NBLK in *; lia).
  destruct (lastk_some (child K D h) f Nf) as (f' & k & c' & Ef & Lk).
  rewrite Lk. exists k, f, (ap h r cy). split; [reflexivity|].
  assert (Kk : le k kx) by (apply (prefix_bounded h f r kx); [rewrite Ecx; exact Ox|rewrite Ecx; exact Bx|exact Lk]).
  assert (Kf : forall x, In x (fl h cy) -> lt k (fst x) = true) by (intros x I; apply (le_lt_trans _ kx); [exact Kk|apply Xy; exact I]).
  assert (Ky : le k ky).
  { destruct (node_pos h cy Oy) as (y & Y); [apply Sy|]. apply lt_le. apply (lt_le_trans _ (fst y)); [apply Kf; exact Y|].
    apply (last_bounds h cy ky Oy By y Y). }
  split; [exact Kk|]. split; [exact Ky|]. split; [rewrite app_length, Lr, Ly; lia|]. split.
  - rewrite fl_app, app_assoc, <- fl_app, Ecx. reflexivity.
  - apply (pair_ok h a b _ kx ky cx cy O).
    + constructor; [split; [cbn [snd]; lia|exact Of]|]. constructor; [split; [cbn [snd]; rewrite app_length, Lr, Ly; lia|exact Om]|constructor].
    + cbn [ord]. split; [apply bounded_of; exact Lk|]. split; [|split; [|split; [intros x []|exact Logic.I]]].
      * intros x I. rewrite flat_1, fl_app in I. apply in_app_or in I. destruct I as [I|I]; [|apply Kf; exact I].
        apply (cut_lt h f r k); [rewrite Ecx; exact Ox|exact Lk|exact I].
      * intros k' Lk'. rewrite lastk_app in Lk'; [apply By; exact Lk'|]. intros Z. rewrite Z in Ly. discriminate Ly.
    + rewrite flat_cons, flat_1, fl_app, app_assoc, <- fl_app, Ecx. reflexivity.
    + intros n0 [<-|[<-|[]]]; [exact Ky|apply le_refl].
Qed.

Definition rem_ok (q : K) (h : nat) (t t' : blk h) (f : bool) (it : iter) : Prop :=
  if f then exists s1 x s2, fl h t = s1 ++ x :: s2 /\ fl h t' = s1 ++ s2 /\ lt (fst x) q = false /\ lt q (fst x) = false /\
              at_off (leaves h t') it (length s1)
  else fl h t' = fl h t /\ forall x, In x (fl h t) -> lt (fst x) q = true \/ lt q (fst x) = true.
Lemma out_ok : forall h q (a b : blk (S h)) k (c c' : ch h) f lf i,
  ok (S h) (a ++ (k, c) :: b) -> (forall n, In n a -> lt (fst n) q = true) -> (forall x, In x (flat h b) -> lt q (fst x) = true) ->
  ok h c' -> MIN_NBLK <= len h c' <= MAX_NBLK -> (forall B, bounded (A := child K D h) B c -> bounded (A := child K D h) B c') ->
  rem_ok q h c c' f (lf, i) ->
  ok (S h) (a ++ (k, c') :: b) /\
  rem_ok q (S h) (a ++ (k, c) :: b) (a ++ (k, c') :: b) f (length (leaves (S h) a) + lf, i).
Proof.
  intros h q a b k c c' f lf i O Ka Qb Oc Sz Kb R.
  destruct (parts h a [(k, c)] b O) as (G & Or & Ha & Hb & HaB & Hab). pose proof (Forall_inv G) as G1.
  cbn [ord] in Or. destruct Or as (Bd & _).
  assert (Qa : forall x, In x (flat h a) -> lt (fst x) q = true).
  { intros x I. apply flat_in in I. destruct I as (n & I1 & I2). apply (le_lt_trans _ (fst n)); [apply (HaB n x I1 I2)|apply Ka; exact I1]. }
  assert (Cc : forall x, In x (fl h c') -> In x (fl h c)).
  { intros x I. unfold rem_ok in R. destruct f.
    - destruct R as (s1 & y & s2 & E1 & E2 & _). rewrite E2 in I. rewrite E1. apply in_app_or in I. apply in_or_app. destruct I as [I|I]; [auto|right; right; exact I].
    - destruct R as (E & _). rewrite E in I. exact I. }
  split.
  - apply (replace_ok h a [(k, c)] b [(k, c')] O).
    + constructor; [|constructor]. split; assumption.
    + cbn [ord]. split; [apply Kb; exact Bd|]. split; [intros x []|exact Logic.I].
    + intros n x I J. rewrite flat_1 in J. apply (Ha n x I). rewrite flat_1. apply Cc. exact J.
    + intros n x [<-|[]] J. apply (Hb (k, c) x); [left; reflexivity|exact J].
  - unfold rem_ok in *. destruct f.
    + destruct R as (s1 & y & s2 & E1 & E2 & Q1 & Q2 & At). exists (flat h a ++ s1), y, (s2 ++ flat h b).
      rewrite !fl_mid, E1, E2. rewrite <- !app_assoc. split; [reflexivity|]. split; [reflexivity|]. split; [exact Q1|]. split; [exact Q2|].
      rewrite leaves_mid, app_length. rewrite <- (flat_leaves h a). eapply at_shift; [exact At|reflexivity].
    + destruct R as (E & X). rewrite !fl_mid, E. split; [reflexivity|]. intros x I. apply in_app_or in I.
      destruct I as [I|I]; [left; apply Qa; exact I|]. apply in_app_or in I. destruct I as [I|I]; [apply X; exact I|right; apply Qb; exact I].
Qed.

(* [t1] has the content of [t], and the key, if present, is in the node [j], which is large enough *)
Definition ready (q : K) (h : nat) (t t1 : blk (S h)) (j : nat) : Prop :=
  exists (a1 b1 : blk (S h)) k1 (c1 : ch h), t1 = a1 ++ (k1, c1) :: b1 /\ j = length a1 /\ ok (S h) t1 /\ fl (S h) t1 = fl (S h) t /\
    (forall n, In n a1 -> lt (fst n) q = true) /\ (forall x, In x (flat h b1) -> lt q (fst x) = true) /\
    MIN_NBLK < len h c1 <= MAX_NBLK /\ (forall B, bounded B t -> bounded B t1) /\
    (length t1 = length t \/ (length t = S (length t1) /\ 2 < length t)).
Lemma good_in : forall h (t : blk (S h)) n, ok (S h) t -> In n t -> good h n.
Proof. intros h t n (F & _) I. rewrite Forall_forall in F. exact (F n I). Qed.

(* the block can lose a node *)
Definition room (head : bool) (h : nat) (t : blk h) : Prop :=
  match h return blk h -> Prop with
  | O => fun _ => True
  | S h' => fun t => if head then 2 <= length t /\ (length t = 2 -> child_n K (A := K * child K D h') t 0 = MIN_NBLK -> child_n K (A := K * child K D h') t 1 = MIN_NBLK -> False)
                     else MIN_NBLK < length t
  end t.

Lemma make_room_ok : forall h head q (t : blk (S h)), ok (S h) t -> room head (S h) t -> search K (fun k => lt k q) t <> length t ->
  exists t1 j, make_room K (A := child K D h) head t (search K (fun k => lt k q) t) = Ok (t1, j) /\ ready q h t t1 j.
Proof.
  intros h head q t O Rm N.
  destruct (search_split _ (fun k => lt k q) t) as [(S0 & F)|(a & k & c & b & E & S0 & F & Nk)]; [contradiction|].
  rewrite S0. clear N. subst t. rewrite Forall_forall in F. fold (le q k) in Nk.
  assert (Gc : good h (k, c)) by (apply (good_in h _ _ O); apply in_or_app; right; left; reflexivity). destruct Gc as (Sc & Oc). cbn [snd] in Sc, Oc.
  assert (Qb : forall x, In x (flat h b) -> lt q (fst x) = true).
  { destruct (parts h a [(k, c)] b O) as (_ & _ & _ & Hb & _). intros x I. apply (le_lt_trans _ k); [exact Nk|]. apply (Hb (k, c) x); [left; reflexivity|exact I]. }
  assert (Cn : child_n K (A := K * child K D h) (a ++ (k, c) :: b) (length a) = len h c).
  { unfold child_n. rewrite (nth_mid (K * ch h)). reflexivity. }
  unfold make_room. rewrite Cn. change (list (K * child K D h)) with (ch h).
  destruct (Nat.ltb_spec MIN_NBLK (len h c)) as [Big|Sm].
  { exists (a ++ (k, c) :: b), (length a). split; [reflexivity|]. exists a, b, k, c. split; [reflexivity|]. split; [reflexivity|].
    split; [exact O|]. split; [reflexivity|]. split; [exact F|]. split; [exact Qb|]. split; [lia|]. split; [auto|left; reflexivity]. }
  assert (Cm : len h c = MIN_NBLK) by lia. rewrite Cm, Nat.eqb_refl. cbn [negb].
  (* the right neighbour *)
  destruct b as [|[ky cy] b'].
  - (* the last node *)
    assert (Ln : (S (length a) <? length (a ++ [(k, c)])) = false) by (apply Nat.ltb_ge; rewrite app_length; cbn [length]; lia).
    rewrite Ln. cbn [andb]. assert (Na : a <> []).
    { intros ->. cbn [app] in Rm. cbn [room] in Rm. destruct head; cbn [length] in Rm; unfold MIN_NBLK in Rm; lia. }
    destruct (exists_last Na) as (a' & [kx cx] & Ea). subst a.
    replace (length (a' ++ [(kx, cx)])) with (S (length a')) by (rewrite app_length; cbn [length]; lia).
    change (0 <? S (length a')) with true. cbn [andb negb]. rewrite Nat.sub_succ, Nat.sub_0_r.
    rewrite <- app_assoc in *. cbn [app] in *.
    assert (Cx : child_n K (A := K * child K D h) (a' ++ (kx, cx) :: [(k, c)]) (length a') = len h cx).
    { unfold child_n. rewrite (nth_mid (K * ch h)). reflexivity. }
    rewrite Cx. destruct (pair_parts h a' [] kx k cx c O) as (Ox & _ & Sx & _).
    assert (Kx : lt kx q = true) by (apply (F (kx, cx)); apply in_or_app; right; left; reflexivity).
    assert (Fa : forall n, In n a' -> lt (fst n) q = true) by (intros n I; apply F; apply in_or_app; left; exact I).
    unfold pairwise. rewrite !(nth_mid (K * ch h)), !(nth_mid2 (K * ch h)).
    destruct (Nat.ltb_spec MIN_NBLK (len h cx)) as [Bx|Smx].
    + destruct (shift_right_ok h a' [] kx k cx c O Bx Cm) as (k' & l & r & -> & Kl & Kl2 & Lr & Ef & O').
      rewrite (put_2 (K * ch h)). eexists _, _. split; [reflexivity|].
      exists (a' ++ [(k', l)]), [], k, r. split; [rewrite <- app_assoc; reflexivity|]. split; [rewrite app_length; cbn [length]; lia|].
      split; [exact O'|]. split; [|split; [|split; [intros x []|split; [|split]]]].
      * cbn [app]. rewrite !fl_mid, !flat_1. f_equal. exact Ef.
      * intros n I. apply in_app_or in I. destruct I as [I|[<-|[]]]; [apply Fa; exact I|]. cbn [fst]. apply (le_lt_trans _ kx); assumption.
      * destruct (pair_parts h a' [] k' k l r O') as (_ & _ & _ & Sr & _). lia.
      * intros B Bd. apply (pair_bounded h a' [] [(k', l); (k, r)] (kx, cx) k c); [discriminate| |exact Bd].
        intros n [<-|[<-|[]]]; [exact Kl2|apply le_refl].
      * left. rewrite !app_length. reflexivity.
    + assert (Cxm : len h cx = MIN_NBLK) by lia.
      assert (Hd : head && (length (a' ++ [(kx, cx); (k, c)]) =? 2) = false).
      { destruct head; [|reflexivity]. cbn [andb]. apply Nat.eqb_neq. intros L2. cbn [room] in Rm. destruct Rm as (_ & Rm).
        assert (a' = []) by (destruct a'; [reflexivity|rewrite app_length in L2; cbn [length] in L2; lia]). subst a'.
        apply Rm; [exact L2|exact Cxm|exact Cm]. }
      assert (L3 : 2 < length (a' ++ [(kx, cx); (k, c)])).
      { cbn [room] in Rm. destruct head; [|unfold MIN_NBLK in Rm; lia]. cbn [andb] in Hd. apply Nat.eqb_neq in Hd. lia. }
      rewrite Hd.
      destruct (merge_ok h a' [] kx k cx c O Cxm Cm) as (k' & -> & Kl & Kl2 & O').
      rewrite (put_2 (K * ch h)). eexists _, _. split; [reflexivity|].
      exists a', [], k', (ap h cx c). split; [reflexivity|]. split; [reflexivity|]. split; [exact O'|].
      split; [|split; [exact Fa|split; [intros x []|split; [|split]]]].
      * cbn [app]. rewrite !fl_mid, !flat_1, fl_app. change (flat h []) with (@nil (K * D)). rewrite !app_nil_r. reflexivity.
      * rewrite app_length, Cxm, Cm. unfold MIN_NBLK, MAX_NBLK. lia.
      * intros B Bd. apply (pair_bounded h a' [] [(k', ap h cx c)] (kx, cx) k c); [discriminate| |exact Bd]. intros n [<-|[]]. exact Kl2.
      * right. split; [rewrite !app_length; cbn [length]; lia|exact L3].
  - (* there is a right neighbour *)
    assert (Ln : (S (length a) <? length (a ++ (k, c) :: (ky, cy) :: b')) = true) by (apply Nat.ltb_lt; rewrite app_length; cbn [length]; lia).
    assert (Cy : child_n K (A := K * child K D h) (a ++ (k, c) :: (ky, cy) :: b') (S (length a)) = len h cy).
    { unfold child_n. rewrite (nth_mid2 (K * ch h)). reflexivity. }
    rewrite Ln, Cy. cbn [andb]. destruct (pair_parts h a b' k ky c cy O) as (_ & Oy & _ & Sy & _ & _ & Xy).
    rewrite flat_cons in Qb.
    destruct (Nat.ltb_spec MIN_NBLK (len h cy)) as [By|Smy].
    + unfold pairwise. rewrite (nth_mid (K * ch h)), (nth_mid2 (K * ch h)).
      destruct (shift_left_ok h a b' k ky c cy O Cm By) as (k' & l & r & -> & Kl & Kl2 & Ll & Ef & Ir & O').
      rewrite (put_2 (K * ch h)). eexists _, _. split; [reflexivity|].
      exists a, ((ky, r) :: b'), k', l. split; [reflexivity|]. split; [reflexivity|].
      split; [exact O'|]. split; [|split; [exact F|split; [|split; [|split]]]].
      * cbn [app]. rewrite !fl_mid, !flat_cons, (app_assoc (fl h l)), Ef, <- !app_assoc. reflexivity.
      * intros x I. rewrite flat_cons in I. apply in_app_or in I. apply Qb. apply in_or_app. destruct I as [I|I]; [left; apply Ir; exact I|right; exact I].
      * destruct (pair_parts h a b' k' ky l r O') as (_ & _ & Sl & _). lia.
      * intros B Bd. apply (pair_bounded h a b' [(k', l); (ky, r)] (k, c) ky cy); [discriminate| |exact Bd].
        intros n [<-|[<-|[]]]; [exact Kl2|apply le_refl].
      * left. rewrite !app_length. reflexivity.
    + assert (Cym : len h cy = MIN_NBLK) by lia.
      destruct ((0 <? length a) && (MIN_NBLK <? child_n K (A := K * child K D h) (a ++ (k, c) :: (ky, cy) :: b') (length a - 1))) eqn:Cl.
      * (* from the left *)
        apply andb_true_iff in Cl. destruct Cl as (C1 & C2). apply Nat.ltb_lt in C1, C2.
        assert (Na : a <> []) by (apply (pos_ne (K * ch h)); exact C1).
        destruct (exists_last Na) as (a' & [kx cx] & Ea). subst a.
        assert (La : length (a' ++ [(kx, cx)]) = S (length a')) by (rewrite app_length; cbn [length]; lia).
        rewrite La in *. rewrite Nat.sub_succ, Nat.sub_0_r in *. rewrite <- app_assoc in *. cbn [app] in *.
        assert (Cx : child_n K (A := K * child K D h) (a' ++ (kx, cx) :: (k, c) :: (ky, cy) :: b') (length a') = len h cx).
        { unfold child_n. rewrite (nth_mid (K * ch h)). reflexivity. }
        rewrite Cx in C2. unfold pairwise. rewrite !(nth_mid (K * ch h)), !(nth_mid2 (K * ch h)).
        destruct (shift_right_ok h a' ((ky, cy) :: b') kx k cx c O C2 Cm) as (k' & l & r & -> & Kl & Kl2 & Lr & Ef & O').
        rewrite (put_2 (K * ch h)). eexists _, _. split; [reflexivity|].
        assert (Kx : lt kx q = true) by (apply (F (kx, cx)); apply in_or_app; right; left; reflexivity).
        exists (a' ++ [(k', l)]), ((ky, cy) :: b'), k, r. split; [rewrite <- app_assoc; reflexivity|]. split; [rewrite app_length; cbn [length]; lia|].
        split; [exact O'|]. split; [|split; [|split; [exact Qb|split; [|split]]]].
        -- cbn [app]. rewrite !fl_mid, !flat_cons, (app_assoc (fl h l)), Ef, <- !app_assoc. reflexivity.
        -- intros n I. apply in_app_or in I. destruct I as [I|[<-|[]]]; [apply F; apply in_or_app; left; exact I|]. cbn [fst]. apply (le_lt_trans _ kx); assumption.
        -- destruct (pair_parts h a' ((ky, cy) :: b') k' k l r O') as (_ & _ & _ & Sr & _). lia.
        -- intros B Bd. apply (pair_bounded h a' ((ky, cy) :: b') [(k', l); (k, r)] (kx, cx) k c); [discriminate| |exact Bd].
           intros n [<-|[<-|[]]]; [exact Kl2|apply le_refl].
        -- left. rewrite !app_length. reflexivity.
      * (* merge with the right one *)
        assert (Hd : head && (length (a ++ (k, c) :: (ky, cy) :: b') =? 2) = false).
        { destruct head; [|reflexivity]. cbn [andb]. apply Nat.eqb_neq. intros L2. cbn [room] in Rm. destruct Rm as (_ & Rm).
          assert (a = []) by (destruct a; [reflexivity|rewrite app_length in L2; cbn [length] in L2; lia]). subst a.
          apply Rm; [exact L2|exact Cm|exact Cym]. }
        assert (L3 : 2 < length (a ++ (k, c) :: (ky, cy) :: b')).
        { cbn [room] in Rm. destruct head; [|unfold MIN_NBLK in Rm; lia]. cbn [andb] in Hd. apply Nat.eqb_neq in Hd. lia. }
        rewrite Hd. unfold pairwise. rewrite (nth_mid (K * ch h)), (nth_mid2 (K * ch h)).
        destruct (merge_ok h a b' k ky c cy O Cm Cym) as (k' & -> & Kl & Kl2 & O').
        rewrite (put_2 (K * ch h)). eexists _, _. split; [reflexivity|].
        exists a, b', k', (ap h c cy). split; [reflexivity|]. split; [reflexivity|]. split; [exact O'|].
        split; [|split; [exact F|split; [|split; [|split]]]].
        -- cbn [app]. rewrite !fl_mid, flat_cons, fl_app, <- app_assoc. reflexivity.
        -- intros x I. apply Qb. apply in_or_app. right. exact I.
        -- rewrite app_length, Cm, Cym. unfold MIN_NBLK, MAX_NBLK. lia.
        -- intros B Bd. apply (pair_bounded h a b' [(k', ap h c cy)] (k, c) ky cy); [discriminate| |exact Bd]. intros n [<-|[]]. exact Kl2.
        -- right. split; [rewrite !app_length; cbn [length]; lia|exact L3].
Qed.

Lemma remove_loop_ok : forall h head q (t : blk h), ok h t -> room head h t ->
  exists f it t', remove_loop K D lt h head q t = Ok (f, it, t') /\ ok h t' /\ length t' <= length t <= S (length t') /\
    (h = 0 \/ 2 <= length t') /\ (forall B, bounded B t -> bounded B t') /\ rem_ok q h t t' f it.
Proof.
  induction h as [|h IH]; intros head q t O Rm.
  - cbn [remove_loop]. cbv zeta. destruct (search_split _ (fun k => lt k q) t) as [(S0 & F)|(a & k & c & b & E & S0 & F & Nk)].
    + rewrite S0. replace (nth_error t (length t)) with (@None (K * child K D 0)) by (symmetry; apply nth_error_None; lia).
      exists false, (0, 0), t. split; [reflexivity|]. split; [exact O|]. split; [lia|]. split; [auto|]. split; [auto|]. split; [reflexivity|].
      intros x I. rewrite fl_0 in I. rewrite Forall_forall in F. left. apply F. exact I.
    + rewrite S0. assert (En : nth_error t (length a) = Some (k, c)) by (rewrite E; apply nth_mid). rewrite En.
      assert (Srt : srt (a ++ (k, c) :: b)) by (rewrite <- E; exact O). rewrite Forall_forall in F.
      destruct (lt q k) eqn:Q.
      * exists false, (0, 0), t. split; [reflexivity|]. split; [exact O|]. split; [lia|]. split; [auto|]. split; [auto|]. split; [reflexivity|].
        intros x I. rewrite fl_0, E in I. apply in_app_or in I. destruct I as [I|[<-|I]]; [left; apply F; exact I|right; exact Q|right].
        apply srt_app in Srt. destruct Srt as (_ & Sb & _). inversion Sb as [|u v _ Hb]; subst. rewrite Forall_forall in Hb. apply (lt_trans _ k); [exact Q|]. apply Hb. exact I.
      * assert (Er : remove_node t (length a) = a ++ b) by (unfold remove_node; rewrite E, put_1; reflexivity).
        rewrite Er. exists true, (0, length a), (a ++ b). split; [reflexivity|].
        assert (Oab : ok 0 (a ++ b)).
        { cbn [ok]. apply srt_app in Srt. destruct Srt as (Sa & Sb & C). apply srt_app. split; [exact Sa|]. inversion Sb; subst. split; [assumption|].
          intros x y I J. apply C; [exact I|right; exact J]. }
        split; [exact Oab|]. split; [rewrite E, !app_length; cbn [length]; lia|]. split; [auto|]. split.
        -- intros B Bd k' Lk. destruct (lastk_some _ (a ++ b) (lastk_ne _ _ _ Lk)) as (l' & k2 & c2 & E2 & Lk2). rewrite Lk in Lk2. injection Lk2 as <-.
           apply (last_bounds 0 t B O Bd (k', c2)). rewrite fl_0, E.
           assert (I : In (k', c2) (a ++ b)) by (rewrite E2; apply in_or_app; right; left; reflexivity).
           apply in_app_or in I. apply in_or_app. destruct I as [I|I]; [left; exact I|right; right; exact I].
        -- exists a, (k, c), b. rewrite !fl_0. split; [exact E|]. split; [reflexivity|]. split; [exact Nk|]. split; [exact Q|].
           exists [], (a ++ b), []. cbn [fst snd]. split; [reflexivity|]. split; [reflexivity|]. rewrite app_length. split; [lia|reflexivity].
  - cbn [remove_loop]. cbv zeta.
    destruct (Nat.eqb_spec (search K (fun k => lt k q) t) (length t)) as [S0|S0].
    + destruct (search_split _ (fun k => lt k q) t) as [(_ & F)|(a & k & c & b & E & S1 & _)].
      2: { exfalso. rewrite S1, E, app_length in S0. cbn [length] in S0. lia. }
      exists false, (0, 0), t. split; [reflexivity|]. split; [exact O|]. split; [lia|]. split; [|split; [auto|]].
      { right. cbn [room] in Rm. destruct head; unfold MIN_NBLK in Rm; lia. }
      split; [reflexivity|]. intros x I. left. rewrite fl_S in I. apply flat_in in I. destruct I as (n & I1 & I2).
      rewrite Forall_forall in F. apply (le_lt_trans _ (fst n)); [|apply F; exact I1].
      destruct O as (Fo & Oo). apply (node_bounds h t n x Fo Oo I1 I2).
    + destruct (make_room_ok h head q t O Rm S0) as (t1 & j & Mk & (a1 & b1 & k1 & c1 & E1 & Ej & O1 & F1 & Ka & Qb & L1 & Bd & Lt)).
      change (list (K * list (K * child K D h))) with (blk (S h)) in Mk. unfold KslModel.blk in Mk |- *. cbn [child] in Mk |- *. rewrite Mk. clear Mk.
      subst t1 j. rewrite nth_mid.
      destruct (IH false q c1) as (f & [lf i] & c2 & -> & O2 & L2 & _ & B2 & R).
      { destruct (parts h a1 [(k1, c1)] b1 O1) as (G & _). apply (Forall_inv G). }
      { destruct h; cbn [room]; [exact Logic.I|]. apply L1. }
      unfold before, nleaves. change (list (K * child K D h)) with (ch h).
      pose proof (before_mid h a1 ((k1, c1) :: b1)) as Bm. unfold before, nleaves in Bm. rewrite Bm, put_1. cbn [app].
      assert (Sz : MIN_NBLK <= len h c2 <= MAX_NBLK) by (unfold KslModel.blk in *; lia).
      destruct (out_ok h q a1 b1 k1 c1 c2 f lf i O1 Ka Qb O2 Sz B2 R) as (O3 & R3).
      eexists _, _, _. split; [reflexivity|]. split; [exact O3|].
      assert (Le : len (S h) (a1 ++ (k1, c2) :: b1) = len (S h) (a1 ++ (k1, c1) :: b1)) by (rewrite !app_length; reflexivity).
      assert (Lg : len (S h) (a1 ++ (k1, c2) :: b1) <= length t <= S (len (S h) (a1 ++ (k1, c2) :: b1)) /\ 2 <= len (S h) (a1 ++ (k1, c2) :: b1)).
      { rewrite Le. cbn [room] in Rm. destruct Lt as [Lt|(Lt & L3)].
        - split; [lia|]. destruct head; unfold MIN_NBLK in Rm; lia.
        - lia. }
      split; [exact (proj1 Lg)|]. split; [right; exact (proj2 Lg)|]. split.
      * intros B Bt. specialize (Bd B Bt). intros k' Lk. apply Bd. rewrite <- Lk. apply lastk_replace.
      * unfold rem_ok in *. rewrite F1 in R3. exact R3.
Qed.

(* ---- lower bound ---- *)
Lemma leaves_ne : forall h (t : blk h), ok h t -> (h = 0 \/ t <> []) -> leaves h t <> [].
Proof.
  induction h as [|h IH]; intros t O [N|N]; [discriminate|discriminate|discriminate N|].
  destruct t as [|[k c] t]; [contradiction|]. rewrite leaves_cons. intros E. apply app_eq_nil in E. destruct E as (E & _).
  destruct O as (F & _). pose proof (Forall_inv F) as G. revert E. apply IH; [apply G|]. right. apply (good_ne h (k, c) G).
Qed.
Lemma end_off : forall (ls : list (list (K * D))), ls <> [] -> at_off ls (length ls - 1, length (last ls [])) (length (concat ls)).
Proof.
  intros ls N. destruct (exists_last N) as (pre & l & ->). exists pre, l, []. cbn [fst snd]. rewrite app_length, last_last, concat_app, app_length. cbn [length concat].
  rewrite app_nil_r. split; [reflexivity|]. lia.
Qed.
Definition anti (p : K -> bool) : Prop := forall x y, le x y -> p y = true -> p x = true.
Lemma lower_ok : forall h p (t : blk h), anti p -> ok h t -> (h = 0 \/ t <> []) ->
  exists it s1 s2, lower K D h p t = Ok it /\ fl h t = s1 ++ s2 /\ (forall x, In x s1 -> p (fst x) = true) /\ (forall x, In x s2 -> p (fst x) = false) /\
    at_off (leaves h t) it (length s1).
Proof.
  induction h as [|h IH]; intros p t An O N.
  - cbn [lower]. destruct (search_split _ p t) as [(S0 & F)|(a & k & c & b & E & S0 & F & Nk)]; rewrite Forall_forall in F.
    + rewrite S0. exists (0, length t), t, []. rewrite fl_0. split; [reflexivity|]. split; [symmetry; apply app_nil_r|]. split; [exact F|]. split; [intros x []|].
      exists [], t, []. cbn [fst snd]. split; [reflexivity|]. split; [reflexivity|]. split; [apply Nat.le_refl|reflexivity].
    + rewrite S0. exists (0, length a), a, ((k, c) :: b). rewrite fl_0. split; [reflexivity|]. split; [exact E|]. split; [exact F|]. split.
      * intros x I. destruct (p (fst x)) eqn:Px; [|reflexivity]. rewrite <- Nk. symmetry. apply (An k (fst x)); [|exact Px].
        destruct I as [<-|I]; [apply le_refl|]. apply lt_le. rewrite E in O. apply srt_app in O. destruct O as (_ & Sb & _).
        inversion Sb as [|u v _ Hb]; subst. rewrite Forall_forall in Hb. apply Hb. exact I.
      * exists [], t, []. cbn [fst snd]. split; [reflexivity|]. split; [reflexivity|]. rewrite E, app_length. split; [lia|reflexivity].
  - destruct N as [N|N]; [discriminate N|]. cbn [lower]. cbv zeta.
    destruct (search_split _ p t) as [(S0 & F)|(a & k & c & b & E & S0 & F & Nk)]; rewrite Forall_forall in F.
    + rewrite S0, Nat.eqb_refl. eexists _, (fl (S h) t), []. split; [reflexivity|]. split; [symmetry; apply app_nil_r|]. split; [|split; [intros x []|]].
      * intros x I. rewrite fl_S in I. apply flat_in in I. destruct I as (n & I1 & I2). apply (An _ (fst n)); [|apply F; exact I1].
        destruct O as (Fo & Oo). apply (node_bounds h t n x Fo Oo I1 I2).
      * apply end_off. apply leaves_ne; [exact O|right; exact N].
    + rewrite S0. assert (Lt : length a <> length t) by (rewrite E, app_length; cbn [length]; lia).
      destruct (Nat.eqb_spec (length a) (length t)) as [X|_]; [contradiction|]. subst t. rewrite nth_mid.
      destruct (parts h a [(k, c)] b O) as (G & _ & Ha & Hb & HaB & _). pose proof (Forall_inv G) as G1.
      destruct (IH p c An) as ([lf i] & s1 & s2 & -> & E1 & P1 & P2 & At); [apply G1|right; apply (good_ne h (k, c) G1)|].
      rewrite before_mid. eexists _, (flat h a ++ s1), (s2 ++ flat h b). split; [reflexivity|]. split; [rewrite fl_mid, E1, <- !app_assoc; reflexivity|].
      split; [|split].
      * intros x I. apply in_app_or in I. destruct I as [I|I]; [|apply P1; exact I].
        apply flat_in in I. destruct I as (n & I1 & I2). apply (An _ (fst n)); [apply (HaB n x I1 I2)|apply F; exact I1].
      * intros x I. apply in_app_or in I. destruct I as [I|I]; [apply P2; exact I|].
        destruct (p (fst x)) eqn:Px; [|reflexivity]. rewrite <- Nk. symmetry. apply (An k (fst x)); [|exact Px].
        apply lt_le. apply (Hb (k, c) x); [left; reflexivity|exact I].
      * rewrite leaves_mid, app_length. rewrite <- (flat_leaves h a). eapply at_shift; [exact At|reflexivity].
Qed.

(* ---- a key is raised ---- *)
Lemma keq_iff : forall x y, keq K lt x y = true <-> (lt x y = false /\ lt y x = false).
Proof. intros x y. unfold keq. rewrite andb_true_iff, !negb_true_iff. tauto. Qed.
(* where the sorted content splits *)
Lemma locate : forall (l1 l2 s1 s2 : list (K * D)) x, l1 ++ l2 = s1 ++ x :: s2 -> (forall y, In y l1 -> lt (fst y) (fst x) = true) ->
  exists s1', s1 = l1 ++ s1' /\ l2 = s1' ++ x :: s2.
Proof.
  induction l1 as [|z l1 IH]; intros l2 s1 s2 x E H.
  - exists s1. split; [reflexivity|exact E].
  - destruct s1 as [|w s1].
    + cbn [app] in E. injection E as E1 E2. specialize (H z (or_introl eq_refl)). rewrite E1, lt_irr in H. discriminate H.
    + cbn [app] in E. injection E as -> E. destruct (IH l2 s1 s2 x E) as (s1' & -> & ->); [intros y I; apply H; right; exact I|]. exists s1'. auto.
Qed.
Lemma locate_r : forall (l1 l2 s1 s2 : list (K * D)) x, l1 ++ l2 = s1 ++ x :: s2 -> (forall y, In y l2 -> lt (fst x) (fst y) = true) ->
  exists s2', s2 = s2' ++ l2 /\ l1 = s1 ++ x :: s2'.
Proof.
  induction l1 as [|z l1 IH]; intros l2 s1 s2 x E H.
  - exfalso. cbn [app] in E. assert (I : In x l2) by (rewrite E; apply in_or_app; right; left; reflexivity). specialize (H x I). rewrite lt_irr in H. discriminate H.
  - destruct s1 as [|w s1].
    + cbn [app] in E. injection E as -> <-. exists l1. split; reflexivity.
    + cbn [app] in E. injection E as -> E. destruct (IH l2 s1 s2 x E H) as (s2' & -> & ->). exists s2'. auto.
Qed.

Lemma update_loop_ok : forall h old new (t : blk h) s1 x s2, ok h t -> fl h t = s1 ++ x :: s2 ->
  keq K lt (fst x) old = true -> le old new -> (forall y, In y s2 -> lt new (fst y) = true) ->
  exists t', update_loop K D lt h old new t = Ok t' /\ ok h t' /\ length t' = length t /\ keeps_bound new t t' /\
    fl h t' = s1 ++ (new, snd x) :: s2 /\ length (leaves h t') = length (leaves h t).
Proof.
  induction h as [|h IH]; intros old new t s1 x s2 O E Q Le Nx; pose proof (proj1 (keq_iff _ _) Q) as (Q1 & Q2).
  - rewrite fl_0 in E. subst t. cbn [update_loop]. cbv zeta.
    assert (Srt : srt (s1 ++ x :: s2)) by exact O. apply srt_app in Srt. destruct Srt as (Sa & Sb & C).
    assert (S0 : search K (fun k => lt k old) (s1 ++ x :: s2) = length s1).
    { assert (Fa : forall y, In y s1 -> lt (fst y) old = true) by (intros y I; apply (lt_le_trans _ (fst x)); [apply C; [exact I|left; reflexivity]|exact Q2]).
      clear -Q1 Fa. induction s1 as [|[k c] s1 IHs]; [destruct x as [k c]; cbn [app search fst] in *; rewrite Q1; reflexivity|].
      cbn [app search]. pose proof (Fa (k, c) (or_introl eq_refl)) as F0. cbn [fst] in F0. rewrite F0. rewrite IHs; [reflexivity|]. intros y I. apply Fa. right. exact I. }
    cbn [child] in *. rewrite S0. rewrite nth_mid. destruct x as [k c]. cbn [fst snd] in *. rewrite Q. rewrite put_1. cbn [app].
    eexists. split; [reflexivity|]. inversion Sb as [|u v Sb1 Sb2]; subst. split; [|split; [|split; [|split; [apply fl_0|reflexivity]]]].
    + cbn [ok]. apply srt_app. split; [exact Sa|]. split; [constructor; [exact Sb1|apply Forall_forall; exact Nx]|].
      intros y z I [<-|J]; [|apply C; [exact I|right; exact J]]. cbn [fst]. apply (lt_le_trans _ k); [apply (C y (k, c)); [exact I|left; reflexivity]|].
      apply (le_trans _ old); [exact Q2|exact Le].
    + rewrite !app_length. reflexivity.
    + intros B Bd Ln k' Lk. destruct s2 as [|z s2]; [rewrite lastk_snoc in Lk; injection Lk as <-; exact Ln|].
      apply Bd. rewrite <- Lk. rewrite !lastk_app by discriminate. reflexivity.
  - cbn [update_loop]. cbv zeta.
    destruct (search_split _ (fun k => lt k old) t) as [(S0 & F)|(a & k & c & b & Et & S0 & F & Nk)]; rewrite Forall_forall in F.
    { exfalso. assert (I : In x (fl (S h) t)) by (rewrite E; apply in_or_app; right; left; reflexivity). rewrite fl_S in I. apply flat_in in I.
      destruct I as (n & I1 & I2). destruct O as (Fo & Oo). pose proof (node_bounds h t n x Fo Oo I1 I2) as Ln.
      pose proof (le_lt_trans _ _ _ Ln (F n I1)) as Z. rewrite Z in Q1. discriminate Q1. }
    rewrite S0. subst t. rewrite nth_mid. fold (le old k) in Nk.
    destruct (parts h a [(k, c)] b O) as (G & Or & Ha & Hb & HaB & _). pose proof (Forall_inv G) as G1. cbn [ord] in Or. destruct Or as (Bd & _).
    assert (Xo : le old (fst x) /\ le (fst x) old) by (unfold le; auto). destruct Xo as (Xo1 & Xo2).
    rewrite fl_mid in E.
    destruct (locate _ _ _ _ _ E) as (u1 & -> & E2).
    { intros y I. apply flat_in in I. destruct I as (n & I1 & I2). apply (le_lt_trans _ (fst n)); [apply (HaB n y I1 I2)|]. apply (lt_le_trans _ old); [apply F; exact I1|exact Xo1]. }
    assert (Kb : forall y, In y (flat h b) -> lt k (fst y) = true) by (intros y I; apply (Hb (k, c) y); [left; reflexivity|exact I]).
    destruct (locate_r _ _ _ _ _ E2) as (u2 & -> & Ec).
    { intros y I. apply (le_lt_trans _ old); [exact Xo2|]. apply (le_lt_trans _ k); [exact Nk|apply Kb; exact I]. }
    destruct (IH old new c u1 x u2) as (c' & -> & Oc & Lc & Kc & Fc & Lv); [apply G1|exact Ec|exact Q|exact Le|intros y I; apply Nx; apply in_or_app; left; exact I|].
    rewrite put_1. cbn [app]. set (k' := if keq K lt k old || lt k new then new else k).
    assert (K1 : le new k' /\ le k k' /\ (forall y, In y (flat h b) -> lt k' (fst y) = true)).
    { unfold k'. destruct (keq K lt k old) eqn:Ek; cbn [orb].
      - apply keq_iff in Ek. split; [apply le_refl|]. split; [|intros y I; apply Nx; apply in_or_app; right; exact I].
        apply (le_trans _ old); [exact (proj2 Ek)|exact Le].
      - destruct (lt k new) eqn:En; [|split; [exact En|split; [apply le_refl|exact Kb]]].
        split; [apply le_refl|]. split; [apply lt_le; exact En|intros y I; apply Nx; apply in_or_app; right; exact I]. }
    destruct K1 as (K1 & K2 & K3).
    eexists. split; [reflexivity|]. split; [|split; [|split; [|split]]].
    + apply (replace_ok h a [(k, c)] b [(k', c')] O).
      * constructor; [|constructor]. split; [cbn [snd]; destruct G1 as (G1 & _); cbn [snd] in G1; unfold KslModel.blk in *; lia|exact Oc].
      * cbn [ord]. split; [|split; [intros y []|exact Logic.I]]. apply Kc; [|exact K1]. intros k0 L0. apply (le_trans _ k); [apply Bd; exact L0|exact K2].
      * intros n y I J. rewrite flat_1, Fc in J. apply in_app_or in J. destruct J as [J|[<-|J]].
        -- apply (Ha n y I). rewrite flat_1, Ec. apply in_or_app. left. exact J.
        -- cbn [fst]. apply (lt_le_trans _ old); [apply F; exact I|exact Le].
        -- apply (Ha n y I). rewrite flat_1, Ec. apply in_or_app. right. right. exact J.
      * intros n y [<-|[]] J. apply K3. exact J.
    + rewrite !app_length. reflexivity.
    + intros B Bt Ln k0 L0. destruct b as [|z b].
      * rewrite lastk_snoc in L0. cbn [fst] in L0. injection L0 as <-. unfold k'. destruct (keq K lt k old || lt k new); [exact Ln|]. apply Bt. apply lastk_snoc.
      * apply Bt. rewrite <- L0. change (a ++ (k', c') :: z :: b) with (a ++ [(k', c')] ++ z :: b). change (a ++ (k, c) :: z :: b) with (a ++ [(k, c)] ++ z :: b).
        rewrite !app_assoc, !lastk_app by discriminate. reflexivity.
    + rewrite fl_mid, Fc, <- !app_assoc. reflexivity.
    + rewrite !leaves_mid, !app_length, Lv. reflexivity.
Qed.

(* ---- removal at a place ---- *)
Lemma remove_at_ok : forall h (t : blk h) pre l1 x l2 post, ok h t -> leaves h t = pre ++ (l1 ++ x :: l2) :: post ->
  MIN_NBLK < length (l1 ++ x :: l2) ->
  let t' := remove_at K D h (length pre) (length l1) t in
  ok h t' /\ leaves h t' = pre ++ (l1 ++ l2) :: post /\ (match h with O => length t = S (length t') | _ => length t' = length t end) /\
  (forall B, bounded B t -> bounded B t').
Proof.
  induction h as [|h IH]; intros t pre l1 x l2 post O E L.
  - cbn [KslModel.leaves] in E. destruct pre as [|p pre]; [|destruct pre; discriminate E]. cbn [app] in E. injection E as E Ep. subst t post.
    cbn [remove_at length]. cbv zeta. assert (Er : remove_node (l1 ++ x :: l2) (length l1) = l1 ++ l2) by (unfold remove_node; rewrite put_1; reflexivity).
    cbn [child] in *. rewrite Er. assert (Oab : ok 0 (l1 ++ l2)).
    { cbn [ok] in *. apply srt_app in O. destruct O as (Sa & Sb & C). apply srt_app. split; [exact Sa|]. inversion Sb; subst. split; [assumption|].
      intros y z I J. apply C; [exact I|right; exact J]. }
    split; [exact Oab|]. split; [reflexivity|]. split; [rewrite !app_length; cbn [length]; lia|].
    intros B Bd k' Lk. destruct (lastk_some _ (l1 ++ l2) (lastk_ne _ _ _ Lk)) as (l' & k2 & c2 & E2 & Lk2). rewrite Lk in Lk2. injection Lk2 as <-.
    apply (last_bounds 0 (l1 ++ x :: l2) B O Bd (k', c2)). rewrite fl_0.
    assert (I : In (k', c2) (l1 ++ l2)) by (rewrite E2; apply in_or_app; right; left; reflexivity).
    apply in_app_or in I. apply in_or_app. destruct I as [I|I]; [left; exact I|right; right; exact I].
  - cbv zeta.
    set (go := fix go (l : blk (S h)) (n : nat) : blk (S h) := match l with [] => [] | (k, c) :: r => if n <? nleaves K D h c then (k, remove_at K D h n (length l1) c) :: r else (k, c) :: go r (n - nleaves K D h c) end).
    change (remove_at K D (S h) (length pre) (length l1) t) with (go t (length pre)).
    (* the node that holds the leaf *)
    assert (W : forall (t : blk (S h)) pre, leaves (S h) t = pre ++ (l1 ++ x :: l2) :: post ->
      exists (a b : blk (S h)) k (c : ch h) pre', t = a ++ (k, c) :: b /\ leaves h c = pre' ++ (l1 ++ x :: l2) :: firstn (length (leaves h c) - S (length pre')) post /\
        pre = leaves (S h) a ++ pre' /\ firstn (length (leaves h c) - S (length pre')) post ++ leaves (S h) b = post /\
        go t (length pre) = a ++ (k, remove_at K D h (length pre') (length l1) c) :: b).
    { clear t pre O E. induction t as [|[k c] t IHt]; intros pre E; [destruct pre; discriminate E|].
      rewrite leaves_cons in E. cbn [go]. fold go. unfold nleaves. destruct (Nat.ltb_spec (length pre) (length (leaves h c))) as [Lp|Lp].
      - exists [], t, k, c, pre. split; [reflexivity|].
        assert (Ec : leaves h c = firstn (length (leaves h c)) (pre ++ (l1 ++ x :: l2) :: post)) by (rewrite <- E, firstn_mid; reflexivity).
        assert (Et : leaves (S h) t = skipn (length (leaves h c)) (pre ++ (l1 ++ x :: l2) :: post)) by (rewrite <- E, skipn_app, Nat.sub_diag, skipn_all; reflexivity).
        set (n := length (leaves h c)) in *. replace n with (length pre + S (n - S (length pre))) in Ec, Et by lia.
        rewrite firstn_app_2 in Ec. cbn [firstn] in Ec.
        rewrite skipn_app in Et. rewrite skipn_all2 in Et by lia. replace (length pre + S (n - S (length pre)) - length pre) with (S (n - S (length pre))) in Et by lia. cbn [skipn app] in Et.
        split; [exact Ec|]. split; [reflexivity|]. split; [|reflexivity]. rewrite Et. apply firstn_skipn.
      - assert (Ep : pre = leaves h c ++ skipn (length (leaves h c)) pre).
        { rewrite <- (firstn_skipn (length (leaves h c)) pre) at 1. f_equal.
          assert (Z : firstn (length (leaves h c)) (leaves h c ++ leaves (S h) t) = firstn (length (leaves h c)) (pre ++ (l1 ++ x :: l2) :: post)) by (rewrite E; reflexivity).
          rewrite firstn_mid, firstn_app in Z. replace (length (leaves h c) - length pre) with 0 in Z by lia. cbn [firstn] in Z. rewrite app_nil_r in Z. symmetry. exact Z. }
        set (pre2 := skipn (length (leaves h c)) pre) in *. clearbody pre2. subst pre. rewrite <- app_assoc in E. apply app_inv_head in E.
        destruct (IHt pre2 E) as (a & b & k' & c' & pre' & -> & A1 & -> & A3 & A4).
        exists ((k, c) :: a), b, k', c', pre'. split; [reflexivity|]. split; [exact A1|]. split; [rewrite leaves_cons, <- app_assoc; reflexivity|]. split; [exact A3|].
        rewrite app_length. replace (length (leaves h c) + length (leaves (S h) a ++ pre') - length (leaves h c)) with (length (leaves (S h) a ++ pre')) by lia.
        rewrite A4. reflexivity. }
    destruct (W t pre E) as (a & b & k & c & pre' & -> & Ec & -> & Ep & ->). clear W go.
    destruct (parts h a [(k, c)] b O) as (G & Or & Ha & Hb & _). pose proof (Forall_inv G) as G1. cbn [ord] in Or. destruct Or as (Bd & _).
    destruct (IH c _ _ _ _ _ (proj2 G1) Ec L) as (O2 & L2 & S2 & B2).
    set (c' := remove_at K D h (length pre') (length l1) c) in *.
    assert (Cc : forall y, In y (fl h c') -> In y (fl h c)).
    { intros y I. unfold fl in *. rewrite L2 in I. rewrite Ec. rewrite concat_app in *. cbn [concat] in *. rewrite !in_app_iff in *. cbn [In]. tauto. }
    split; [|split; [|split; [rewrite !app_length; reflexivity|]]].
    + apply (replace_ok h a [(k, c)] b [(k, c')] O).
      * constructor; [|constructor]. split; [|exact O2]. cbn [snd]. destruct G1 as (G1 & _). cbn [snd] in G1.
        destruct h as [|h].
        -- cbn [KslModel.leaves] in Ec. destruct pre' as [|p pre']; [|destruct pre'; discriminate Ec]. cbn [app] in Ec. injection Ec as Ec.
           assert (Z : len 0 c = length (l1 ++ x :: l2)) by (rewrite Ec; reflexivity). unfold KslModel.blk in *. cbn [child] in *. lia.
        -- unfold KslModel.blk in *. lia.
      * cbn [ord]. split; [apply B2; exact Bd|]. split; [intros y []|exact Logic.I].
      * intros n y I J. rewrite flat_1 in J. apply (Ha n y I). rewrite flat_1. apply Cc. exact J.
      * intros n y [<-|[]] J. apply (Hb (k, c) y); [left; reflexivity|exact J].
    + rewrite leaves_mid, L2, <- !app_assoc. cbn [app]. rewrite Ep. reflexivity.
    + intros B Bt k0 L0. apply Bt. rewrite <- L0. apply lastk_replace.
Qed.
End P.
