(* Generic lemmas about the conventions of Base.v. *)
From Verif Require Import Base.
From Coq Require Import Zify ZifyNat.
Ltac Zify.zify_post_hook ::= Z.div_mod_to_equations.

Lemma zlen_nil A : zlen (@nil A) = 0. Proof. reflexivity. Qed.
Lemma zlen_cons A (x : A) l : zlen (x :: l) = 1 + zlen l.
Proof. unfold zlen; cbn [length]; lia. Qed.
Lemma zlen_app A (a b : list A) : zlen (a ++ b) = zlen a + zlen b.
Proof. unfold zlen; rewrite app_length; lia. Qed.
Lemma zlen_nonneg A (l : list A) : 0 <= zlen l.
Proof. unfold zlen; lia. Qed.
Lemma zlen_length A (l : list A) : Z.to_nat (zlen l) = length l.
Proof. unfold zlen; lia. Qed.
Lemma zlen_0 A (l : list A) : zlen l = 0 -> l = [].
Proof. destruct l; [auto|rewrite zlen_cons; pose proof (zlen_nonneg A l); lia]. Qed.

Lemma bytes_app a b : bytes (a ++ b) <-> bytes a /\ bytes b.
Proof. unfold bytes; apply Forall_app. Qed.
Lemma bytes_cons x l : bytes (x :: l) <-> is_byte x /\ bytes l.
Proof. unfold bytes; split; [inversion 1; auto | intros [? ?]; constructor; auto]. Qed.
Lemma bytes_nil : bytes []. Proof. constructor. Qed.
Lemma bytes_firstn n l : bytes l -> bytes (firstn n l).
Proof. unfold bytes; revert l; induction n; intros [|x l] H; cbn; try constructor; inversion H; subst; auto. Qed.
Lemma bytes_skipn n l : bytes l -> bytes (skipn n l).
Proof. unfold bytes; revert l; induction n; intros [|x l] H; cbn; auto; inversion H; subst; auto. Qed.
Lemma is_byteb_spec b : is_byteb b = true <-> is_byte b.
Proof. unfold is_byteb, is_byte; lia. Qed.

Lemma be_val_acc l a : fold_left (fun a b => a * 256 + b) l a = a * 256 ^ zlen l + be_val l.
Proof.
  unfold be_val; revert a; induction l as [|x l IH]; intros a; cbn [fold_left].
  - rewrite zlen_nil; lia.
  - rewrite (IH (a*256+x)), (IH (0*256+x)), zlen_cons.
    rewrite Z.pow_add_r by (pose proof (zlen_nonneg Z l); lia). lia.
Qed.
Lemma be_val_cons x l : be_val (x :: l) = x * 256 ^ zlen l + be_val l.
Proof. unfold be_val at 1; cbn [fold_left]; rewrite be_val_acc; lia. Qed.
Lemma be_val_app a b : be_val (a ++ b) = be_val a * 256 ^ zlen b + be_val b.
Proof. unfold be_val at 1; rewrite fold_left_app; apply be_val_acc. Qed.
Lemma be_val_nil : be_val [] = 0. Proof. reflexivity. Qed.
Lemma be_val_range l : bytes l -> 0 <= be_val l < 256 ^ zlen l.
Proof.
  induction l as [|x l IH]; intros H.
  - rewrite be_val_nil, zlen_nil; cbn; lia.
  - apply bytes_cons in H as [Hx Hl]; specialize (IH Hl); unfold is_byte in Hx.
    rewrite be_val_cons, zlen_cons, Z.pow_add_r by (pose proof (zlen_nonneg Z l); lia).
    change (256^1) with 256. nia.
Qed.

Lemma take_exact_spec A n (l : list A) a r :
  take_exact n l = Some (a, r) <-> l = a ++ r /\ length a = n.
Proof.
  revert l a r; induction n as [|n IH]; intros l a r; cbn [take_exact].
  - split; [intros [= <- <-]; auto | intros [-> H]; destruct a; [auto|discriminate]].
  - destruct l as [|x l]; [split; [discriminate|intros [H1 H2]; destruct a; discriminate]|].
    destruct (take_exact n l) as [[a' r']|] eqn:E.
    + apply IH in E as [-> Hl]; split.
      * intros [= <- <-]; cbn; auto.
      * intros [H1 H2]; destruct a as [|y a]; [discriminate|].
        cbn in H1, H2; injection H1 as <- H1; injection H2 as H2.
        assert (a' = a /\ r' = r) as [-> ->]; [|reflexivity].
        assert (take_exact (length a) (a ++ r) = Some (a, r)) as E1 by (rewrite H2; apply IH; auto).
        assert (take_exact (length a) (a ++ r) = Some (a', r')) as E2
          by (rewrite H2, <- H1; apply IH; auto).
        rewrite E1 in E2; injection E2; auto.
    + split; [discriminate|]. intros [H1 H2]; destruct a as [|y a]; [discriminate|].
      cbn in H1, H2; injection H1 as <- H1; injection H2 as H2.
      assert (take_exact n l = Some (a, r)) by (apply IH; auto). congruence.
Qed.
Lemma take_exact_app A (a r : list A) : take_exact (length a) (a ++ r) = Some (a, r).
Proof. apply take_exact_spec; auto. Qed.
Lemma take_exact_None A n (l : list A) : take_exact n l = None <-> (length l < n)%nat.
Proof.
  destruct (take_exact n l) as [[a r]|] eqn:E.
  - apply take_exact_spec in E as [-> <-]; rewrite app_length; split; [discriminate|lia].
  - split; [intros _|auto].
    destruct (Nat.ltb_spec (length l) n); [auto|exfalso].
    assert (take_exact n l = Some (firstn n l, skipn n l)) as E2; [|congruence].
    apply take_exact_spec; rewrite firstn_skipn, firstn_length; split; [auto|lia].
Qed.
Lemma take_exact_firstn A n (l : list A) :
  (n <= length l)%nat -> take_exact n l = Some (firstn n l, skipn n l).
Proof. intros H; apply take_exact_spec; rewrite firstn_skipn, firstn_length; split; [auto|lia]. Qed.

Lemma be_bytes_length k n : length (be_bytes k n) = k.
Proof. induction k; cbn; auto. Qed.
Lemma be_bytes_bytes k n : bytes (be_bytes k n).
Proof.
  induction k; cbn [be_bytes]; [constructor|].
  constructor; [|apply IHk]. unfold is_byte; lia.
Qed.
Lemma be_val_be_bytes k n : 0 <= n -> be_val (be_bytes k n) = n mod 256 ^ Z.of_nat k.
Proof.
  intros Hn; induction k as [|k IH]; cbn [be_bytes].
  - cbn. rewrite Z.mod_1_r; reflexivity.
  - rewrite be_val_cons, IH. unfold zlen; rewrite be_bytes_length.
    replace (Z.of_nat (S k)) with (Z.of_nat k + 1) by lia.
    rewrite Z.pow_add_r by lia. change (256^1) with 256.
    assert (0 < 256 ^ Z.of_nat k) as Hp by (apply Z.pow_pos_nonneg; lia).
    rewrite Z.rem_mul_r by lia. lia.
Qed.

Lemma list_eqb_spec (l1 l2 : list Z) :
  (if list_eq_dec Z.eq_dec l1 l2 then true else false) = true <-> l1 = l2.
Proof. destruct (list_eq_dec Z.eq_dec l1 l2); split; congruence. Qed.

(* injection without the simplification that [injection] performs *)
Lemma some_pair_inj A B (a c : A) (b d : B) : Some (a, b) = Some (c, d) -> a = c /\ b = d.
Proof. intros H; injection H; auto. Qed.
