(* Integers and strings of RFC 9204 4.1 against the readers of the code. *)
From Verif Require Import Base BaseLemmas QpackIntModel QpackIntSpec QpackIntProofs HuffModel HuffSpec HuffProofs
  QpackTabModel QpackDecModel QpackReadProofs RfcQpackSpec.
Open Scope Z_scope.

Lemma int_cases N p : 1 <= N <= 8 -> bytes p -> p <> [] ->
  match q_read_varint N 0 0 p with
  | Ok (v, s, rest, true) => an_int N p v rest /\ 0 <= v /\ bytes rest /\ (length rest < length p)%nat
  | Ok (_, _, _, false) => forall v r, ~ an_int N p v r
  | Err _ => forall x v r, bytes x -> ~ an_int N (p ++ x) v r
  | Abort => False
  end.
Proof.
  intros HN B Hne. pose proof (q_read_split N 0 0 p HN B Hne rs_ok_0) as Q.
  destruct (q_read_varint N 0 0 p) as [[[[v s] rest] [|]]|e|] eqn:E.
  - destruct Q as (R & Br & L & _). split; [|split; [lia|auto]]. apply (proj1 (q_read_varint_rfc N p v rest HN B)). eauto.
  - intros v' r A. apply (proj2 (q_read_varint_rfc N p v' r HN B)) in A. destruct A as (s' & A). congruence.
  - intros x v' r Bx A. destruct Q as (_ & Q). specialize (Q x).
    assert (Bp : bytes (p ++ x)) by (apply bytes_app; auto).
    apply (proj2 (q_read_varint_rfc N (p ++ x) v' r HN Bp)) in A. destruct A as (s' & A). congruence.
  - exact Q.
Qed.
Lemma an_int_fun N l v r v' r' : an_int N l v r -> an_int N l v' r' -> v = v' /\ r = r'.
Proof. intros (A & _) (B & _). rewrite A in B. injection B; auto. Qed.
Lemma rfc_cont_app l : forall v r x, rfc_int_cont l = Some (v, r) -> rfc_int_cont (l ++ x) = Some (v, r ++ x).
Proof.
  induction l as [|b l IH]; intros v r x; cbn; [discriminate|]. destruct (b <? 128); [congruence|].
  destruct (rfc_int_cont l) as [[v' r']|]; [|discriminate]. rewrite (IH v' r' x eq_refl). congruence.
Qed.
Lemma an_int_app N l v r x : an_int N l v r -> an_int N (l ++ x) v (r ++ x).
Proof.
  intros (A & B & C). split; [|split; [exact B|rewrite !zlen_app; lia]].
  revert A. destruct l as [|b l]; cbn [rfc_int app]; [discriminate|]. destruct (b mod 2 ^ N <? 2 ^ N - 1); [congruence|].
  destruct (rfc_int_cont l) as [[v' r']|] eqn:E; [|discriminate]. rewrite (rfc_cont_app _ _ _ x E). congruence.
Qed.
Lemma an_int_nil N v r : ~ an_int N [] v r.
Proof. intros (A & _). discriminate. Qed.
Lemma a_string_nil N m s r : ~ a_string N m [] s r.
Proof. intros (b & t & raw & A & _). discriminate. Qed.

Lemma firstn_raw (raw r : list Z) : firstn (Z.to_nat (zlen raw)) (raw ++ r) = raw /\ skipn (Z.to_nat (zlen raw)) (raw ++ r) = r.
Proof.
  rewrite zlen_length, firstn_app, skipn_app, firstn_all, skipn_all, Nat.sub_diag. cbn. rewrite app_nil_r. auto.
Qed.
Lemma str_cases huf n fs rest : 0 <= n -> bytes rest -> (huf = true -> fs = huff_init) ->
  match read_str huf n fs [] (if huf then n * 2 else n) rest with
  | Ok (lft, _, s, r) =>
    if lft =? 0 then exists raw, rest = raw ++ r /\ zlen raw = n /\ (if huf then huff_represents raw s else s = raw) /\ bytes s /\ bytes r
    else zlen rest < n
  | Err _ => huf = true /\ forall x raw r s, bytes x -> rest ++ x = raw ++ r -> zlen raw = n -> ~ huff_represents raw s
  | Abort => False
  end.
Proof.
  intros Hn B Hf.
  assert (SO : str_ok huf n fs [] (if huf then n * 2 else n)).
  { pose proof (str_ok_init huf n fs Hn) as S. destruct huf; [rewrite (Hf eq_refl); exact S|exact S]. }
  pose proof (read_str_split huf n fs [] _ rest B SO) as Q.
  assert (HF : forall p fs' s r, huf = true -> bytes p -> read_str true n huff_init [] (n * 2) p = Ok (0, fs', s, r) -> n <= zlen p ->
    huff_represents (firstn (Z.to_nat n) p) s).
  { intros p fs' s r _ Bp. unfold read_str. intros R Ln. pose proof (feed_huffman_full [p] n) as F. cbn [concat] in F.
    rewrite app_nil_r in F. specialize (F Bp ltac:(discriminate) ltac:(lia)). cbn [feed_huffman_string] in F.
    destruct (read_huffman_string n huff_init p) as [[[[l' f'] o'] r']|e|]; try discriminate.
    cbn [app] in *. destruct (zlen o' >? n * 2); [discriminate|]. injection R as -> -> -> ->. cbn in F. apply F. }
  assert (HE : forall p e s, huf = true -> bytes p -> read_str true n huff_init [] (n * 2) p = Err e -> n <= zlen p ->
    ~ huff_represents (firstn (Z.to_nat n) p) s).
  { intros p e s _ Bp. unfold read_str. intros R Ln. pose proof (feed_huffman_full [p] n) as F. cbn [concat] in F.
    rewrite app_nil_r in F. specialize (F Bp ltac:(discriminate) ltac:(lia)). cbn [feed_huffman_string] in F.
    destruct (read_huffman_string n huff_init p) as [[[[l' f'] o'] r']|e'|]; try discriminate.
    - cbn [app] in *. destruct (zlen o' >? n * 2); discriminate.
    - apply F. }
  destruct (read_str huf n fs [] (if huf then n * 2 else n) rest) as [[[[lft fs'] s] r]|e|] eqn:R.
  - destruct (Z.eqb_spec lft 0) as [->|Hl].
    + destruct Q as (Bs & Er & Ln & _). exists (firstn (Z.to_nat n) rest).
      assert (Br : bytes r) by (subst r; apply bytes_skipn; exact B).
      split; [subst r; symmetry; apply firstn_skipn|]. split; [apply zlen_firstn_eq; lia|].
      split; [|auto]. destruct huf.
      * rewrite (Hf eq_refl) in R. exact (HF _ _ _ _ eq_refl B R Ln).
      * revert R. unfold read_str. rewrite Z.min_r by lia. cbn [app]. destruct (_ >? _); [discriminate|]. congruence.
    + destruct Q as (_ & _ & Hp & _). revert R. unfold read_str, read_huffman_string.
      destruct (Z.geb_spec (zlen rest) n) as [G|G]; destruct huf; intros R.
      * destruct (huff_decode _ _ _) as [[f o]|e|]; try discriminate. destruct (huff_failure f); [discriminate|].
        destruct (_ >? _); [discriminate|]. injection R as E1 _ _ _. lia.
      * destruct (_ >? _); [discriminate|]. injection R as E1 _ _ _. lia.
      * lia.
      * lia.
  - destruct huf; [|exfalso; revert R; unfold read_str; destruct (_ >? _); discriminate].
    split; [reflexivity|]. intros x raw r s Bx E L. destruct (Q x Bx) as (e' & Q').
    rewrite (Hf eq_refl) in Q'. assert (Bp : bytes (rest ++ x)) by (apply bytes_app; auto).
    assert (Ln : n <= zlen (rest ++ x)) by (rewrite E, zlen_app; pose proof (zlen_nonneg _ r); lia).
    pose proof (HE _ _ s eq_refl Bp Q' Ln) as H. rewrite E in H. rewrite <- L in H. rewrite (proj1 (firstn_raw raw r)) in H. exact H.
  - exact Q.
Qed.

Lemma land_testbit b N : 0 <= N -> negb (Z.land b (2 ^ N) =? 0) = Z.testbit b N.
Proof.
  intros HN. destruct (Z.testbit b N) eqn:T.
  - destruct (Z.eqb_spec (Z.land b (2 ^ N)) 0) as [E|E]; [|reflexivity].
    assert (Z.testbit (Z.land b (2 ^ N)) N = true) by (rewrite Z.land_spec, T, Z.pow2_bits_true; auto). rewrite E, Z.bits_0 in H. discriminate.
  - assert (E : Z.land b (2 ^ N) = 0).
    { apply Z.bits_inj'. intros k Hk. rewrite Z.land_spec, Z.bits_0. destruct (Z.eq_dec k N) as [->|Hn]; [rewrite T; reflexivity|].
      rewrite Z.pow2_bits_false by auto. apply andb_false_r. }
    rewrite E. reflexivity.
Qed.

(* a string whose length has just been read *)
Lemma string_cases N max b t fs : 1 <= N <= 7 -> bytes (b :: t) ->
  let p := b :: t in
  let huf := negb (Z.land b (2 ^ N) =? 0) in
  match q_read_varint N 0 0 p with
  | Ok (n, _, rest, true) =>
    bytes rest /\ 0 <= n /\ (length rest < length p)%nat /\
    if n >? max then forall x s r, bytes x -> ~ a_string N max (p ++ x) s r
    else match read_str huf n (if huf then huff_init else fs) [] (if huf then n * 2 else n) rest with
         | Ok (lft, _, s, r) =>
           if lft =? 0 then a_string N max p s r /\ bytes s /\ bytes r
           else forall s r, ~ a_string N max p s r
         | Err _ => forall x s r, bytes x -> ~ a_string N max (p ++ x) s r
         | Abort => False
         end
  | Ok (_, _, _, false) => forall s r, ~ a_string N max p s r
  | Err _ => forall x s r, bytes x -> ~ a_string N max (p ++ x) s r
  | Abort => False
  end.
Proof.
  intros HN B p huf. pose proof (int_cases N p ltac:(lia) B ltac:(discriminate)) as Q.
  destruct (q_read_varint N 0 0 p) as [[[[n sh] rest] [|]]|e|].
  - destruct Q as (A & Hn & Br & L). split; [exact Br|]. split; [exact Hn|]. split; [exact L|].
    assert (U : forall x s r, a_string N max (p ++ x) s r -> exists raw, rest ++ x = raw ++ r /\ zlen raw = n /\ n <= max /\ if huf then huff_represents raw s else s = raw).
    { intros x s r (b' & t' & raw & E & A' & M & S). injection E as <- <-.
      destruct (an_int_fun _ _ _ _ _ _ (an_int_app _ _ _ _ x A) A') as (-> & E2). exists raw. split; [exact E2|].
      split; [reflexivity|]. split; [exact M|]. unfold huf. rewrite land_testbit by lia. exact S. }
    destruct (Z.gtb_spec n max) as [G|G].
    + intros x s r _ A'. destruct (U _ _ _ A') as (raw & _ & _ & M & _). lia.
    + pose proof (str_cases huf n (if huf then huff_init else fs) rest Hn Br ltac:(intros ->; reflexivity)) as S.
      destruct (read_str huf n _ [] _ rest) as [[[[lft fs'] s] r]|e|].
      * destruct (lft =? 0).
        -- destruct S as (raw & E & L' & V & Bs & Br'). split; [|auto]. exists b, t, raw. split; [reflexivity|].
           rewrite L', <- E. split; [exact A|]. split; [exact G|]. unfold huf in V. rewrite land_testbit in V by lia. exact V.
        -- intros s' r' A'. destruct (U [] s' r') as (raw & E & L' & _); [rewrite app_nil_r; exact A'|].
           rewrite app_nil_r in E. rewrite E, zlen_app in S. pose proof (zlen_nonneg _ r'). lia.
      * destruct S as (Hh & S). intros x s r Bx A'. destruct (U _ _ _ A') as (raw & E & L' & _ & V). rewrite Hh in V.
        exact (S x raw r s Bx E L' V).
      * exact S.
  - intros s r (b' & t' & raw & E & A & _). exact (Q _ _ A).
  - intros x s r Bx (b' & t' & raw & E & A & _). exact (Q _ _ _ Bx A).
  - exact Q.
Qed.
Lemma a_string_app N max l s r x : a_string N max l s r -> a_string N max (l ++ x) s (r ++ x).
Proof.
  intros (b & t & raw & -> & A & M & S). exists b, (t ++ x), raw. split; [reflexivity|]. split; [|auto].
  rewrite app_assoc. exact (an_int_app _ _ _ _ x A).
Qed.
Lemma rfc_cont_len l : forall v r, rfc_int_cont l = Some (v, r) -> (length r < length l)%nat.
Proof.
  induction l as [|b l IH]; intros v r; cbn; [discriminate|]. destruct (b <? 128); [intros [= _ <-]; lia|].
  destruct (rfc_int_cont l) as [[v' r']|]; [|discriminate]. intros [= _ <-]. specialize (IH v' r' eq_refl). lia.
Qed.
Lemma an_int_len N l v r : an_int N l v r -> (length r < length l)%nat.
Proof.
  intros (A & _). destruct l as [|b l]; cbn [rfc_int] in A; [discriminate|]. destruct (b mod 2 ^ N <? 2 ^ N - 1); [injection A as _ <-; cbn; lia|].
  destruct (rfc_int_cont l) as [[v' r']|] eqn:E; [|discriminate]. injection A as _ <-. apply rfc_cont_len in E. cbn. lia.
Qed.
Lemma a_string_len N m l s r : a_string N m l s r -> (length r < length l)%nat.
Proof. intros (b & t & raw & -> & A & _). apply an_int_len in A. rewrite app_length in A. lia. Qed.
Lemma rfc_cont_suffix l : forall v r, rfc_int_cont l = Some (v, r) -> exists g, l = g ++ r.
Proof.
  induction l as [|b l IH]; intros v r; cbn; [discriminate|]. destruct (b <? 128); [intros [= _ <-]; exists [b]; reflexivity|].
  destruct (rfc_int_cont l) as [[v' r']|]; [|discriminate]. intros [= _ <-]. destruct (IH v' r' eq_refl) as (g & ->). exists (b :: g). reflexivity.
Qed.
Lemma an_int_suffix N l v r : an_int N l v r -> exists g, l = g ++ r.
Proof.
  intros (A & _). destruct l as [|b l]; cbn [rfc_int] in A; [discriminate|]. destruct (b mod 2 ^ N <? 2 ^ N - 1); [injection A as _ <-; exists [b]; reflexivity|].
  destruct (rfc_int_cont l) as [[v' r']|] eqn:E; [|discriminate]. injection A as _ <-. destruct (rfc_cont_suffix _ _ _ E) as (g & ->). exists (b :: g). reflexivity.
Qed.
Lemma an_int_bytes N l v r : bytes l -> an_int N l v r -> bytes r.
Proof. intros B A. destruct (an_int_suffix _ _ _ _ A) as (g & ->). apply bytes_app in B. apply B. Qed.
Lemma huff_fun raw s s' : bytes raw -> huff_represents raw s -> huff_represents raw s' -> s = s'.
Proof.
  intros B A A'. apply huff_decode_iff in A; [|exact B]. apply huff_decode_iff in A'; [|exact B].
  destruct A as (f & A), A' as (f' & A'). congruence.
Qed.
Lemma a_string_fun N m l s r s' r' : bytes l -> a_string N m l s r -> a_string N m l s' r' -> s = s' /\ r = r'.
Proof.
  intros B (b & t & raw & E & A & _ & S) (b' & t' & raw' & E' & A' & _ & S'). rewrite E in E'. injection E' as <- <-.
  destruct (an_int_fun _ _ _ _ _ _ A A') as (L & Er).
  assert (raw = raw').
  { pose proof (firstn_raw raw r) as (X1 & _). pose proof (firstn_raw raw' r') as (X2 & _). rewrite L, Er in X1. congruence. }
  subst raw'. apply app_inv_head in Er. split; [|exact Er]. destruct (Z.testbit b N); [|congruence].
  apply (an_int_bytes _ _ _ _ B) in A. apply bytes_app in A. exact (huff_fun _ _ _ (proj1 A) S S').
Qed.
