From Verif Require Import Base BaseLemmas QpackIntModel QpackIntSpec ConvProofs.
From Coq Require Import Zify ZifyNat.
Ltac Zify.zify_post_hook ::= Z.div_mod_to_equations.

Lemma land127 b : Z.land b 127 = b mod 128.
Proof. change 127 with (Z.ones 7). rewrite Z.land_ones by lia. reflexivity. Qed.
Lemma land128 b : is_byte b -> (Z.land b 128 =? 0) = (b <? 128).
Proof.
  intros H. apply Bool.eqb_prop.
  exact (byte_sweep (fun b => Bool.eqb (Z.land b 128 =? 0) (b <? 128)) ltac:(vm_compute; reflexivity) b H).
Qed.
Lemma land_mask b N : 0 <= N -> Z.land b (2 ^ N - 1) = b mod 2 ^ N.
Proof. intros. rewrite <- Z.land_ones by lia. f_equal. rewrite Z.ones_equiv. lia. Qed.

Lemma pow2_pos n : 0 <= n -> 0 < 2 ^ n.
Proof. intros; apply Z.pow_pos_nonneg; lia. Qed.

Lemma shiftr_lt_iff m s a : 0 <= s -> (Z.shiftr m s <? a) = (m <? a * 2 ^ s).
Proof.
  intros Hs. rewrite Z.shiftr_div_pow2 by lia. pose proof (pow2_pos s Hs).
  set (P := 2 ^ s) in *. clearbody P.
  destruct (Z.ltb_spec (m / P) a), (Z.ltb_spec m (a * P)); auto; exfalso.
  - assert (a <= m / P); [|lia]. apply Z.div_le_lower_bound; lia.
  - assert (m / P < a); [|lia]. apply Z.div_lt_upper_bound; lia.
Qed.

(* One unfolding of the loop without machine arithmetic. *)
Lemma q_loop_cons n shift b t : is_byte b -> 0 <= n <= INT_MAX -> 0 <= shift ->
  q_loop n shift (b :: t) =
  if shift >? 62 then Err ERR_QPACK_FATAL
  else if INT_MAX <? n + b mod 128 * 2 ^ shift then Err ERR_QPACK_FATAL
  else if b <? 128 then Ok (n + b mod 128 * 2 ^ shift, shift, t, true)
  else q_loop (n + b mod 128 * 2 ^ shift) (shift + 7) t.
Proof.
  intros Hb Hn Hs. cbn [q_loop]. rewrite land127, land128 by auto.
  destruct (shift >? 62); [reflexivity|].
  rewrite shiftr_lt_iff by auto.
  set (A := b mod 128 * 2 ^ shift).
  assert (0 <= A) by (subst A; pose proof (pow2_pos shift Hs); nia).
  destruct (Z.ltb_spec INT_MAX A).
  { destruct (Z.ltb_spec INT_MAX (n + A)); [reflexivity|lia]. }
  assert (E : Z.shiftl (b mod 128) shift = A) by (rewrite Z.shiftl_mul_pow2 by lia; reflexivity).
  rewrite E. unfold u64, INT_MAX in *. clearbody A. clear E.
  change (2^64) with 18446744073709551616.
  rewrite (Z.mod_small A) by lia.
  rewrite (Z.mod_small (_ - A)) by lia.
  destruct (Z.ltb_spec (4611686018427387903 - A) n);
  destruct (Z.ltb_spec 4611686018427387903 (n + A)); try lia; try reflexivity.
  rewrite Z.mod_small by lia. reflexivity.
Qed.

(* splitting the loop at any point *)
Lemma q_loop_app a : forall n shift b, bytes a -> 0 <= n <= INT_MAX -> 0 <= shift ->
  q_loop n shift (a ++ b) =
  match q_loop n shift a with
  | Ok (l, s, rest, true) => Ok (l, s, rest ++ b, true)
  | Ok (l, s, rest, false) => q_loop l s b
  | Err e => Err e
  | Abort => Abort
  end.
Proof.
  induction a as [|x a IH]; intros n shift b Hb Hn Hs; [reflexivity|].
  apply bytes_cons in Hb as [Hx Ha]. cbn [app].
  rewrite !q_loop_cons by auto.
  destruct (shift >? 62); [reflexivity|].
  destruct (Z.ltb_spec INT_MAX (n + x mod 128 * 2 ^ shift)); [reflexivity|].
  destruct (x <? 128); [reflexivity|].
  apply IH; auto; pose proof (pow2_pos shift Hs); nia.
Qed.

Lemma q_loop_inv p : forall n shift, bytes p -> 0 <= n <= INT_MAX -> 0 <= shift ->
  match q_loop n shift p with
  | Ok (l, s, rest, fin) => n <= l <= INT_MAX /\ 0 <= s /\
      (if fin then exists c, p = c ++ rest /\ c <> [] else rest = [])
  | Err e => e = ERR_QPACK_FATAL
  | Abort => False
  end.
Proof.
  induction p as [|x p IH]; intros n shift Hb Hn Hs.
  - cbn. repeat split; lia.
  - apply bytes_cons in Hb as [Hx Ha].
    rewrite q_loop_cons by auto.
    destruct (shift >? 62); [reflexivity|].
    pose proof (pow2_pos shift Hs).
    destruct (Z.ltb_spec INT_MAX (n + x mod 128 * 2 ^ shift)); [reflexivity|].
    destruct (x <? 128).
    + repeat split; try lia; try nia. exists [x]; split; [reflexivity|discriminate].
    + specialize (IH (n + x mod 128 * 2 ^ shift) (shift + 7) Ha).
      destruct (q_loop _ _ p) as [[[[l s] rest] fin]|e|]; try (apply IH; nia).
      destruct IH as (H1 & H2 & H3); [nia|lia|].
      repeat split; try nia; try lia. destruct fin; [|auto].
      destruct H3 as (c & -> & _). exists (x :: c); split; [reflexivity|discriminate].
Qed.

Lemma rfc_int_cont_nonneg p : bytes p -> forall v r, rfc_int_cont p = Some (v, r) -> 0 <= v.
Proof.
  induction p as [|b p IH]; cbn [rfc_int_cont]; [discriminate|]. intros Hb v r.
  apply bytes_cons in Hb as [Hb Hp]. unfold is_byte in Hb.
  destruct (Z.ltb_spec b 128); [intros [= <- <-]; lia|].
  destruct (rfc_int_cont p) as [[v' r']|]; [|discriminate].
  intros E; apply some_pair_inj in E as [<- <-]. specialize (IH Hp v' r' eq_refl). lia.
Qed.

(* The loop accepts exactly the RFC continuation whose total does not exceed the
   limit and that uses no group beyond bit 62. *)
Lemma q_loop_rfc p : forall n shift v s rest, bytes p -> 0 <= n <= INT_MAX -> 0 <= shift ->
  (q_loop n shift p = Ok (v, s, rest, true) <->
   exists c, rfc_int_cont p = Some (c, rest) /\ v = n + c * 2 ^ shift /\ v <= INT_MAX /\
     s = shift + 7 * (zlen p - zlen rest - 1) /\ s <= 62).
Proof.
  induction p as [|x p IH]; intros n shift v s rest Hb Hn Hs.
  - cbn. split; [discriminate|intros (c & H & _); discriminate].
  - apply bytes_cons in Hb as [Hx Hp].
    rewrite q_loop_cons by auto. cbn [rfc_int_cont].
    pose proof (pow2_pos shift Hs) as HP. unfold is_byte in Hx.
    destruct (Z.ltb_spec x 128).
    + rewrite Z.mod_small by lia. rewrite zlen_cons.
      destruct (Z.gtb_spec shift 62).
      { split; [discriminate|]. intros (c & [= <- <-] & _ & _ & -> & H'). lia. }
      destruct (Z.ltb_spec INT_MAX (n + x * 2 ^ shift)).
      { split; [discriminate|]. intros (c & [= <- <-] & -> & H' & _). lia. }
      split.
      * intros [= <- <- <-]. exists x. repeat split; try lia.
      * intros (c & [= <- <-] & -> & _ & -> & _). f_equal. f_equal; f_equal. f_equal. lia.
    + replace (x mod 128) with (x - 128) by lia.
      rewrite zlen_cons.
      assert (Hlen : forall c r, rfc_int_cont p = Some (c, r) -> zlen r < zlen p).
      { clear. induction p as [|b p IH]; cbn [rfc_int_cont]; [discriminate|]. intros c r.
        rewrite zlen_cons. destruct (b <? 128); [intros [= <- <-]; lia|].
        destruct (rfc_int_cont p) as [[v' r']|]; [|discriminate].
        intros E; apply some_pair_inj in E as [<- <-]. specialize (IH _ _ eq_refl). lia. }
      destruct (Z.gtb_spec shift 62).
      { split; [discriminate|]. intros (c & E & _ & _ & -> & H').
        destruct (rfc_int_cont p) as [[c' r']|] eqn:Ec; [|discriminate].
        apply some_pair_inj in E as [<- <-]. specialize (Hlen _ _ eq_refl). lia. }
      destruct (Z.ltb_spec INT_MAX (n + (x - 128) * 2 ^ shift)).
      { split; [discriminate|]. intros (c & E & -> & H' & _).
        destruct (rfc_int_cont p) as [[c' r']|] eqn:Ec; [|discriminate].
        apply some_pair_inj in E as [<- <-]. pose proof (rfc_int_cont_nonneg p Hp _ _ Ec). nia. }
      rewrite IH by (auto; nia).
      assert (P7 : 2 ^ (shift + 7) = 128 * 2 ^ shift) by (rewrite Z.pow_add_r by lia; change (2^7) with 128; lia).
      rewrite P7.
      split.
      * intros (c & -> & -> & HA & -> & HB). eexists; split; [reflexivity|]. repeat split; lia.
      * intros (c & E & -> & HA & -> & HB).
        destruct (rfc_int_cont p) as [[c' r']|] eqn:Ec; [|discriminate].
        apply some_pair_inj in E as [<- <-]. exists c'. repeat split; lia.
Qed.

Lemma prefix_k N : 1 <= N <= 8 -> (2 ^ N - 1) mod 256 = 2 ^ N - 1 /\ 1 <= 2 ^ N - 1 <= 255.
Proof.
  intros H. assert (N = 1 \/ N = 2 \/ N = 3 \/ N = 4 \/ N = 5 \/ N = 6 \/ N = 7 \/ N = 8) as D by lia.
  destruct D as [->|[->|[->|[->|[->|[->|[->| ->]]]]]]]; cbn; lia.
Qed.

Lemma q_read_varint_0 N b t : 1 <= N <= 8 ->
  q_read_varint N 0 0 (b :: t) =
  if b mod 2 ^ N <? 2 ^ N - 1 then Ok (b mod 2 ^ N, 0, t, true)
  else match t with [] => Ok (2 ^ N - 1, 0, [], false) | _ => q_loop (2 ^ N - 1) 0 t end.
Proof.
  intros HN. unfold q_read_varint. destruct (prefix_k N HN) as [-> Hk].
  rewrite Z.eqb_refl. rewrite land_mask by lia.
  pose proof (Z.mod_pos_bound b (2 ^ N) ltac:(lia)).
  destruct (Z.eqb_spec (b mod 2 ^ N) (2 ^ N - 1)), (Z.ltb_spec (b mod 2 ^ N) (2 ^ N - 1)); cbn [negb]; try lia; reflexivity.
Qed.

(* C04 reader on contiguous input *)
Lemma q_read_varint_rfc N l v rest : 1 <= N <= 8 -> bytes l ->
  ((exists s, q_read_varint N 0 0 l = Ok (v, s, rest, true)) <->
   rfc_int N l = Some (v, rest) /\ v < 2 ^ 62 /\ zlen l - zlen rest <= 10).
Proof.
  intros HN Hb. destruct l as [|b t].
  { cbn. split; [intros (s & H); discriminate|intros (H & _); discriminate]. }
  rewrite q_read_varint_0 by auto. cbn [rfc_int].
  apply bytes_cons in Hb as [Hb Ht]. rewrite zlen_cons.
  destruct (prefix_k N HN) as [_ Hk].
  change (2^62) with 4611686018427387904.
  destruct (Z.ltb_spec (b mod 2 ^ N) (2 ^ N - 1)).
  - split.
    + intros (s & [= <- <- <-]). repeat split; lia.
    + intros ([= <- <-] & _). eauto.
  - assert (HK : 0 <= 2 ^ N - 1 <= INT_MAX) by (unfold INT_MAX; lia).
    assert (Q : forall s, q_loop (2 ^ N - 1) 0 t = Ok (v, s, rest, true) <->
              exists c, rfc_int_cont t = Some (c, rest) /\ v = 2 ^ N - 1 + c /\ v < 4611686018427387904 /\
                s = 7 * (zlen t - zlen rest - 1) /\ zlen t - zlen rest <= 9).
    { intros s. rewrite q_loop_rfc by (auto; lia). unfold INT_MAX.
      split; intros (c & H1 & H2 & H3 & H4 & H5); exists c; repeat split; auto; try lia. }
    destruct t as [|x t].
    { cbn. split; [intros (s & E); discriminate|intros (E & _); discriminate]. }
    split.
    + intros (s & E). apply Q in E as (c & E & -> & H1 & -> & H2). rewrite E. repeat split; lia.
    + intros (E & H1 & H2). destruct (rfc_int_cont (x :: t)) as [[c r]|] eqn:Ec; [|discriminate].
      apply some_pair_inj in E as [<- <-]. eexists. apply Q. exists c. repeat split; lia.
Qed.

(* state invariant of the reader between calls *)
Definition rs_ok (left shift : Z) : Prop := 0 <= left <= INT_MAX /\ 0 <= shift /\ (left = 0 -> shift = 0).

Lemma q_read_varint_inv N left shift p : 1 <= N <= 8 -> bytes p -> p <> [] -> rs_ok left shift ->
  match q_read_varint N left shift p with
  | Ok (l, s, rest, true) => 0 <= l <= INT_MAX /\ (exists c, p = c ++ rest /\ c <> [])
  | Ok (l, s, rest, false) => rest = [] /\ rs_ok l s /\ l <> 0
  | Err e => e = ERR_QPACK_FATAL
  | Abort => False
  end.
Proof.
  intros HN Hp Hne (HI & Hs & H0). destruct (prefix_k N HN) as [Hkk Hk].
  destruct (Z.eq_dec left 0) as [->|Hl].
  - rewrite H0 by auto. destruct p as [|b t]; [congruence|].
    rewrite q_read_varint_0 by auto. apply bytes_cons in Hp as [Hb Ht].
    pose proof (Z.mod_pos_bound b (2 ^ N) ltac:(lia)).
    destruct (Z.ltb_spec (b mod 2 ^ N) (2 ^ N - 1)).
    + split; [unfold INT_MAX; lia|]. exists [b]; split; [reflexivity|discriminate].
    + destruct t as [|x t]; [split; [reflexivity|]; unfold rs_ok, INT_MAX; lia|].
      pose proof (q_loop_inv (x :: t) (2 ^ N - 1) 0 Ht ltac:(unfold INT_MAX; lia) ltac:(lia)) as Q.
      destruct (q_loop (2 ^ N - 1) 0 (x :: t)) as [[[[l s] rest] [|]]|e|]; auto.
      * destruct Q as (Q1 & Q2 & c & -> & _). split; [lia|]. exists (b :: c); split; [reflexivity|discriminate].
      * destruct Q as (Q1 & Q2 & ->). unfold rs_ok; repeat split; lia.
  - unfold q_read_varint. rewrite (proj2 (Z.eqb_neq left 0)) by auto.
    pose proof (q_loop_inv p left shift Hp HI Hs) as Q.
    destruct (q_loop left shift p) as [[[[l s] rest] [|]]|e|]; auto.
    + destruct Q as (Q1 & Q2 & Q3). split; [lia|auto].
    + destruct Q as (Q1 & Q2 & ->). unfold rs_ok; split; [reflexivity|].
      assert (l <> 0) by lia. repeat split; lia.
Qed.

(* cutting the input *)
Lemma q_read_varint_app N left shift a b : 1 <= N <= 8 -> bytes a -> a <> [] -> b <> [] -> rs_ok left shift ->
  q_read_varint N left shift (a ++ b) =
  match q_read_varint N left shift a with
  | Ok (l, s, rest, true) => Ok (l, s, rest ++ b, true)
  | Ok (l, s, rest, false) => q_read_varint N l s b
  | Err e => Err e
  | Abort => Abort
  end.
Proof.
  intros HN Ha Hne Hbe (HI & Hs & H0). destruct (prefix_k N HN) as [Hkk Hk].
  assert (NZ : forall l s, l <> 0 -> q_read_varint N l s b = q_loop l s b).
  { intros l s Hl. unfold q_read_varint. rewrite (proj2 (Z.eqb_neq l 0)) by auto. reflexivity. }
  destruct (Z.eq_dec left 0) as [->|Hl].
  - rewrite H0 by auto. destruct a as [|x a]; [congruence|]. cbn [app].
    rewrite !q_read_varint_0 by auto. apply bytes_cons in Ha as [Hx Ha].
    destruct (x mod 2 ^ N <? 2 ^ N - 1); [reflexivity|].
    destruct a as [|y a].
    + cbn [app]. rewrite NZ by lia. destruct b; [congruence|reflexivity].
    + cbn [app]. change (y :: a ++ b) with ((y :: a) ++ b).
      assert (HK : 0 <= 2 ^ N - 1 <= INT_MAX) by (unfold INT_MAX; lia).
      rewrite q_loop_app by (auto; lia).
      pose proof (q_loop_inv (y :: a) (2 ^ N - 1) 0 Ha HK ltac:(lia)) as Q.
      destruct (q_loop (2 ^ N - 1) 0 (y :: a)) as [[[[l s] rest] [|]]|e|]; auto.
      rewrite NZ by lia. reflexivity.
  - unfold q_read_varint at 1 2. rewrite !(proj2 (Z.eqb_neq left 0)) by auto.
    rewrite q_loop_app by auto.
    pose proof (q_loop_inv a left shift Ha HI Hs) as Q.
    destruct (q_loop left shift a) as [[[[l s] rest] [|]]|e|]; auto.
    rewrite NZ by lia. reflexivity.
Qed.

(* ---------------- writer ---------------- *)
Lemma q_put_loop_spec f : forall n rest, 0 <= n < 128 ^ Z.of_nat (S f) ->
  bytes (q_put_loop f n) /\ rfc_int_cont (q_put_loop f n ++ rest) = Some (n, rest) /\
  forall len, q_put_len_loop f n len = len + zlen (q_put_loop f n) - 1.
Proof.
  induction f as [|f IH]; intros n rest Hn; cbn [q_put_loop q_put_len_loop].
  - change (128 ^ Z.of_nat 1) with 128 in Hn. cbn [app rfc_int_cont].
    replace (n mod 256) with n by lia.
    destruct (Z.ltb_spec n 128); [|lia]. split; [|split; [reflexivity|]].
    + apply bytes_cons; split; [unfold is_byte; lia|constructor].
    + intros; rewrite zlen_cons, zlen_nil; lia.
  - destruct (Z.geb_spec n 128).
    + rewrite Z.shiftr_div_pow2 by lia. change (2^7) with 128.
      assert (Hn' : 0 <= n / 128 < 128 ^ Z.of_nat (S f)).
      { split; [lia|]. apply Z.div_lt_upper_bound; [lia|].
        replace (Z.of_nat (S (S f))) with (1 + Z.of_nat (S f)) in Hn by lia.
        rewrite Z.pow_add_r in Hn by lia. change (128^1) with 128 in Hn. lia. }
      destruct (IH (n / 128) rest Hn') as (B & R & L).
      assert (E : Z.lor 128 (Z.land n 127) = 128 + n mod 128).
      { rewrite land127. apply lor_disjoint. rewrite Z.land_comm. change 128 with (1 * 2 ^ 7).
        apply land_low_high; lia. }
      rewrite E. split; [|split].
      * apply bytes_cons; split; [unfold is_byte; lia|auto].
      * cbn [app rfc_int_cont]. destruct (Z.ltb_spec (128 + n mod 128) 128); [lia|].
        rewrite R. f_equal. f_equal. lia.
      * intros len. rewrite L, zlen_cons. lia.
    + cbn [app rfc_int_cont].
      replace (n mod 256) with n by lia.
      destruct (Z.ltb_spec n 128); [|lia]. split; [|split; [reflexivity|]].
      * apply bytes_cons; split; [unfold is_byte; lia|constructor].
      * intros; rewrite zlen_cons, zlen_nil; lia.
Qed.

Lemma first_byte_split N first n : 1 <= N <= 8 -> is_byte first -> 0 <= n <= 2 ^ N - 1 ->
  Z.lor (Z.land first (255 - (2 ^ N - 1))) n mod 256 = first / 2 ^ N * 2 ^ N + n.
Proof.
  intros HN Hf Hn.
  assert (E : Z.land first (255 - (2 ^ N - 1)) = first / 2 ^ N * 2 ^ N).
  { assert (N = 1 \/ N = 2 \/ N = 3 \/ N = 4 \/ N = 5 \/ N = 6 \/ N = 7 \/ N = 8) as D by lia.
    apply Z.eqb_eq.
    assert (S : forallb (fun N => forallb (fun f => Z.land f (255 - (2 ^ N - 1)) =? f / 2 ^ N * 2 ^ N) all_bytes)
              [1;2;3;4;5;6;7;8] = true) by (vm_compute; reflexivity).
    rewrite forallb_forall in S. specialize (S N). rewrite forallb_forall in S.
    apply S; [cbn; lia|apply all_bytes_in; auto]. }
  rewrite E. rewrite lor_disjoint.
  - destruct (prefix_k N HN) as [_ Hk]. unfold is_byte in Hf.
    assert (0 < 2 ^ N) by lia.
    assert (first / 2 ^ N * 2 ^ N + n < 256).
    { assert (N = 1 \/ N = 2 \/ N = 3 \/ N = 4 \/ N = 5 \/ N = 6 \/ N = 7 \/ N = 8) as D by lia.
      destruct D as [->|[->|[->|[->|[->|[->|[->| ->]]]]]]]; cbn in *; lia. }
    apply Z.mod_small. split; [|lia].
    assert (0 <= first / 2 ^ N) by (apply Z.div_pos; lia). nia.
  - rewrite Z.land_comm. apply land_low_high; lia.
Qed.

Lemma q_put_varint_first N first n : 1 <= N <= 8 -> is_byte first -> 0 <= n < 2 ^ 62 ->
  exists t, q_put_varint first n N =
      (first / 2 ^ N * 2 ^ N + Z.min n (2 ^ N - 1)) :: t /\
    bytes (q_put_varint first n N) /\
    zlen (q_put_varint first n N) = q_put_varint_len n N /\
    (forall rest, rfc_int N (q_put_varint first n N ++ rest) = Some (n, rest)) /\
    zlen (q_put_varint first n N) <= 10.
Proof.
  intros HN Hf Hn. change (2^62) with 4611686018427387904 in Hn.
  unfold q_put_varint, q_put_varint_len.
  destruct (prefix_k N HN) as [_ Hk].
  assert (HB : forall m, 0 <= m <= 2 ^ N - 1 -> is_byte (first / 2 ^ N * 2 ^ N + m)).
  { intros m Hm. unfold is_byte in *.
    assert (N = 1 \/ N = 2 \/ N = 3 \/ N = 4 \/ N = 5 \/ N = 6 \/ N = 7 \/ N = 8) as D by lia.
    destruct D as [->|[->|[->|[->|[->|[->|[->| ->]]]]]]]; cbn in *; lia. }
  assert (HM : forall m, 0 <= m <= 2 ^ N - 1 -> (first / 2 ^ N * 2 ^ N + m) mod 2 ^ N = m).
  { intros m Hm. rewrite Z.add_comm, Z.mod_add by lia. apply Z.mod_small; lia. }
  destruct (Z.ltb_spec n (2 ^ N - 1)).
  - rewrite first_byte_split by (auto; lia).
    exists []. rewrite Z.min_l by lia. split; [reflexivity|]. split; [|split; [reflexivity|split]].
    + apply bytes_cons; split; [apply HB; lia|constructor].
    + intros rest. cbn [app rfc_int]. rewrite HM by lia.
      destruct (Z.ltb_spec n (2 ^ N - 1)); [reflexivity|lia].
    + cbn; lia.
  - rewrite first_byte_split by (auto; lia). rewrite Z.min_r by lia.
    assert (Hn' : 0 <= n - (2 ^ N - 1) < 128 ^ Z.of_nat (S 10)).
    { change (128 ^ Z.of_nat 11) with 151115727451828646838272. lia. }
    exists (q_put_loop 10 (n - (2 ^ N - 1))). split; [reflexivity|].
    destruct (q_put_loop_spec 10 _ [] Hn') as (B & _ & L).
    split; [|split; [|split]].
    + apply bytes_cons; split; [apply HB; lia|auto].
    + rewrite zlen_cons, L. lia.
    + intros rest. cbn [app rfc_int]. rewrite HM by lia.
      destruct (Z.ltb_spec (2 ^ N - 1) (2 ^ N - 1)); [lia|].
      destruct (q_put_loop_spec 10 _ rest Hn') as (_ & R & _). rewrite R.
      f_equal; f_equal; lia.
    + rewrite zlen_cons.
      assert (G : forall f m, 0 <= m < 128 ^ Z.of_nat f -> (1 <= f)%nat -> forall g, (f <= S g)%nat ->
                zlen (q_put_loop g m) <= Z.of_nat f).
      { clear. induction f as [|f IH]; intros m Hm Hf g Hg; [lia|].
        destruct g as [|g]; cbn [q_put_loop]; [rewrite zlen_cons, zlen_nil; lia|].
        destruct (Z.geb_spec m 128).
        - rewrite zlen_cons. destruct f as [|f].
          + change (128 ^ Z.of_nat 1) with 128 in Hm; lia.
          + assert (zlen (q_put_loop g (Z.shiftr m 7)) <= Z.of_nat (S f)); [|lia].
            apply IH; [|lia|lia]. rewrite Z.shiftr_div_pow2 by lia. change (2^7) with 128.
            split; [lia|]. apply Z.div_lt_upper_bound; [lia|].
            replace (Z.of_nat (S (S f))) with (1 + Z.of_nat (S f)) in Hm by lia.
            rewrite Z.pow_add_r in Hm by lia. change (128^1) with 128 in Hm. lia.
        - rewrite zlen_cons, zlen_nil; lia. }
      assert (zlen (q_put_loop 10 (n - (2 ^ N - 1))) <= Z.of_nat 9); [|lia].
      apply G; [|lia|lia]. change (128 ^ Z.of_nat 9) with 9223372036854775808. lia.
Qed.

(* what a reader gets from a written integer *)
Lemma q_read_put N first n rest : 1 <= N <= 8 -> is_byte first -> 0 <= n < 2 ^ 62 -> bytes rest ->
  exists s, q_read_varint N 0 0 (q_put_varint first n N ++ rest) = Ok (n, s, rest, true).
Proof.
  intros HN Hf Hn Hr.
  destruct (q_put_varint_first N first n HN Hf Hn) as (t & _ & B & _ & R & L).
  apply q_read_varint_rfc; auto; [apply bytes_app; auto|].
  repeat split; auto; try lia. rewrite zlen_app. lia.
Qed.

Lemma feed_qint_concat N ps : forall left shift, 1 <= N <= 8 -> bytes (concat ps) -> rs_ok left shift ->
  ps <> [] -> Forall (fun p => p <> []) ps ->
  feed_qint N left shift ps =
  match q_read_varint N left shift (concat ps) with
  | Ok (v, s, rest, true) => Ok (Some (v, rest))
  | Ok (v, s, rest, false) => Ok None
  | Err e => Err e
  | Abort => Abort
  end.
Proof.
  induction ps as [|p ps IH]; intros left shift HN Hb Hs Hne Hf; [congruence|].
  inversion Hf as [|? ? Hp Hps]; subst. cbn [feed_qint concat] in *. apply bytes_app in Hb as [Bp Bps].
  pose proof (q_read_varint_inv N left shift p HN Bp Hp Hs) as I.
  destruct ps as [|p2 ps].
  - cbn [concat]. rewrite !app_nil_r.
    destruct (q_read_varint N left shift p) as [[[[v s] rest] [|]]|e|]; auto.
    rewrite app_nil_r; auto.
  - assert (Hc : concat (p2 :: ps) <> []).
    { inversion Hps; subst. cbn. destruct p2; [congruence|discriminate]. }
    rewrite q_read_varint_app by auto.
    destruct (q_read_varint N left shift p) as [[[[v s] rest] [|]]|e|]; auto.
    destruct I as (-> & Hs' & Hnz). apply IH; auto. discriminate.
Qed.

(* everything the reader can do, on any cut *)
Lemma feed_qint_full N ps : 1 <= N <= 8 -> bytes (concat ps) -> ps <> [] -> Forall (fun p => p <> []) ps ->
  match feed_qint N 0 0 ps with
  | Ok (Some (v, rest)) => rfc_int N (concat ps) = Some (v, rest) /\ 0 <= v < 2 ^ 62
  | Ok None => rfc_int N (concat ps) = None
  | Err e => e = ERR_QPACK_FATAL /\
      (forall v rest, rfc_int N (concat ps) = Some (v, rest) ->
         2 ^ 62 <= v \/ 10 < zlen (concat ps) - zlen rest)
  | Abort => False
  end.
Proof.
  intros HN Hb Hne Hf.
  assert (R0 : rs_ok 0 0) by (unfold rs_ok, INT_MAX; lia).
  rewrite feed_qint_concat by auto.
  assert (Hc : concat ps <> []).
  { destruct Hf; [congruence|]. cbn. destruct x; [congruence|discriminate]. }
  pose proof (q_read_varint_inv N 0 0 (concat ps) HN Hb Hc R0) as I.
  pose proof (fun v rest => q_read_varint_rfc N (concat ps) v rest HN Hb) as Q.
  destruct (q_read_varint N 0 0 (concat ps)) as [[[[v s] rest] [|]]|e|] eqn:E; auto.
  - destruct (proj1 (Q v rest) (ex_intro _ s eq_refl)) as (H1 & H2 & _). split; [auto|lia].
  - destruct I as (-> & _ & _). clear Q. destruct (concat ps) as [|b t]; [congruence|].
    rewrite q_read_varint_0 in E by auto. cbn [rfc_int].
    destruct (b mod 2 ^ N <? 2 ^ N - 1); [discriminate|].
    apply bytes_cons in Hb as [_ Ht]. destruct (prefix_k N HN) as [_ Hk].
    assert (G : forall l n s v s', bytes l -> 0 <= n <= INT_MAX -> 0 <= s -> q_loop n s l = Ok (v, s', [], false) -> rfc_int_cont l = None).
    { clear. induction l as [|b l IH]; intros n s v s' Hb Hn Hs H; [reflexivity|].
      apply bytes_cons in Hb as [Hb Hl]. rewrite q_loop_cons in H by auto. cbn [rfc_int_cont].
      destruct (s >? 62); [discriminate|].
      destruct (Z.ltb_spec INT_MAX (n + b mod 128 * 2 ^ s)); [discriminate|].
      destruct (b <? 128); [discriminate|].
      pose proof (pow2_pos s Hs). apply IH in H; auto; try nia. rewrite H; reflexivity. }
    destruct t as [|x t]; [reflexivity|].
    erewrite G; [reflexivity|exact Ht| | |exact E]; unfold INT_MAX; lia.
  - split; [auto|]. intros v rest H.
    destruct (Z.ltb_spec v (2 ^ 62)); [|lia].
    destruct (Z.leb_spec (zlen (concat ps) - zlen rest) 10); [|lia].
    destruct (proj2 (Q v rest)) as [s' Hs']; [auto|]. discriminate.
Qed.

Lemma q_put_varint_full N first n : 3 <= N <= 8 -> is_byte first -> 0 <= n < 2 ^ 62 ->
  let l := q_put_varint first n N in
  bytes l /\ zlen l = q_put_varint_len n N /\
  (exists b t, l = b :: t /\ b / 2 ^ N = first / 2 ^ N) /\
  (forall rest, rfc_int N (l ++ rest) = Some (n, rest)) /\
  (forall rest, bytes rest -> exists s, q_read_varint N 0 0 (l ++ rest) = Ok (n, s, rest, true)).
Proof.
  intros HN Hf Hn. cbv zeta.
  destruct (q_put_varint_first N first n ltac:(lia) Hf Hn) as (t & E & B & L & R & _).
  split; [auto|]. split; [auto|]. split; [|split; [auto|intros; apply q_read_put; auto; lia]].
  rewrite E. eexists _, t; split; [reflexivity|].
  destruct (prefix_k N ltac:(lia)) as [_ Hk].
  rewrite Z.div_add_l by lia. rewrite (Z.div_small (Z.min _ _)) by lia. lia.
Qed.
